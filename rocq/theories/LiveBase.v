(** Editing one node of layers without instances: the composed stage, with one
    attribute of one composed node set, and the stage composed again. *)

From Coq Require Import String List NArith ZArith Bool Arith Lia Permutation Relations.
From Verif Require Import PyStr PyStrFacts NxtPath PathSpec PathProofs Dict DictFacts ListMerger SortRows Layer PyVal NodeIO NodeIOProofs PyClass PyClassSpec PyClassProofs
  NodeEdit Comp CompSpec MergeProofs CompProofs CompProxyProofs CompPostProofs CompLookProofs CompTreeProofs CompOrderProofs CompStageProofs CompTotalProofs StageView StageViewProofs LiveSpec Live.
From Verif Require DirtyMap SortProofs.
Import ListNotations.

(** *** The order of the numbers is that of the layers, place by place *)

Lemma opinions_numbered cs layers : opinions cs [numbered layers] = opinions cs layers.
Proof.
  set (P := fun r : layer_row => if list_eq_dec (list_eq_dec N.eq_dec) (fst r) (ns_of cs) then true else false).
  assert (HP : forall r, P r = true <-> fst r = ns_of cs). { intros r. unfold P. destruct (list_eq_dec _ _ _); split; auto; discriminate. }
  unfold opinions. fold P. f_equal. cbn [concat]. rewrite app_nil_r. unfold numbered. rewrite !filter_concat, map_map. f_equal. apply map_ext. intros l.
  destruct (SortProofs.sort_rows_spec (fun r : layer_row => length (fst r)) l) as (_ & _ & S). specialize (S (length (ns_of cs))).
  assert (Hs : forall x, P x = true -> Nat.eqb (length (fst x)) (length (ns_of cs)) = true) by (intros r Hr; apply HP in Hr; rewrite Hr; apply Nat.eqb_refl).
  pose proof (filter_filter P _ (sort_multidimensional_list (fun r : layer_row => length (fst r)) l) Hs) as A. pose proof (filter_filter P _ l Hs) as B. rewrite S in A. exact (eq_trans (eq_sym A) B).
Qed.
Lemma numbered_in layers r : In r (numbered layers) <-> exists l, In l layers /\ In r l.
Proof.
  unfold numbered. rewrite in_concat. split.
  - intros (l & Hl & Hr). apply in_map_iff in Hl as (l0 & <- & Hl). apply sort_in in Hr. eauto.
  - intros (l & Hl & Hr). eexists. split; [apply in_map; exact Hl|]. now apply sort_in.
Qed.
Lemma well_formed_numbered layers : well_formed layers <-> forall r, In r (numbered layers) -> fits r.
Proof.
  split.
  - intros wf r Hr. apply numbered_in in Hr as (l & Hl & Hr). now apply (wf l).
  - intros F l r Hl Hr. apply F. apply numbered_in. eauto.
Qed.

(** *** Nodes that differ in some attributes *)

Definition near (K : list pystr) (n m : node) : Prop := forall a, ~ In a K -> dget a n = dget a m.
Lemma near_refl K n : near K n n. Proof. intros a _. reflexivity. Qed.
Lemma near_sym K o o' : near K o o' -> near K o' o. Proof. intros Ho a Ha. symmetry. now apply Ho. Qed.
Lemma near_value K n m a : near K n m -> ~ In a K -> attr_or_none n a = attr_or_none m a.
Proof. intros B Ha. unfold attr_or_none. now rewrite (B a Ha). Qed.
Lemma dset_near K a v o o' : near K o o' -> near K (dset a v o) (dset a v o').
Proof. intros Ho b Hb. rewrite !dget_dset. destruct (str_eqb a b); [reflexivity|now apply Ho]. Qed.
Lemma dset_near_l K a v o o' : In a K -> near K o o' -> near K (dset a v o) o'.
Proof. intros Ha Ho b Hb. rewrite dget_dset. destruct (str_eqb a b) eqn:E; [apply str_eqb_eq in E as ->; contradiction|now apply Ho]. Qed.

(** The attributes in which the nodes may differ and those in which the composed
    nodes may then differ. *)
Definition spreads (K Kc : list pystr) : Prop :=
  (forall p sps sps', Forall2 (near K) sps sps' -> forall first o o', near Kc o o' -> near Kc (overloads p first sps o) (overloads p first sps' o')) /\
  (forall a, In a [NAME; PARENT_PATH; INSTANCE_PATH] -> ~ In a K /\ ~ In a Kc).

(** A tracked attribute with its source and type. *)
Definition tracked_keys (k : pystr) : list pystr := [k; k ++ META_SOURCE].
Definition tracked_all (k : pystr) : list pystr := [k; k ++ META_SOURCE; k ++ META_TYPE].
Lemma tracked_spreads k : In k tracked -> spreads (tracked_all k) (tracked_keys k).
Proof.
  intros Hk.
  assert (Free : forall a, In a (NAME :: PARENT_PATH :: SOURCE_LAYER :: CHILD_ORDER :: TRACKED) -> a = k \/ ~ In a (tracked_all k)).
  { intros a Ha. destruct (list_eq_dec N.eq_dec a k) as [->|Hne]; [now left|right]. intros Hi. apply str_in_In in Hi. cbn in Hk. cbn in Ha.
    repeat (destruct Hk as [<-|Hk]; [repeat (destruct Ha as [<-|Ha]; [first [congruence|vm_compute in Hi; discriminate Hi]|]); destruct Ha|]). destruct Hk. }
  assert (Part : forall a, ~ In a (tracked_all k) -> ~ In a (tracked_keys k)) by (intros a Ha Hi; apply Ha; destruct Hi as [<-|[<-|[]]]; [now left|right; now left]).
  assert (Kne : k <> NAME /\ k <> PARENT_PATH /\ k <> SOURCE_LAYER /\ k <> CHILD_ORDER /\ k <> INSTANCE_PATH).
  { cbn in Hk. repeat (destruct Hk as [<-|Hk]; [repeat split; intros Q; apply (f_equal (str_eqb NAME)) in Q as Q1; discriminate Q|]). destruct Hk. }
  destruct Kne as (K1 & K2 & K3 & K4 & K5).
  assert (F : forall a, In a (NAME :: PARENT_PATH :: SOURCE_LAYER :: CHILD_ORDER :: TRACKED) -> a <> k -> ~ In a (tracked_all k)) by (intros a Ha Hn; destruct (Free a Ha); [contradiction|assumption]).
  split.
  2:{ intros a Ha. assert (Fa : ~ In a (tracked_all k)). { apply F; [|intros ->; destruct Ha as [Q|[Q|[Q|[]]]]; congruence]. destruct Ha as [<-|[<-|[<-|[]]]]; cbn; tauto. } split; [exact Fa|now apply Part]. }
  assert (Ov : forall p sp sp', near (tracked_all k) sp sp' -> forall o o', near (tracked_keys k) o o' -> near (tracked_keys k) (overload p o sp) (overload p o' sp')).
  { intros p sp sp' B. unfold overload. assert (ES : attr_or_none sp SOURCE_LAYER = attr_or_none sp' SOURCE_LAYER) by (apply near_value with (tracked_all k); [exact B|apply F; [cbn; tauto|congruence]]). rewrite <- ES.
    assert (G : forall l, (forall a, In a l -> In a TRACKED) -> forall o o', near (tracked_keys k) o o' ->
      near (tracked_keys k) (fold_left (fun o a => let v := attr_or_none sp a in if has_opinion v then dset (a ++ META_SOURCE) (VTuple [attr_or_none sp SOURCE_LAYER; VStr p]) (dset a v o) else o) l o)
           (fold_left (fun o a => let v := attr_or_none sp' a in if has_opinion v then dset (a ++ META_SOURCE) (VTuple [attr_or_none sp SOURCE_LAYER; VStr p]) (dset a v o) else o) l o')).
    { induction l as [|a l IH]; intros Hl x y Hxy; cbn [fold_left]; [exact Hxy|]. apply IH; [intros b Hb; apply Hl; now right|]. cbv zeta.
      destruct (list_eq_dec N.eq_dec a k) as [->|Hne].
      - assert (L : forall u v w w', near (tracked_keys k) w w' -> near (tracked_keys k) (dset (k ++ META_SOURCE) u (dset k v w)) w') by (intros; apply dset_near_l; [right; now left|]; apply dset_near_l; [now left|assumption]).
        destruct (has_opinion (attr_or_none sp k)), (has_opinion (attr_or_none sp' k)); auto; [apply L; apply near_sym; apply L; now apply near_sym|apply near_sym; apply L; now apply near_sym].
      - rewrite <- (near_value _ sp sp' a B) by (apply F; [do 4 right; apply Hl; now left|exact Hne]). destruct (has_opinion _); [|exact Hxy]. apply dset_near. now apply dset_near. }
    apply G. auto. }
  intros p sps sps' HF. induction HF as [|sp sp' sps sps' B _ IH]; intros first o o' Ho; cbn [overloads]; [exact Ho|]. cbv zeta. apply IH.
  assert (EC : attr_or_none sp CHILD_ORDER = attr_or_none sp' CHILD_ORDER) by (apply near_value with (tracked_all k); [exact B|apply F; [cbn; tauto|congruence]]). rewrite EC.
  set (x := if first then dset CHILD_ORDER (attr_or_none sp' CHILD_ORDER) o else o). set (y := if first then dset CHILD_ORDER (attr_or_none sp' CHILD_ORDER) o' else o'). assert (Hxy : near (tracked_keys k) x y) by (unfold x, y; destruct first; [now apply dset_near|exact Ho]).
  pose proof (Ov p sp sp' B x y Hxy) as Hov. destruct (str_eqb p WORLD); [exact Hov|].
  assert (E : attr_or_none (overload p x sp) CHILD_ORDER = attr_or_none (overload p y sp') CHILD_ORDER) by (apply near_value with (tracked_keys k); [exact Hov|apply Part; apply F; [cbn; tauto|congruence]]).
  rewrite E. now apply dset_near.
Qed.

(** The child order. *)
Lemma order_spreads : spreads [CHILD_ORDER] [CHILD_ORDER].
Proof.
  assert (NE : forall a, a <> CHILD_ORDER -> ~ In a [CHILD_ORDER]) by (intros a Ha [Q|[]]; congruence).
  split.
  2:{ intros a Ha. assert (Fa : ~ In a [CHILD_ORDER]). { apply NE. intros ->. destruct Ha as [Q|[Q|[Q|[]]]]; discriminate Q. } auto. }
  intros p sps sps' HF. induction HF as [|sp sp' sps sps' B _ IH]; intros first o o' Ho; cbn [overloads]; [exact Ho|]. cbv zeta. apply IH.
  assert (D : forall u v w w', near [CHILD_ORDER] w w' -> near [CHILD_ORDER] (dset CHILD_ORDER u w) (dset CHILD_ORDER v w')).
  { intros u v w w' Hw. apply dset_near_l; [now left|]. apply near_sym. apply dset_near_l; [now left|]. now apply near_sym. }
  assert (V : forall a, In a (SOURCE_LAYER :: TRACKED) -> attr_or_none sp a = attr_or_none sp' a).
  { intros a Ha. apply near_value with [CHILD_ORDER]; [exact B|]. apply NE. intros ->. apply str_in_In in Ha. vm_compute in Ha. discriminate Ha. }
  assert (Ov : forall x y, near [CHILD_ORDER] x y -> near [CHILD_ORDER] (overload p x sp) (overload p y sp')).
  { unfold overload. rewrite <- (V SOURCE_LAYER) by (now left).
    assert (G : forall l, (forall a, In a l -> In a TRACKED) -> forall o o', near [CHILD_ORDER] o o' ->
      near [CHILD_ORDER] (fold_left (fun o a => let v := attr_or_none sp a in if has_opinion v then dset (a ++ META_SOURCE) (VTuple [attr_or_none sp SOURCE_LAYER; VStr p]) (dset a v o) else o) l o)
           (fold_left (fun o a => let v := attr_or_none sp' a in if has_opinion v then dset (a ++ META_SOURCE) (VTuple [attr_or_none sp SOURCE_LAYER; VStr p]) (dset a v o) else o) l o')).
    { induction l as [|a l IH']; intros Hl x y Hxy; cbn [fold_left]; [exact Hxy|]. apply IH'; [intros b Hb; apply Hl; now right|]. cbv zeta.
      rewrite <- (V a) by (right; apply Hl; now left). destruct (has_opinion _); [|exact Hxy]. apply dset_near. now apply dset_near. }
    intros x y Hxy. apply G; auto. }
  destruct (str_eqb p WORLD).
  - apply Ov. destruct first; [now apply D|exact Ho].
  - apply D. apply Ov. destruct first; [now apply D|exact Ho].
Qed.

(** *** Before the instances: the same nodes, made of the same layers *)

Lemma numbers_paths rows rows' : map row_path rows = map row_path rows' -> forall n p, numbers n p rows = numbers n p rows'.
Proof.
  revert rows'. induction rows as [|r rows IH]; intros [|r' rows'] E n p; try discriminate E; [reflexivity|]. cbn [map] in E. assert (E1 : row_path r = row_path r') by exact (f_equal (hd []) E). assert (E2 : map row_path rows = map row_path rows') by exact (f_equal (@tl _) E). cbn [numbers]. rewrite E1, (IH _ E2). reflexivity.
Qed.
Lemma Forall2_rev {A B} (R : A -> B -> Prop) l l' : Forall2 R l l' -> Forall2 R (rev l) (rev l').
Proof. induction 1; cbn [rev]; [constructor|]. apply Forall2_app; [assumption|]. constructor; [assumption|constructor]. Qed.
Lemma Forall2_refl {A} (R : A -> A -> Prop) l : (forall x, R x x) -> Forall2 R l l.
Proof. intros; induction l; constructor; auto. Qed.

Lemma F2_at {X Y} (R : X -> Y -> Prop) l l' : Forall2 R l l' -> forall i,
  match nth_error l i, nth_error l' i with None, None => True | Some m, Some m' => R m m' | _, _ => False end.
Proof. induction 1 as [|x y l l' Hxy _ IH]; intros [|i]; cbn [nth_error]; [exact I|exact I|exact Hxy|apply IH]. Qed.

Section Pre.
Variables K Kc : list pystr.
Hypothesis Spr : spreads K Kc.
Variables (T T' : list (list layer_row)) (A B : list layer_row) (ns : list pystr) (n n' : node).
Hypothesis E : concat T = A ++ (ns, n) :: B.
Hypothesis E' : concat T' = A ++ (ns, n') :: B.
Hypothesis But : near K n n'.
Let H := comp_pre_proxies T.
Let H' := comp_pre_proxies T'.
Let q := node_namespace_to_str_path ns.

Lemma pre_paths : map row_path (concat T) = map row_path (concat T').
Proof. rewrite E, E', !map_app. reflexivity. Qed.
Lemma pre_same_keys : dkeys (comps H') = dkeys (comps H).
Proof.
  unfold H, H'. rewrite !pre_keys, !map_map. symmetry. f_equal. exact pre_paths.
Qed.
Lemma stack_split p : stack p (map as_placed (concat T)) = stack p (map as_placed A) ++ (if str_eqb q p then [n] else []) ++ stack p (map as_placed B) /\
  stack p (map as_placed (concat T')) = stack p (map as_placed A) ++ (if str_eqb q p then [n'] else []) ++ stack p (map as_placed B).
Proof.
  rewrite E, E'. unfold stack. rewrite !map_app, !filter_app, !map_app. cbn [map filter as_placed fst]. unfold row_path. cbn [fst snd]. fold q. destruct (str_eqb q p); split; reflexivity.
Qed.
Lemma built_near p (L L' : list node) (nums : list nat) : Forall2 (near K) L L' -> (p <> q -> L = L') ->
  match match L with [] => None | sp :: _ => Some {| own := overloads p true (rev L) [(NAME, attr_or_none sp NAME)]; cbases := map Sp nums |} end,
        match L' with [] => None | sp :: _ => Some {| own := overloads p true (rev L') [(NAME, attr_or_none sp NAME)]; cbases := map Sp nums |} end with
  | None, None => True
  | Some c, Some c' => cbases c' = cbases c /\ near Kc (own c) (own c') /\ (p <> q -> own c' = own c)
  | _, _ => False
  end.
Proof.
  intros F Same. destruct F as [|sp sp' l l' B1 F]; [exact I|]. cbn [cbases own]. split; [reflexivity|]. split.
  - assert (E0 : attr_or_none sp NAME = attr_or_none sp' NAME) by (apply near_value with K; [exact B1|apply Spr; cbn; tauto]). rewrite E0. apply (proj1 Spr); [|apply near_refl].
    apply Forall2_rev. now constructor.
  - intros Hp. specialize (Same Hp). injection Same as -> ->. reflexivity.
Qed.
Lemma pre_near p :
  match dget p (comps H), dget p (comps H') with
  | None, None => True
  | Some c, Some c' => cbases c' = cbases c /\ near Kc (own c) (own c') /\ (p <> q -> own c' = own c)
  | _, _ => False
  end.
Proof.
  destruct (stack_split p) as (S1 & S2).
  assert (F : Forall2 (near K) (stack p (map as_placed (concat T))) (stack p (map as_placed (concat T')))).
  { rewrite S1, S2. apply Forall2_app; [apply Forall2_refl, near_refl|]. apply Forall2_app; [|apply Forall2_refl, near_refl]. destruct (str_eqb q p); repeat constructor. exact But. }
  unfold H, H'. rewrite (pre_get T p), (pre_get T' p). rewrite (numbers_paths _ _ pre_paths). apply built_near; [exact F|].
  intros Hp. assert (Ep : str_eqb q p = false) by (apply str_eqb_neq; congruence). rewrite Ep in S1, S2. cbn [app] in S1, S2. rewrite <- S1 in S2. symmetry. exact S2.
Qed.
Lemma pre_same_here p : here H' p = here H p.
Proof. unfold here, dmem. pose proof (pre_near p) as P. destruct (dget p (comps H)), (dget p (comps H')); try contradiction; reflexivity. Qed.
Lemma spec_near i : match nth_error (specs H) i, nth_error (specs H') i with
  | None, None => True | Some m, Some m' => near K m m' | _, _ => False end.
Proof.
  change (specs H) with (map snd (concat T)). change (specs H') with (map snd (concat T')). rewrite E, E', !map_app. cbn [map snd]. assert (F : Forall2 (near K) (map snd A ++ n :: map snd B) (map snd A ++ n' :: map snd B)).
  { apply Forall2_app; [apply Forall2_refl, near_refl|]. constructor; [exact But|apply Forall2_refl, near_refl]. }
  exact (F2_at _ _ _ F i).
Qed.
Lemma pre_same_attr p a : ~ In a K -> ~ In a Kc -> attr H' p a = attr H p a.
Proof.
  intros Ha Hc. unfold attr. pose proof (pre_near p) as P. destruct (dget p (comps H)) as [c|], (dget p (comps H')) as [c'|]; try contradiction; [|reflexivity].
  destruct P as (Eb & N & _). unfold node_attr. rewrite <- (N a Hc), Eb. destruct (dget a (own c)); [reflexivity|]. destruct (cbases c) as [|[i|] ?]; try reflexivity.
  pose proof (spec_near i) as P. destruct (nth_error (specs H) i), (nth_error (specs H') i); try contradiction; [|reflexivity]. symmetry. now apply near_value with K.
Qed.
Lemma pre_same_par p : par H' p = par H p.
Proof. apply par_same; [exact pre_same_here|]. apply pre_same_attr; apply Spr; cbn; tauto. Qed.
End Pre.

(** *** The stage of layers without instances *)

Lemma parents_dirty l : forall H H', fold_res post_parent l H = Ok H' -> dirty H' = dirty H.
Proof.
  induction l as [|p l IH]; intros H H' E; cbn [fold_res] in E; [now injection E as <-|]. destruct (post_parent H p) as [H1|] eqn:E1; [|discriminate E]. cbn [bind] in E. rewrite (IH _ _ E).
  unfold post_parent in E1. cbv zeta in E1. destruct (is_empty _); [now injection E1 as <-|]. destruct (here H _); [|now injection E1 as <-]. apply set_bases_ok in E1 as (-> & _). reflexivity.
Qed.
Lemma plain_comps layers fuel top one H : well_formed layers -> no_instances layers -> build_stage fuel top one layers = Built H ->
  let H0 := comp_pre_proxies (sorted_layers layers) in
  specs H = specs H0 /\ dirty H = [] /\ dkeys (comps H) = dkeys (comps H0) /\
  forall q, dget q (comps H) = option_map (fun c => {| own := own c; cbases := cbases c ++ par H0 q |}) (dget q (comps H0)).
Proof.
  intros wf Ni Bu. destruct fuel as [|fuel]; [discriminate Bu|]. cbv zeta. unfold build_stage in Bu. cbv zeta in Bu.
  change (map (sort_multidimensional_list (fun r => length (fst r))) layers) with (sorted_layers layers) in Bu. set (H0 := comp_pre_proxies (sorted_layers layers)) in *.
  pose proof (start_tree layers wf) as T. pose proof (good_pre (sorted_layers layers)) as G. fold H0 in T, G.
  assert (Hi : forall p b, inst_of H0 p = Some b -> b = [] \/ b = WORLD).
  { intros p b E. destruct (t_inst _ T p b E) as [->|(rs & Hr & ->)]; [now left|right]. destruct rs as [|r rs]; [reflexivity|exfalso]. destruct (here H0 p) eqn:Hp.
    - destruct (t_path _ T p Hp) as (cs & Hc & ->). assert (I : instp H0 (abs_path cs)). { exists (r :: rs). split; [exact Hr|]. split; [discriminate|exact E]. }
      apply (start_instp layers wf cs Hc) in I as (rs' & A & B & C). exact (Ni cs rs' Hc A B C).
    - apply here_false in Hp. unfold inst_of, attr in E. rewrite Hp in E. discriminate. }
  rewrite loop_none in Bu. 2:{ intros p. apply not_possible. destruct (inst_of H0 p) as [b|] eqn:E; [|now left]. right. destruct (Hi p b E) as [->| ->]; auto. }
  unfold post_proxy_comp in Bu. destruct (parents_never_fail _ H0 G T) as (H1 & E1). rewrite E1 in Bu. cbn [bind] in Bu. destruct (sorted_keys _ H0 G) as (Hn & Hin).
  destruct (parents_spec _ _ _ Hn (flat_full _ H0 G) (flat_sound _ H0 G) E1) as (A1 & A2 & A3 & A4 & A5 & A6). assert (Hk : forall q, here H1 q = here H0 q) by (intros q; now apply here_keys).
  rewrite instances_none in Bu.
  - injection Bu as <-. split; [exact A1|]. split; [now rewrite (parents_dirty _ _ _ E1)|]. split; [exact A2|]. intros q. rewrite A6. destruct (str_in q (sort_instances H0)) eqn:Eq; [reflexivity|].
    apply str_in_false in Eq. rewrite Hin in Eq. destruct (dget q (comps H0)) eqn:Ed; [|reflexivity]. destruct Eq. unfold here, dmem. now rewrite Ed.
  - intros p b E. unfold inst_of in E. rewrite A5 in E. destruct (Hi p b E) as [->| ->]; [right|now left]. rewrite Hk. destruct (here H0 []) eqn:Eh; [|reflexivity]. exfalso.
    destruct (t_path _ T [] Eh) as (cs & _ & Ec). destruct (absolute cs) as (s & Es). rewrite Es in Ec. discriminate.
Qed.

(** *** The edit *)

Lemma mro_ext {X} (eqb : X -> X -> bool) (b1 b2 : X -> list X) : (forall x, b1 x = b2 x) -> forall f c, mro eqb b1 f c = mro eqb b2 f c.
Proof.
  intros Eb. induction f as [|f IH]; intros c; cbn [mro]; [reflexivity|]. rewrite Eb, (map_ext _ _ IH). reflexivity.
Qed.
Lemma lookup_ext {X V} (f g : X -> option V) l : (forall x, In x l -> f x = g x) -> lookup_in f l = lookup_in g l.
Proof. induction l as [|x l IH]; intros E; cbn [lookup_in]; [reflexivity|]. rewrite (E x (or_introl eq_refl)), IH; [reflexivity|]. intros y Hy. apply E. now right. Qed.

Lemma lookup_first {X V} (f : X -> option V) l1 l2 : lookup_in f l1 <> None -> lookup_in f (l1 ++ l2) = lookup_in f l1.
Proof. induction l1 as [|x l IH]; cbn [lookup_in app]; [congruence|]. destruct (f x); [reflexivity|exact IH]. Qed.

(** The classes a node of such a stage draws from are at the beginnings of its
    path. *)
Section Upwards.
Variables (layers : list (list layer_row)) (fuel : nat) (top : pyval) (one : bool) (H : heap).
Hypothesis wf : well_formed layers.
Hypothesis Ni : no_instances layers.
Hypothesis Bu : build_stage fuel top one layers = Built H.
Let H0 := comp_pre_proxies (sorted_layers layers).

Lemma plain_here p : here H p = here H0 p.
Proof. destruct (plain_comps layers fuel top one H wf Ni Bu) as (_ & _ & K & _). now apply here_keys. Qed.
Lemma plain_opinions cs : names cs -> here H (abs_path cs) = true -> opinions cs layers <> [].
Proof. intros Hc Hh. rewrite plain_here in Hh. now apply (start_here layers wf) in Hh. Qed.
Lemma plain_bases p : here H p = true -> bs H (Co p) = map Sp (numbers 0 p (numbered layers)) ++ par H0 p.
Proof.
  intros Hh. destruct (plain_comps layers fuel top one H wf Ni Bu) as (_ & _ & _ & D). unfold here, dmem in Hh. unfold bs, bases_in. rewrite D in Hh |- *. fold H0 in Hh |- *.
  destruct (dget p (comps H0)) as [c|] eqn:Ec; [|discriminate]. cbn [option_map cbases]. f_equal. unfold H0 in Ec. rewrite pre_get in Ec. destruct (stack p _); [discriminate|]. injection Ec as <-. reflexivity.
Qed.
Lemma plain_up x y : up H x y -> forall cs, x = Co (abs_path cs) -> names cs -> here H (abs_path cs) = true ->
  exists es rest, cs = es ++ rest /\ names es /\ here H (abs_path es) = true /\
    (y = Co (abs_path es) \/ exists j, y = Sp j /\ In j (numbers 0 (abs_path es) (numbered layers))).
Proof.
  induction 1 as [c|c b d Hb U IH]; intros cs Ex Hc Hh; subst c.
  - exists cs, []. rewrite app_nil_r. auto.
  - change (In b (bs H (Co (abs_path cs)))) in Hb. rewrite (plain_bases _ Hh) in Hb. apply in_app_or in Hb as [Hb|Hb].
    + apply in_map_iff in Hb as (j & <- & Hj). assert (d = Sp j) as ->. { inversion U as [|? ? ? Hb']; subst; [reflexivity|destruct Hb']. }
      exists cs, []. rewrite app_nil_r. split; [reflexivity|]. split; [exact Hc|]. split; [exact Hh|]. right. eauto.
    + pose proof Hh as Hh'. rewrite plain_here in Hh'.
      destruct (par_spec H0 cs (start_tree layers wf) Hc Hh') as [(E & _)|(ds & E & (k & K1 & K2 & K3 & _))]; rewrite E in Hb; [destruct Hb|]. destruct Hb as [<-|[]].
      assert (Hcut : cs = ds ++ skipn k cs) by (rewrite K2; symmetry; apply firstn_skipn).
      assert (Hd : names ds) by (unfold names in *; rewrite Hcut in Hc; now apply Forall_app in Hc).
      destruct (IH ds eq_refl Hd) as (es & rest & Ee & He & Heh & Cases); [rewrite plain_here; exact K3|].
      exists es, (rest ++ skipn k cs). split; [rewrite app_assoc, <- Ee; exact Hcut|]. auto.
Qed.

Hypothesis World : forall m, In ([[]], m) (numbered layers) -> value m NAME = VStr (lit "/").

Lemma row_node j r : nth_error (numbered layers) j = Some r -> nth_error (specs H) j = Some (snd r).
Proof.
  intros E. destruct (plain_comps layers fuel top one H wf Ni Bu) as (Es & _). rewrite Es. change (nth_error (map snd (numbered layers)) j = Some (snd r)). now apply map_nth_error.
Qed.
Lemma opinion_row es d : In d (opinions es layers) -> In (ns_of es, d) (numbered layers).
Proof.
  rewrite <- opinions_numbered. unfold opinions. intros Hd. apply in_map_iff in Hd as ((ns & m) & <- & Hr). apply filter_In in Hr as (Hr & E). cbn [concat fst snd] in *. rewrite app_nil_r in Hr.
  destruct (list_eq_dec _ _ _) as [->|]; [exact Hr|discriminate].
Qed.
Lemma own_path es d : names es -> In d (opinions es layers) -> join_node_paths (str_of (value d PARENT_PATH)) (str_of (value d NAME)) = abs_path es.
Proof.
  intros He Hd. destruct es as [|nm ps _] using rev_ind.
  - destruct (opinion_root layers wf d Hd) as (-> & _). rewrite (World d) by exact (opinion_row [] d Hd). reflexivity.
  - destruct (opinion_at layers wf ps nm d He Hd) as (-> & -> & _). cbn [str_of]. apply join_node_paths_abs. now apply names_comp.
Qed.
Lemma spec_path es j : names es -> In j (numbers 0 (abs_path es) (numbered layers)) -> path_of H (Sp j) = abs_path es.
Proof.
  intros He Hj. apply numbers_nth in Hj as (r & _ & Er & Ep). rewrite Nat.sub_0_r in Er. assert (Hr : In r (numbered layers)) by (eapply nth_error_In; exact Er).
  pose proof (proj1 (well_formed_numbered layers) wf r Hr) as Hf. apply (fits_path r es Hf He) in Ep. unfold path_of, ref_attr. rewrite (row_node j r Er).
  apply own_path; [exact He|]. rewrite <- opinions_numbered. unfold opinions. cbn [concat]. rewrite app_nil_r. apply in_map. apply filter_In. split; [exact Hr|]. destruct (list_eq_dec _ _ _) as [|Hx]; [reflexivity|destruct Hx; exact Ep].
Qed.
Lemma comp_path es : names es -> here H (abs_path es) = true -> path_of H (Co (abs_path es)) = abs_path es.
Proof.
  intros He Hh. destruct (built_parts layers fuel top one H wf Bu) as (H1 & F & P). destruct (opinions es layers) as [|d l] eqn:Eo; [destruct (plain_opinions es He Hh Eo)|].
  unfold path_of, ref_attr. rewrite !(fin_plain layers H1 F H wf P es _ d l He Eo) by (cbn; auto). apply own_path; [exact He|]. rewrite Eo. now left.
Qed.
Lemma prefix_inside (es rest : list pystr) : es ++ rest <> [] -> contains (abs_path es) (abs_path (es ++ rest)) = true.
Proof.
  intros Hne. apply contains_iff. destruct es as [|x es].
  - destruct rest as [|y rest]; [destruct Hne; reflexivity|]. cbn [app]. exists [], (y ++ slashed rest). rewrite abs_path_slashed by discriminate. reflexivity.
  - exists [], (slashed rest). rewrite !abs_path_slashed by discriminate. now rewrite slashed_app.
Qed.
Lemma mro_inside cs l r : names cs -> cs <> [] -> here H (abs_path cs) = true -> mro_of H (Co (abs_path cs)) = Some l -> In r l -> contains (path_of H r) (abs_path cs) = true.
Proof.
  intros Hc Hne Hh El Hr. destruct (built_parts layers fuel top one H wf Bu) as (H1 & F & P). destruct (mro_here layers H1 F H P _ Hh) as (l' & E & I). rewrite El in E. injection E as <-.
  apply I in Hr. destruct (plain_up _ _ Hr cs eq_refl Hc Hh) as (es & rest & Ec & He & Heh & [->|(j & -> & Hj)]).
  - rewrite comp_path by assumption. rewrite Ec. apply prefix_inside. now rewrite <- Ec.
  - rewrite (spec_path es j He Hj). rewrite Ec. apply prefix_inside. now rewrite <- Ec.
Qed.
(** The beginning of an MRO. *)
Lemma mro_begin p : here H p = true -> exists m, mro_of H (Co p) = Some (Co p :: map Sp (numbers 0 p (numbered layers)) ++ m) /\ numbers 0 p (numbered layers) <> [].
Proof.
  intros Hh. destruct (built_parts layers fuel top one H wf Bu) as (H1 & F & P). pose proof Hh as Hf. rewrite (fin_here layers H1 F H P) in Hf.
  destruct (node_bases _ F H (p_good _ _ _ _ P) (p_post _ _ _ _ P) p Hf) as (rest & Eb & Hr & _). destruct (node_mro _ F H (p_good _ _ _ _ P) (p_post _ _ _ _ P) p rest Hf Eb Hr) as (ls & m & _ & _ & Em).
  destruct (flat_bases _ F (p_good _ _ _ _ P) p) as (is & El & _ & Hne & _). specialize (Hne Hf). rewrite El in Em, Eb.
  assert (Ei : is = numbers 0 p (numbered layers)).
  { rewrite (plain_bases p Hh) in Eb.
    assert (Co1 : forall r, In r (par H0 p) -> exists q, r = Co q) by (intros r Hp; apply par_here in Hp as (q & -> & _); eauto).
    assert (G : forall (x y : list nat) (u v : list ref), (forall r, In r u -> exists q, r = Co q) -> (forall r, In r v -> exists q, r = Co q) -> map Sp x ++ u = map Sp y ++ v -> y = x).
    { induction x as [|a x IH]; intros [|b y] u v Hu Hv E; cbn [map app] in E; [reflexivity| | |].
      - subst u. destruct (Hu (Sp b)) as (q & [=]). now left.
      - subst v. destruct (Hv (Sp a)) as (q & [=]). now left.
      - injection E as -> E. f_equal. eapply IH; [| |exact E]; assumption. }
    eapply G; [| |exact Eb]; assumption. }
  rewrite <- Ei. eauto.
Qed.
End Upwards.

Lemma with_spec_specs H A (n : node) B n' : specs H = A ++ n :: B -> specs (with_spec H (length A) n') = A ++ n' :: B.
Proof.
  intros E. unfold with_spec. cbn [specs]. rewrite E. rewrite firstn_app, firstn_all, Nat.sub_diag. cbn [firstn]. rewrite app_nil_r. f_equal. f_equal.
  change (S (length A)) with (1 + length A). rewrite skipn_app. rewrite skipn_all2 by lia. replace (1 + length A - length A) with 1 by lia. reflexivity.
Qed.

(** What holds of the stage [H] of [layers], the stage [H'] of [layers'] and the
    stage [H] with the edited node, [n'], in it. *)
Record edited (layers layers' : list (list layer_row)) (H H' : heap) (Kc : list pystr) (cs : list pystr) (A : list layer_row) (n n' : node) : Prop := {
  e_fits : well_formed layers';
  e_plain : no_instances layers';
  e_specs : specs (with_spec H (length A) n') = specs H';
  e_here : forall p, here H' p = here H p;
  e_mro : forall r, mro_of H' r = mro_of H r;
  e_live_mro : forall r, mro_of (with_spec H (length A) n') r = mro_of H r;
  e_live_path : forall r, path_of (with_spec H (length A) n') r = path_of H' r;
  e_bases : forall r, bases_in (comps H') r = bases_in (comps H) r;
  e_keys : dkeys (comps H') = dkeys (comps H);
  e_ref : forall r a, ~ In a Kc -> ref_attr (with_spec H (length A) n') r a = ref_attr H' r a;
  e_there : here H (abs_path cs) = true;
  e_number : In (length A) (numbers 0 (abs_path cs) (numbered layers'));
  e_world : (forall m, In ([[]], m) (numbered layers) -> value m NAME = VStr (lit "/")) -> forall m, In ([[]], m) (numbered layers') -> value m NAME = VStr (lit "/");
  e_opinions : exists X Y, opinions cs layers = X ++ n :: Y /\ opinions cs layers' = X ++ n' :: Y /\ forall m, In m X -> In (ns_of cs, m) A;
  e_reads : forall key v, (forall c', dget (abs_path cs) (comps H') = Some c' -> dget key (own c') = Some v) ->
    let Hs := set_attr (with_spec H (length A) n') (abs_path cs) key v in
    reads Hs cs key = Some v /\
    forall es a, names es -> ~ (es = cs /\ In a Kc /\ a <> key) -> reads Hs es a = reads H' es a;
  e_others : forall key v, In key Kc ->
    let Hs := set_attr (with_spec H (length A) n') (abs_path cs) key v in
    reads Hs cs key = Some v /\
    forall es a, names es -> ~ (es = cs /\ In a Kc) -> reads Hs es a = reads H' es a }.

Section Switch.
Variables (layers layers' : list (list layer_row)) (fuel : nat) (top : pyval) (one : bool) (H : heap).
Variables K Kc : list pystr.
Hypothesis Spr : spreads K Kc.
Variables (cs : list pystr) (A B : list layer_row) (n n' : node) (key : pystr) (v : pyval).
Hypothesis wf : well_formed layers.
Hypothesis Ni : no_instances layers.
Hypothesis Bu : build_stage fuel top one layers = Built H.
Hypothesis Hc : names cs.
Hypothesis Hne : cs <> [].
Hypothesis E : numbered layers = A ++ (ns_of cs, n) :: B.
Hypothesis E' : numbered layers' = A ++ (ns_of cs, n') :: B.
Hypothesis But : near K n n'.
Hypothesis Keys : forall a, In a internal_keys -> In a K -> dget a n' <> None.
Hypothesis Kin : forall a, In a Kc -> In a internal_keys.

Lemma switch_fits : well_formed layers'.
Proof.
  apply well_formed_numbered. pose proof (proj1 (well_formed_numbered layers) wf) as F. rewrite E' in *. rewrite E in F. intros r Hr. apply in_app_or in Hr as [Hr|[<-|Hr]].
  - apply F. apply in_or_app. now left.
  - destruct (F (ns_of cs, n)) as (ds & Hd & Ed & Kint & M); [apply in_or_app; right; now left|]. exists ds. cbn [fst snd] in *. split; [exact Hd|]. split; [exact Ed|]. split.
    + intros a Ha. destruct (in_dec (list_eq_dec N.eq_dec) a K) as [Hk|Hk]; [now apply Keys|]. rewrite <- (But a Hk). now apply Kint.
    + assert (V : forall a, In a [NAME; PARENT_PATH; INSTANCE_PATH] -> value n' a = value n a) by (intros a Ha; unfold value; rewrite (But a); [reflexivity|now apply Spr]).
      destruct (rev ds); rewrite !V by (cbn; tauto); exact M.
  - apply F. apply in_or_app. right. now right.
Qed.
Lemma switch_opinions es : exists X Y, opinions es layers = X ++ (if list_eq_dec (list_eq_dec N.eq_dec) (ns_of cs) (ns_of es) then [n] else []) ++ Y /\
  opinions es layers' = X ++ (if list_eq_dec (list_eq_dec N.eq_dec) (ns_of cs) (ns_of es) then [n'] else []) ++ Y /\
  forall m, In m X -> In (ns_of es, m) A.
Proof.
  rewrite <- (opinions_numbered es layers), <- (opinions_numbered es layers'). rewrite E, E'. unfold opinions. cbn [concat]. rewrite !app_nil_r, !filter_app, !map_app. cbn [filter fst].
  exists (map snd (filter (fun r : layer_row => if list_eq_dec (list_eq_dec N.eq_dec) (fst r) (ns_of es) then true else false) A)).
  exists (map snd (filter (fun r : layer_row => if list_eq_dec (list_eq_dec N.eq_dec) (fst r) (ns_of es) then true else false) B)).
  assert (G : forall m : data, In m (map snd (filter (fun r : layer_row => if list_eq_dec (list_eq_dec N.eq_dec) (fst r) (ns_of es) then true else false) A)) -> In (ns_of es, m) A).
  { intros m Hm. apply in_map_iff in Hm as ((x & y) & <- & Hr). apply filter_In in Hr as (Hr & Q). cbn [fst snd] in *. destruct (list_eq_dec _ _ _) as [->|]; [exact Hr|discriminate]. }
  destruct (list_eq_dec (list_eq_dec N.eq_dec) (ns_of cs) (ns_of es)); cbn [map snd app]; auto.
Qed.
Lemma switch_plain : no_instances layers'.
Proof.
  intros es rs He Hr Hrs (m & (st & wk & Eo & Sy & Si) & V). destruct (switch_opinions es) as (X & Y & O & O' & _).
  destruct (list_eq_dec (list_eq_dec N.eq_dec) (ns_of cs) (ns_of es)) as [Q|]; [|apply (Ni es rs He Hr Hrs); exists m; split; [exists st, wk; rewrite O, <- O'; auto|exact V]].
  assert (F : Forall2 (near K) (opinions es layers) (opinions es layers')).
  { rewrite O, O'. apply Forall2_app; [apply Forall2_refl, near_refl|]. apply Forall2_app; [|apply Forall2_refl, near_refl]. repeat constructor. exact But. }
  rewrite Eo in F. apply Forall2_app_inv_r in F as (st0 & r0 & F1 & F2 & Eo0). inversion F2 as [|m0 m1 wk0 wk1 F3 F4]; subst.
  assert (VI : forall x y, near K x y -> value y INSTANCE_PATH = value x INSTANCE_PATH) by (intros x y Q0; unfold value; rewrite (Q0 INSTANCE_PATH); [reflexivity|apply Spr; cbn; tauto]).
  apply (Ni es rs He Hr Hrs). exists m0. split; [|now rewrite <- (VI m0 m F3)]. exists st0, wk0. split; [exact Eo0|]. split; [now rewrite <- (VI m0 m F3)|].
  intros x Hx. assert (exists y, In y st /\ near K x y) as (y & Hy & Qy). { clear -F1 Hx. induction F1 as [|u v l l' Huv _ IH]; [destruct Hx|]. destruct Hx as [<-|Hx]; [exists v; split; [now left|exact Huv]|]. destruct (IH Hx) as (y & ? & ?). exists y. split; [now right|assumption]. }
  rewrite <- (VI x y Qy). now apply Si.
Qed.

Variable H' : heap.
Hypothesis Bu' : build_stage fuel top one layers' = Built H'.

Lemma switch_specs : specs H = map snd A ++ n :: map snd B /\ specs H' = map snd A ++ n' :: map snd B.
Proof.
  destruct (plain_comps layers fuel top one H wf Ni Bu) as (S1 & _). destruct (plain_comps layers' fuel top one H' switch_fits switch_plain Bu') as (S2 & _).
  rewrite S1, S2. change (map snd (numbered layers) = map snd A ++ n :: map snd B /\ map snd (numbered layers') = map snd A ++ n' :: map snd B). rewrite E, E', !map_app. split; reflexivity.
Qed.
Lemma switch_near p :
  match dget p (comps H), dget p (comps H') with
  | None, None => True
  | Some c, Some c' => cbases c' = cbases c /\ near Kc (own c) (own c') /\ (p <> abs_path cs -> own c' = own c)
  | _, _ => False
  end.
Proof.
  destruct (plain_comps layers fuel top one H wf Ni Bu) as (_ & _ & _ & D1). destruct (plain_comps layers' fuel top one H' switch_fits switch_plain Bu') as (_ & _ & _ & D2). rewrite D1, D2.
  pose proof (pre_near K Kc Spr (sorted_layers layers) (sorted_layers layers') A B (ns_of cs) n n' E E' But p) as P. rewrite ns_path in P.
  pose proof (pre_same_par K Kc Spr (sorted_layers layers) (sorted_layers layers') A B (ns_of cs) n n' E E' But p) as Q.
  destruct (dget p (comps (comp_pre_proxies (sorted_layers layers)))) as [c|], (dget p (comps (comp_pre_proxies (sorted_layers layers')))) as [c'|]; cbn [option_map]; try contradiction; [|exact I].
  cbn [cbases own]. destruct P as (P1 & P2). now rewrite P1, Q.
Qed.
Lemma switch_here p : here H' p = here H p.
Proof. unfold here, dmem. pose proof (switch_near p) as P. destruct (dget p (comps H)), (dget p (comps H')); try contradiction; reflexivity. Qed.
Lemma switch_keys : dkeys (comps H') = dkeys (comps H).
Proof.
  destruct (plain_comps layers fuel top one H wf Ni Bu) as (_ & _ & K1 & _). destruct (plain_comps layers' fuel top one H' switch_fits switch_plain Bu') as (_ & _ & K2 & _). rewrite K1, K2.
  exact (pre_same_keys (sorted_layers layers) (sorted_layers layers') A B (ns_of cs) n n' E E').
Qed.
Lemma switch_mro r : mro_of H' r = mro_of H r.
Proof.
  unfold mro_of. assert (L : length (specs H') + length (comps H') = length (specs H) + length (comps H)).
  { destruct switch_specs as (-> & ->). rewrite !app_length. cbn [length]. f_equal. pose proof switch_keys as SK. apply (f_equal (@length _)) in SK. unfold dkeys in SK. now rewrite !map_length in SK. }
  rewrite L. apply mro_ext. intros [i|p]; cbn [bases_in]; [reflexivity|]. pose proof (switch_near p) as P. destruct (dget p (comps H)), (dget p (comps H')); try contradiction; [apply P|reflexivity].
Qed.

Let Hw := with_spec H (length A) n'.
Let Hs := set_attr Hw (abs_path cs) key v.

Lemma live_specs : specs Hw = specs H'.
Proof. destruct switch_specs as (S1 & S2). rewrite S2. unfold Hw. replace (length A) with (length (map snd A)) by apply map_length. now apply with_spec_specs with n. Qed.
Lemma live_mro r : mro_of Hw r = mro_of H r.
Proof.
  unfold mro_of. rewrite live_specs. change (comps Hw) with (comps H). f_equal. f_equal. f_equal. destruct switch_specs as (-> & ->). rewrite !app_length. reflexivity.
Qed.
Lemma live_attr p a : ~ In a Kc -> attr Hw p a = attr H' p a.
Proof.
  intros Ha. unfold attr. rewrite live_specs. change (comps Hw) with (comps H). pose proof (switch_near p) as P. destruct (dget p (comps H)) as [c|], (dget p (comps H')) as [c'|]; try contradiction; [|reflexivity].
  destruct P as (Eb & N & _). unfold node_attr. rewrite Eb, (N a Ha). reflexivity.
Qed.
Lemma live_ref r a : ~ In a Kc -> ref_attr Hw r a = ref_attr H' r a.
Proof. intros Ha. destruct r as [i|p]; cbn [ref_attr]; [now rewrite live_specs|now apply live_attr]. Qed.
Lemma live_path r : path_of Hw r = path_of H' r.
Proof. unfold path_of. rewrite !live_ref by (apply Spr; cbn; tauto). reflexivity. Qed.
Lemma switch_bases r : bases_in (comps H') r = bases_in (comps H) r.
Proof. destruct r as [i|p]; cbn [bases_in]; [reflexivity|]. pose proof (switch_near p) as P. destruct (dget p (comps H)), (dget p (comps H')); try contradiction; [|reflexivity]. now destruct P. Qed.
Lemma there : here H (abs_path cs) = true.
Proof.
  rewrite (plain_here layers fuel top one H wf Ni Bu). apply (start_here layers wf cs Hc). destruct (switch_opinions cs) as (X & Y & -> & _).
  destruct (list_eq_dec (list_eq_dec N.eq_dec) (ns_of cs) (ns_of cs)); [|congruence]. destruct X; discriminate.
Qed.
Lemma number_here : In (length A) (numbers 0 (abs_path cs) (numbered layers')).
Proof.
  apply numbers_nth. exists (ns_of cs, n'). rewrite Nat.sub_0_r, E'. split; [lia|]. split; [rewrite nth_error_app2 by lia; rewrite Nat.sub_diag; reflexivity|]. apply row_at. reflexivity.
Qed.

Lemma world_after : (forall m, In ([[]], m) (numbered layers) -> value m NAME = VStr (lit "/")) -> forall m, In ([[]], m) (numbered layers') -> value m NAME = VStr (lit "/").
Proof.
  intros World m. rewrite E'. intros Hm. apply in_app_or in Hm as [Hm|[Hm|Hm]].
  - apply World. rewrite E. apply in_or_app. now left.
  - injection Hm as Q _. apply (ns_of_inj cs []) in Q; [contradiction|exact Hc|constructor].
  - apply World. rewrite E. apply in_or_app. right. now right.
Qed.
Lemma live_mro_s r : mro_of Hs r = mro_of H' r.
Proof.
  rewrite switch_mro, <- live_mro. unfold mro_of. change (specs Hs) with (specs Hw). unfold Hs at 2, set_attr. cbn [comps with_comps].
  assert (L : length (change (abs_path cs) (fun c => {| own := dset key v (own c); cbases := cbases c |}) (comps Hw)) = length (comps Hw)) by apply map_length. rewrite L. apply mro_ext. intros [i|p]; cbn [bases_in]; [reflexivity|].
  unfold Hs, set_attr. cbn [comps with_comps]. rewrite dget_change. destruct (str_eqb p _); [|reflexivity]. destruct (dget p (comps Hw)); reflexivity.
Qed.
Theorem live_key : reads Hs cs key = Some v.
Proof.
  destruct (mro_begin layers' fuel top one H' switch_fits switch_plain Bu' (abs_path cs)) as (m & Em & _); [rewrite switch_here; exact there|].
  unfold reads, getattr. rewrite live_mro_s, Em. cbn [lookup_in]. cbn [own_attr]. unfold Hs, set_attr. cbn [comps with_comps]. rewrite dget_change, str_eqb_refl. change (comps Hw) with (comps H).
  pose proof there as Th. unfold here, dmem in Th. destruct (dget (abs_path cs) (comps H)); [|discriminate]. cbn [option_map own]. rewrite dget_dset, str_eqb_refl. reflexivity.
Qed.
(** Without the edited attributes of the edited node. *)
Lemma others_own a r : In key Kc -> ~ (In a Kc /\ r = Co (abs_path cs)) -> own_attr Hs a r = own_attr H' a r.
Proof.
  intros Hk Ex. destruct r as [i|p]; cbn [own_attr].
  - change (specs Hs) with (specs Hw). now rewrite live_specs.
  - unfold Hs, set_attr. cbn [comps with_comps]. rewrite dget_change. change (comps Hw) with (comps H). pose proof (switch_near p) as P.
    destruct (str_eqb p (abs_path cs)) eqn:Ep.
    + apply str_eqb_eq in Ep as ->. destruct (dget (abs_path cs) (comps H)) as [c|], (dget (abs_path cs) (comps H')) as [c'|]; try contradiction; [|reflexivity]. cbn [option_map own].
      rewrite dget_dset. destruct (str_eqb key a) eqn:Ea; [apply str_eqb_eq in Ea as <-; destruct Ex; auto|]. destruct P as (_ & N & _). apply N. intros Ha. apply Ex. auto.
    + apply str_eqb_neq in Ep. destruct (dget p (comps H)) as [c|], (dget p (comps H')) as [c'|]; try contradiction; [|reflexivity]. destruct P as (_ & _ & Q). now rewrite (Q Ep).
Qed.
Theorem live_others es a : In key Kc -> names es -> ~ (es = cs /\ In a Kc) -> reads Hs es a = reads H' es a.
Proof.
  intros Hk He Hx. unfold reads, getattr. rewrite live_mro_s. destruct (in_dec (list_eq_dec N.eq_dec) a Kc) as [Ha|Ha].
  2:{ destruct (mro_of H' (Co (abs_path es))) as [l|]; [|reflexivity]. f_equal. apply lookup_ext. intros r _. apply others_own; tauto. }
  assert (Hp : abs_path es <> abs_path cs). { intros Q. apply abs_path_inj in Q; [|now apply names_comp|now apply names_comp]. subst es. apply Hx. auto. }
  destruct (here H' (abs_path es)) eqn:Hh.
  - destruct (mro_begin layers' fuel top one H' switch_fits switch_plain Bu' (abs_path es) Hh) as (m & -> & Hnn). set (nums := numbers 0 (abs_path es) (numbered layers')) in *.
    change (Co (abs_path es) :: map Sp nums ++ m) with ((Co (abs_path es) :: map Sp nums) ++ m).
    assert (Eq : lookup_in (own_attr Hs a) (Co (abs_path es) :: map Sp nums) = lookup_in (own_attr H' a) (Co (abs_path es) :: map Sp nums)).
    { apply lookup_ext. intros r Hr. apply others_own; [exact Hk|]. intros (_ & ->). destruct Hr as [Hr|Hr]; [congruence|]. apply in_map_iff in Hr as (j & [=] & _). }
    assert (Hit : lookup_in (own_attr H' a) (Co (abs_path es) :: map Sp nums) <> None).
    { cbn [lookup_in]. destruct (own_attr H' a (Co (abs_path es))); [discriminate|]. destruct nums as [|j nums'] eqn:En; [congruence|]. cbn [map lookup_in own_attr].
      assert (Hj : In j (numbers 0 (abs_path es) (numbered layers'))) by (fold nums; rewrite En; now left). apply numbers_nth in Hj as (r & _ & Er & Ep). rewrite Nat.sub_0_r in Er.
      rewrite (row_node layers' fuel top one H' switch_fits switch_plain Bu' j r Er). assert (Hr : In r (numbered layers')) by (eapply nth_error_In; exact Er).
      destruct (proj1 (well_formed_numbered layers') switch_fits r Hr) as (ds & _ & _ & Kt & _). specialize (Kt a (Kin a Ha)). unfold data, node in *. destruct (dget a (snd r)); [discriminate|congruence]. }
    rewrite (lookup_first _ _ m Hit). rewrite lookup_first by (rewrite Eq; exact Hit). now rewrite Eq.
  - destruct (mro_of H' (Co (abs_path es))) as [l|] eqn:El; [|reflexivity]. f_equal. apply lookup_ext. intros r Hr. apply others_own; [exact Hk|]. intros (_ & ->).
    unfold mro_of in El. cbn [mro] in El. assert (Eb : bases_in (comps H') (Co (abs_path es)) = []). { cbn [bases_in]. unfold here, dmem in Hh. destruct (dget (abs_path es) (comps H')); [discriminate|reflexivity]. }
    rewrite Eb in El. cbn in El. injection El as <-. destruct Hr as [Hr|[]]. congruence.
Qed.
(** The edited attribute, as the new composition has it. *)
Hypothesis Own : forall c', dget (abs_path cs) (comps H') = Some c' -> dget key (own c') = Some v.

(** What the classes have of their own is the same in the edited stage and in
    the new one, but for what goes with the edited attribute. *)
Lemma live_own a r : ~ (In a Kc /\ a <> key /\ r = Co (abs_path cs)) -> own_attr Hs a r = own_attr H' a r.
Proof.
  intros Ex. destruct r as [i|p]; cbn [own_attr].
  - change (specs Hs) with (specs Hw). now rewrite live_specs.
  - unfold Hs, set_attr. cbn [comps with_comps]. rewrite dget_change. change (comps Hw) with (comps H). pose proof (switch_near p) as P. pose proof Own as En.
    destruct (str_eqb p (abs_path cs)) eqn:Ep.
    + apply str_eqb_eq in Ep as ->. destruct (dget (abs_path cs) (comps H)) as [c|], (dget (abs_path cs) (comps H')) as [c'|]; try contradiction; [|reflexivity]. cbn [option_map own].
      rewrite dget_dset. destruct (str_eqb key a) eqn:Ea; [apply str_eqb_eq in Ea as <-; symmetry; now apply En|]. apply str_eqb_neq in Ea. destruct P as (_ & N & _). apply N. intros Ha. apply Ex. split; [exact Ha|]. split; [congruence|reflexivity].
    + apply str_eqb_neq in Ep. destruct (dget p (comps H)) as [c|], (dget p (comps H')) as [c'|]; try contradiction; [|reflexivity]. destruct P as (_ & _ & Q). now rewrite (Q Ep).
Qed.
Theorem live_reads es a : names es -> ~ (es = cs /\ In a Kc /\ a <> key) -> reads Hs es a = reads H' es a.
Proof.
  intros He Hx. unfold reads, getattr. rewrite live_mro_s. destruct (in_dec (list_eq_dec N.eq_dec) a Kc) as [Ha|Ha].
  2:{ destruct (mro_of H' (Co (abs_path es))) as [l|]; [|reflexivity]. f_equal. apply lookup_ext. intros r _. apply live_own. tauto. }
  destruct (list_eq_dec N.eq_dec a key) as [->|Hk].
  { destruct (mro_of H' (Co (abs_path es))) as [l|]; [|reflexivity]. f_equal. apply lookup_ext. intros r _. apply live_own. tauto. }
  assert (Hp : abs_path es <> abs_path cs). { intros Q. apply abs_path_inj in Q; [|now apply names_comp|now apply names_comp]. subst es. apply Hx. auto. }
  destruct (here H' (abs_path es)) eqn:Hh.
  - destruct (mro_begin layers' fuel top one H' switch_fits switch_plain Bu' (abs_path es) Hh) as (m & -> & Hnn). set (nums := numbers 0 (abs_path es) (numbered layers')) in *.
    change (Co (abs_path es) :: map Sp nums ++ m) with ((Co (abs_path es) :: map Sp nums) ++ m).
    assert (Eq : lookup_in (own_attr Hs a) (Co (abs_path es) :: map Sp nums) = lookup_in (own_attr H' a) (Co (abs_path es) :: map Sp nums)).
    { apply lookup_ext. intros r Hr. apply live_own. intros (_ & _ & ->). destruct Hr as [Hr|Hr]; [congruence|]. apply in_map_iff in Hr as (j & [=] & _). }
    assert (Hit : lookup_in (own_attr H' a) (Co (abs_path es) :: map Sp nums) <> None).
    { cbn [lookup_in]. destruct (own_attr H' a (Co (abs_path es))); [discriminate|]. destruct nums as [|j nums'] eqn:En; [congruence|]. cbn [map lookup_in own_attr].
      assert (Hj : In j (numbers 0 (abs_path es) (numbered layers'))) by (fold nums; rewrite En; now left). apply numbers_nth in Hj as (r & _ & Er & Ep). rewrite Nat.sub_0_r in Er.
      rewrite (row_node layers' fuel top one H' switch_fits switch_plain Bu' j r Er). assert (Hr : In r (numbered layers')) by (eapply nth_error_In; exact Er).
      destruct (proj1 (well_formed_numbered layers') switch_fits r Hr) as (ds & _ & _ & Kt & _). specialize (Kt a (Kin a Ha)). unfold data, node in *. destruct (dget a (snd r)); [discriminate|congruence]. }
    rewrite (lookup_first _ _ m Hit). rewrite lookup_first by (rewrite Eq; exact Hit). now rewrite Eq.
  - destruct (mro_of H' (Co (abs_path es))) as [l|] eqn:El; [|reflexivity]. f_equal. apply lookup_ext. intros r Hr. apply live_own. intros (_ & _ & ->).
    unfold mro_of in El. cbn [mro] in El. assert (Eb : bases_in (comps H') (Co (abs_path es)) = []). { cbn [bases_in]. unfold here, dmem in Hh. destruct (dget (abs_path es) (comps H')); [discriminate|reflexivity]. }
    rewrite Eb in El. cbn in El. injection El as <-. destruct Hr as [Hr|[]]. congruence.
Qed.
End Switch.

Section Edited.
Variables (layers layers' : list (list layer_row)) (fuel : nat) (top : pyval) (one : bool) (H : heap).
Variables K Kc : list pystr.
Hypothesis Spr : spreads K Kc.
Variables (cs : list pystr) (A B : list layer_row) (n n' : node).
Hypothesis wf : well_formed layers.
Hypothesis Ni : no_instances layers.
Hypothesis Bu : build_stage fuel top one layers = Built H.
Hypothesis Hc : names cs.
Hypothesis Hne : cs <> [].
Hypothesis E : numbered layers = A ++ (ns_of cs, n) :: B.
Hypothesis E' : numbered layers' = A ++ (ns_of cs, n') :: B.
Hypothesis But : near K n n'.
Hypothesis Keys : forall a, In a internal_keys -> In a K -> dget a n' <> None.
Hypothesis Kin : forall a, In a Kc -> In a internal_keys.

Theorem edited_builds : exists H', build_stage fuel top one layers' = Built H'.
Proof.
  destruct fuel as [|fuel']; [discriminate Bu|].
  destruct (plain_stage layers' fuel' top one (switch_fits layers layers' K Kc Spr cs A B n n' wf E E' But Keys) (switch_plain layers layers' K Kc Spr cs A B n n' Ni E E' But)) as (H' & B' & _). eauto.
Qed.
Theorem edited_facts H' : build_stage fuel top one layers' = Built H' -> edited layers layers' H H' Kc cs A n n'.
Proof.
  intros Bu'. split.
  - eapply switch_fits; eassumption.
  - eapply switch_plain; eassumption.
  - eapply live_specs; eassumption.
  - eapply switch_here; eassumption.
  - eapply switch_mro; eassumption.
  - eapply live_mro; eassumption.
  - eapply live_path; eassumption.
  - eapply switch_bases; eassumption.
  - eapply switch_keys; eassumption.
  - intros r a Ha. eapply live_ref; eassumption.
  - eapply there; eassumption.
  - eapply number_here; eassumption.
  - eapply world_after; eassumption.
  - destruct (switch_opinions layers layers' cs A B n n' E E' cs) as (X & Y & E1 & E2 & HX). destruct (list_eq_dec (list_eq_dec N.eq_dec) (ns_of cs) (ns_of cs)); [|congruence]. exists X, Y. auto.
  - intros key v Own. cbv zeta. split; [eapply live_key; eassumption|]. intros es a He Hx. eapply live_reads; eassumption.
  - intros key v Hk. cbv zeta. split; [eapply live_key; eassumption|]. intros es a He Hx. eapply live_others; eassumption.
Qed.
End Edited.

(** A tracked attribute that the edited node says and no stronger layer does. *)
Lemma own_tracked layers layers' fuel top one H H' Kc cs A n n' k v : edited layers layers' H H' Kc cs A n n' -> build_stage fuel top one layers' = Built H' -> names cs ->
  In k TRACKED -> dget k n' = Some v -> says v -> (forall m, In (ns_of cs, m) A -> ~ says (value m k)) ->
  forall c', dget (abs_path cs) (comps H') = Some c' -> dget k (own c') = Some v.
Proof.
  intros Ed Bu' Hc Hk New Sv Weak c'. pose proof (e_fits _ _ _ _ _ _ _ _ _ Ed) as fits'. destruct (plain_comps layers' fuel top one H' fits' (e_plain _ _ _ _ _ _ _ _ _ Ed) Bu') as (_ & _ & _ & D2). rewrite D2. rewrite pre_get.
  pose proof (stack_opinions layers' fits' cs Hc) as So. destruct (stack (abs_path cs) _) as [|sp l] eqn:Est; [discriminate|]. cbn [option_map]. intros [= <-]. cbn [own].
  rewrite overloads_get by (intros ->; apply str_in_In in Hk; vm_compute in Hk; discriminate Hk). assert (Sf : speaks_first k (rev (rev (sp :: l))) n').
  { rewrite rev_involutive. unfold data, node in *. replace (sp :: l) with (opinions cs layers') by (rewrite <- So; exact Est). destruct (e_opinions _ _ _ _ _ _ _ _ _ Ed) as (X & Y & _ & -> & HX). exists X, Y. split; [reflexivity|]. split.
    - unfold value. now rewrite New.
    - intros m Hm. apply Weak. now apply HX. }
  destruct (overload_fold (abs_path cs) k (rev (sp :: l)) Hk [(NAME, attr_or_none sp NAME)]) as (G & _).
  destruct (G n' Sf) as (Q & _). refine (eq_trans Q _). unfold attr_or_none. now rewrite New.
Qed.

(** *** Any stage *)

Lemma own_set_attr H p a v b r : own_attr (set_attr H p a v) b r =
  if ref_eqb r (Co p) && here H p && str_eqb a b then Some v else own_attr H b r.
Proof.
  destruct r as [i|q]; cbn [own_attr ref_eqb andb]; [reflexivity|]. unfold set_attr, here, dmem. cbn [comps with_comps]. rewrite dget_change.
  destruct (str_eqb q p) eqn:Eq; [apply str_eqb_eq in Eq as ->|reflexivity]. destruct (dget p (comps H)) as [c|]; [|reflexivity]. cbn [option_map own andb]. rewrite dget_dset. reflexivity.
Qed.
Lemma mro_set_attr H p a v r : mro_of (set_attr H p a v) r = mro_of H r.
Proof.
  unfold mro_of. assert (L : length (comps (set_attr H p a v)) = length (comps H)) by apply map_length. rewrite L. apply mro_ext. intros [i|q]; cbn [bases_in]; [reflexivity|].
  unfold set_attr. cbn [comps with_comps]. rewrite dget_change. destruct (str_eqb q p); [|reflexivity]. destruct (dget q (comps H)); reflexivity.
Qed.
Lemma here_set_attr H p a v q : here (set_attr H p a v) q = here H q.
Proof. unfold set_attr. apply here_with. Qed.
Lemma firstn_nth {X} i : forall (l : list X) j, j < i -> nth_error (firstn i l) j = nth_error l j.
Proof. induction i as [|i IH]; intros l j L; [lia|]. destruct l as [|x l]; [now destruct j|]. destruct j as [|j]; [reflexivity|]. cbn [firstn nth_error]. apply IH. lia. Qed.

Section Reach.
Variable k : pystr.
Hypothesis Hk : In k internal_keys.
Variables (layers : list (list layer_row)) (H : heap) (i : nat) (n' : node).
Hypothesis wf : well_formed layers.
Hypothesis St : stage_of layers H.
Hypothesis Key : dget k n' <> None.
Hypothesis Hi : i < length (specs H).
Let Hw := with_spec H i n'.

Lemma with_spec_nth j : nth_error (specs Hw) j = if Nat.eqb j i then Some n' else nth_error (specs H) j.
Proof.
  unfold Hw, with_spec. cbn [specs]. destruct (Nat.eqb j i) eqn:Ej.
  - apply Nat.eqb_eq in Ej as ->. rewrite nth_error_app2 by (rewrite firstn_length; lia). rewrite firstn_length. replace (i - Nat.min i (length (specs H))) with 0 by lia. reflexivity.
  - apply Nat.eqb_neq in Ej. destruct (Nat.lt_ge_cases j i) as [L|L].
    + rewrite nth_error_app1 by (rewrite firstn_length; lia). now apply firstn_nth.
    + rewrite nth_error_app2 by (rewrite firstn_length; lia). rewrite firstn_length. replace (j - Nat.min i (length (specs H))) with (S (j - S i)) by lia. cbn [nth_error].
      rewrite <- (firstn_skipn (S i) (specs H)) at 2. rewrite nth_error_app2 by (rewrite firstn_length; lia). rewrite firstn_length. f_equal. lia.
Qed.
Lemma with_spec_mro r : mro_of Hw r = mro_of H r.
Proof.
  unfold mro_of. assert (L : length (specs Hw) = length (specs H)). { unfold Hw, with_spec. cbn [specs]. rewrite app_length. cbn [length]. rewrite firstn_length, skipn_length. lia. }
  rewrite L. reflexivity.
Qed.
(** Reading an attribute of nxt stops at the node itself or one of its layers. *)
Lemma reach_begin p : here H p = true -> exists is m, mro_of H (Co p) = Some (Co p :: map Sp is ++ m) /\ lookup_in (own_attr Hw k) (Co p :: map Sp is) <> None.
Proof.
  intros Hh. destruct (stage_parts layers H wf St) as (H1 & F & P). pose proof Hh as Hf. rewrite (fin_here layers H1 F H P) in Hf.
  destruct (node_bases _ F H (p_good _ _ _ _ P) (p_post _ _ _ _ P) p Hf) as (rest & Eb & Hr & _). destruct (node_mro _ F H (p_good _ _ _ _ P) (p_post _ _ _ _ P) p rest Hf Eb Hr) as (ls & m & _ & _ & Em).
  destruct (flat_bases _ F (p_good _ _ _ _ P) p) as (is & El & _ & Hne & _). specialize (Hne Hf). rewrite El in Em. exists is, m. split; [exact Em|].
  cbn [lookup_in]. destruct (own_attr Hw k (Co p)) eqn:Eo; [discriminate|]. destruct is as [|j is]; [congruence|]. cbn [map lookup_in own_attr]. rewrite with_spec_nth.
  destruct (Nat.eqb j i); [destruct (dget k n'); [discriminate|congruence]|].
  destruct (fin_internal layers H1 F H wf P p k Hh Hk) as (r & Eg). unfold getattr in Eg. rewrite Em in Eg. cbn [map lookup_in] in Eg.
  change (own_attr Hw k (Co p)) with (own_attr H k (Co p)) in Eo. rewrite Eo in Eg. cbn [app lookup_in own_attr] in Eg.
  destruct (t_path _ (fin_tree layers H1 F H P) p Hf) as (cs & Hc & ->).
  assert (Ks : forall sp, nth_error (specs H) j = Some sp -> dget k sp <> None).
  { intros sp Esp. destruct (opinions cs layers) as [|d l] eqn:Eo'.
    - destruct cs as [|nm ps _] using rev_ind; [destruct (fin_root_layer layers H1 F H wf P Hf Eo')|]. destruct (fin_made layers H1 F H wf P ps nm Hc Hf Eo') as (j' & cm & en & sl & El' & Ej).
      rewrite El in El'. injection El' as -> _. rewrite Esp in Ej. injection Ej as ->. apply proxy_keys. exact Hk.
    - destruct (fin_layers layers H1 F H wf P cs Hc) as (is' & El' & L & Sn); [rewrite Eo'; discriminate|]. rewrite El in El'.
      apply (opinion_keys layers wf cs sp k Hc); [|exact Hk]. rewrite <- Sn, <- El'. cbn [map spec_nodes flat_map]. rewrite Esp. now left. }
  destruct (nth_error (specs H) j) as [sp|] eqn:Esp; [specialize (Ks sp eq_refl); destruct (dget k sp); [discriminate|congruence]|].
  exfalso. apply nth_error_None in Esp. assert (In (Sp j) (bs H (Co (abs_path cs)))). { rewrite Eb, El. now left. }
  destruct (look_sound _ F H (p_good _ _ _ _ P) (p_post _ _ _ _ P)) as (V & _). rewrite valid_bs in V. specialize (V _ _ Hh H0). cbn in V. lia.
Qed.

End Reach.
