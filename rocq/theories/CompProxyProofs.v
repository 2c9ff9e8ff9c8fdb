(** What the proxy composition keeps. *)

From Coq Require Import String List NArith ZArith Bool Arith Lia Permutation.
From Verif Require Import PyStr PyStrFacts NxtPath Dict DictFacts ListMerger SortRows Layer PyVal NodeIO PyClass Comp CompSpec MergeProofs CompProofs.
From Verif Require DirtyProofs SortProofs.
Import ListNotations.

(** The attributes the proxy composition may change on an existing node. *)
Definition loose (a : pystr) : Prop := a = INSTANCE_PATH \/ a = INSTANCE_PATH ++ META_SOURCE \/ a = CHILD_ORDER.
(** The attributes composition itself may set on a node. *)
Definition OWNKEYS : list pystr := ALL_INTERNAL ++ map (fun a => a ++ META_SOURCE) TRACKED.

(** [n] spec nodes come from layers, the others are proxies. *)
Record good (n : nat) (H : heap) : Prop := {
  g_len : n <= length (specs H);
  g_nodup : NoDup (dkeys (comps H));
  g_bases : forall p c, dget p (comps H) = Some c ->
    exists is, cbases c = map Sp is /\ is <> [] /\ NoDup is /\ forall i, In i is -> i < length (specs H);
  g_disj : forall p q c d i, dget p (comps H) = Some c -> dget q (comps H) = Some d ->
    In (Sp i) (cbases c) -> In (Sp i) (cbases d) -> p = q;
  g_own : forall p c a, dget p (comps H) = Some c -> dget a (own c) <> None -> In a OWNKEYS;
  g_spec : forall i sp a, n <= i -> nth_error (specs H) i = Some sp -> dget a sp <> None -> In a OWNKEYS
}.

Record kept (H H' : heap) : Prop := {
  k_specs : exists more, specs H' = specs H ++ more;
  k_keys : exists more, dkeys (comps H') = dkeys (comps H) ++ more;
  k_nodes : forall p c, dget p (comps H) = Some c ->
    exists c', dget p (comps H') = Some c' /\ cbases c' = cbases c /\ forall a, ~ loose a -> dget a (own c') = dget a (own c)
}.

Lemma kept_refl H : kept H H.
Proof. split; [exists []; now rewrite app_nil_r|exists []; now rewrite app_nil_r|]. intros p c E. exists c. auto. Qed.
Lemma kept_trans A B C : kept A B -> kept B C -> kept A C.
Proof.
  intros [(m1 & E1) (k1 & F1) G1] [(m2 & E2) (k2 & F2) G2]. split.
  - exists (m1 ++ m2). now rewrite E2, E1, app_assoc.
  - exists (k1 ++ k2). now rewrite F2, F1, app_assoc.
  - intros p c E. destruct (G1 _ _ E) as (c1 & H1 & H2 & H3). destruct (G2 _ _ H1) as (c2 & H4 & H5 & H6). exists c2. split; [exact H4|].
    split; [congruence|]. intros a Ha. rewrite H6, H3; auto.
Qed.
Lemma kept_here H H' p : kept H H' -> here H p = true -> here H' p = true.
Proof. intros [_ (m & E) _] F. apply here_In. rewrite E. apply in_or_app. left. now apply here_In. Qed.
Lemma kept_attr n H H' p a : good n H -> kept H H' -> here H p = true -> ~ loose a -> attr H' p a = attr H p a.
Proof.
  intros G K F Ha. unfold here, dmem in F. destruct (dget p (comps H)) as [c|] eqn:E; [|discriminate].
  destruct (k_nodes _ _ K _ _ E) as (c' & E' & B & O). unfold attr. rewrite E, E'. unfold node_attr. rewrite O by exact Ha.
  destruct (dget a (own c)); [reflexivity|]. rewrite B. destruct (g_bases _ _ G _ _ E) as (is & Eb & _ & _ & L). rewrite Eb in *.
  destruct is as [|i is]; [reflexivity|]. cbn [map]. destruct (k_specs _ _ K) as (m & ->). rewrite nth_error_app1; [reflexivity|]. apply L. now left.
Qed.

Definition step (n : nat) (H H' : heap) : Prop := good n H -> good n H' /\ kept H H'.
Lemma step_refl n H : step n H H. Proof. intros G. split; [exact G|apply kept_refl]. Qed.
Lemma step_trans n A B C : step n A B -> step n B C -> step n A C.
Proof. intros S1 S2 G. destruct (S1 G) as (G1 & K1). destruct (S2 G1) as (G2 & K2). split; [exact G2|]. eapply kept_trans; eauto. Qed.

Lemma loose_own a : loose a -> In a OWNKEYS.
Proof. intros [->|[->| ->]]; apply str_in_In; reflexivity. Qed.
Lemma good_change_own n H p f : good n H -> (forall c a, dget a (own (f c)) <> None -> dget a (own c) <> None \/ In a OWNKEYS) ->
  (forall c, cbases (f c) = cbases c) -> good n (with_comps H (change p f (comps H))).
Proof.
  intros G Ho Hb. assert (D : forall q c, dget q (change p f (comps H)) = Some c -> exists c0, dget q (comps H) = Some c0 /\ cbases c = cbases c0 /\ forall a, dget a (own c) <> None -> dget a (own c0) <> None \/ In a OWNKEYS).
  { intros q c E. rewrite dget_change in E. destruct (str_eqb q p); [|exists c; auto]. destruct (dget q (comps H)) as [c0|] eqn:E0; [|discriminate].
    cbn in E. injection E as <-. exists c0. auto. }
  split; cbn [specs comps with_comps].
  - apply G.
  - rewrite dkeys_change. apply G.
  - intros q c E. destruct (D _ _ E) as (c0 & E0 & -> & _). now apply (g_bases _ _ G _ _ E0).
  - intros q r c d i E1 E2. destruct (D _ _ E1) as (c0 & F1 & -> & _). destruct (D _ _ E2) as (d0 & F2 & -> & _). now apply (g_disj _ _ G).
  - intros q c a E Ha. destruct (D _ _ E) as (c0 & E0 & _ & O). destruct (O _ Ha) as [O'|O']; [|exact O']. now apply (g_own _ _ G _ _ _ E0).
  - apply G.
Qed.
Lemma step_set_attr n H p a v : loose a -> step n H (set_attr H p a v).
Proof.
  intros Ha G. split.
  - apply good_change_own; [exact G| |reflexivity]. intros c b Hb. cbn in Hb. rewrite dget_dset in Hb. destruct (str_eqb a b) eqn:E; [|now left].
    apply str_eqb_eq in E as <-. right. now apply loose_own.
  - split; [exists []; now rewrite app_nil_r|exists []; now rewrite app_nil_r, keys_set_attr|]. intros q c E. cbn. rewrite dget_change, E.
    destruct (str_eqb q p); [|exists c; auto]. eexists. split; [reflexivity|]. split; [reflexivity|]. intros b Hb. cbn. apply dget_dset_other. congruence.
Qed.
Lemma step_inst n H p v : step n H (set_attr H p INSTANCE_PATH v).
Proof. apply step_set_attr. now left. Qed.
Lemma step_order n H p o : step n H (set_order H p o).
Proof. apply step_set_attr. right. now right. Qed.
Lemma step_dirty n H d : step n H (with_dirty H d).
Proof. intros [A B C D E F]. split; [split; assumption|]. destruct H. split; [exists []; now rewrite app_nil_r|exists []; now rewrite app_nil_r|intros p c Ec; exists c; auto]. Qed.

(** *** Proxies *)

Lemma proxy_keys name comment enabled source parent a :
  dget a (proxy_spec name comment enabled source parent) <> None <-> In a OWNKEYS.
Proof.
  assert (K : dkeys (proxy_spec name comment enabled source parent) = OWNKEYS) by (vm_compute; reflexivity).
  rewrite <- K. destruct (dget a (proxy_spec name comment enabled source parent)) eqn:E.
  - split; [intros _|discriminate]. apply dget_some_key. eauto.
  - apply dget_none in E. split; [congruence|contradiction].
Qed.
Lemma proxy_values name comment enabled source parent :
  let sp := proxy_spec name comment enabled source parent in
  value sp NAME = VStr name /\ value sp COMMENT = (if has_opinion comment then comment else VNone) /\ value sp ENABLED = enabled /\
  value sp COMPUTE = VList [] /\ value sp PROXY = VBool true /\ value sp SOURCE_LAYER = source /\
  value sp PARENT_PATH = VStr (if is_empty parent then parent else parent) /\ value sp CHILD_ORDER = VList [] /\ value sp EXECUTE_IN = VNone /\
  value sp START_POINT = VNone /\ value sp INSTANCE_PATH = VNone.
Proof.
  cbn zeta. assert (Ht : truthy (VStr parent) = negb (is_empty parent)) by (destruct parent; reflexivity).
  repeat split; try (vm_compute; reflexivity).
  - unfold value. change (dget COMMENT (proxy_spec name comment enabled source parent)) with
      (Some (if negb (has_opinion comment) && true then VNone else comment)). now destruct (has_opinion comment).
  - unfold value. change (dget ENABLED (proxy_spec name comment enabled source parent)) with
      (Some (if negb (has_opinion enabled) && false then VNone else enabled)). now destruct (has_opinion enabled).
  - unfold value. change (dget PARENT_PATH (proxy_spec name comment enabled source parent)) with
      (Some (if truthy (VStr parent) then VStr parent else VStr parent)). destruct parent; reflexivity.
Qed.

Lemma here_false H p : here H p = false <-> dget p (comps H) = None.
Proof. unfold here, dmem. destruct (dget p (comps H)); split; congruence. Qed.

(** A new node at the end. *)
Lemma good_new n H sp tgt o : good n H -> dget tgt (comps H) = None -> (forall a, dget a sp <> None -> In a OWNKEYS) ->
  (forall a, dget a o <> None -> In a OWNKEYS) ->
  good n {| specs := specs H ++ [sp]; comps := comps H ++ [(tgt, {| own := o; cbases := [Sp (length (specs H))] |})]; dirty := dirty H |}.
Proof.
  intros G E Hs Ho. set (new := {| own := o; cbases := [Sp (length (specs H))] |}).
  assert (D : forall p c, dget p (comps H ++ [(tgt, new)]) = Some c -> dget p (comps H) = Some c \/ (p = tgt /\ c = new /\ dget p (comps H) = None)).
  { intros p c Ec. rewrite dget_app in Ec. destruct (dget p (comps H)); [now left|]. cbn [dget] in Ec. destruct (str_eqb tgt p) eqn:Et; [|discriminate].
    apply str_eqb_eq in Et as ->. injection Ec as <-. now right. }
  split; cbn [specs comps].
  - rewrite app_length. pose proof (g_len _ _ G). lia.
  - unfold dkeys. rewrite map_app. cbn [map fst]. apply DirtyProofs.NoDup_snoc; [apply G|]. now apply dget_none.
  - intros p c Ec. destruct (D _ _ Ec) as [F|(-> & -> & _)].
    + destruct (g_bases _ _ G _ _ F) as (is & A & B & C & L). exists is. rewrite app_length. repeat split; auto. intros i Hi. specialize (L _ Hi). lia.
    + exists [length (specs H)]. split; [reflexivity|]. split; [discriminate|]. split; [repeat constructor; intros []|]. intros i [<-|[]]. rewrite app_length. cbn. lia.
  - assert (Old : forall p c, dget p (comps H) = Some c -> ~ In (Sp (length (specs H))) (cbases c)).
    { intros p c Ec F. destruct (g_bases _ _ G _ _ Ec) as (is & A & _ & _ & L). rewrite A in F. apply in_map_iff in F as (i & [= ->] & F). specialize (L _ F). lia. }
    intros p q c d i Ep Eq Ic Id. destruct (D _ _ Ep) as [F|(-> & -> & _)], (D _ _ Eq) as [F'|(-> & -> & _)].
    + eapply (g_disj _ _ G); eauto.
    + destruct Id as [[= <-]|[]]. destruct (Old _ _ F Ic).
    + destruct Ic as [[= <-]|[]]. destruct (Old _ _ F' Id).
    + reflexivity.
  - intros p c a Ec Ha. destruct (D _ _ Ec) as [F|(-> & -> & _)]; [eapply (g_own _ _ G); eauto|now apply Ho].
  - intros i s a Hi Ei Ha. destruct (Nat.lt_ge_cases i (length (specs H))) as [L|L].
    + rewrite nth_error_app1 in Ei by exact L. eapply (g_spec _ _ G); eauto.
    + rewrite nth_error_app2 in Ei by exact L. destruct (i - length (specs H)) as [|k]; cbn in Ei; [injection Ei as <-; now apply Hs|destruct k; discriminate].
Qed.
Lemma kept_new H sp tgt c : dget tgt (comps H) = None ->
  kept H {| specs := specs H ++ [sp]; comps := comps H ++ [(tgt, c)]; dirty := dirty H |}.
Proof.
  intros E. split; [eexists; reflexivity|exists [tgt]; unfold dkeys; cbn; now rewrite map_app|].
  intros p d Ed. exists d. cbn [comps]. rewrite dget_app, Ed. auto.
Qed.

Lemma step_add_proxy n H sp src tgt force : here H tgt = false -> (forall a, dget a sp <> None -> In a OWNKEYS) -> step n H (add_proxy H sp src tgt force).
Proof.
  intros E Hs. unfold add_proxy.
  match goal with |- context [if force then ?a else ?b] => set (o := if force then a else b) end. cbn zeta.
  match goal with |- context [{| specs := specs H ++ [sp]; comps := ?c; dirty := dirty H |}] => set (H1 := {| specs := specs H ++ [sp]; comps := c; dirty := dirty H |}) end.
  assert (S1 : step n H H1).
  { intros G. apply here_false in E. split; [|now apply kept_new]. apply good_new; [exact G|exact E|exact Hs|].
    intros a. assert (K : forall d : dict pyval, (forall k, In k (dkeys d) -> In k OWNKEYS) -> dget a d <> None -> In a OWNKEYS).
    { intros d Hk Ha. apply Hk. destruct (dget a d) eqn:Ea; [|congruence]. apply dget_some_key. eauto. }
    apply K. intros k Hk. apply str_in_In. unfold o in Hk. destruct force; vm_compute in Hk; repeat destruct Hk as [<-|Hk]; try reflexivity; destruct Hk. }
  match goal with |- step n H (if ?b then _ else _) => destruct b end; [|exact S1]. eapply step_trans; [exact S1|apply step_order].
Qed.

Section Loop.
Variables (top_real : pyval) (one_object : bool) (n : nat).

Lemma keys_step_inst H p v : dkeys (comps (set_attr H p INSTANCE_PATH v)) = dkeys (comps H).
Proof. apply keys_set_attr. Qed.

(** Discovering adds no node and proposes none that is there. *)
Lemma discover_child_step p H to_do src :
  step n H (fst (discover_child p (H, to_do) src)) /\ dkeys (comps (fst (discover_child p (H, to_do) src))) = dkeys (comps H) /\
  forall r, In r (snd (discover_child p (H, to_do) src)) -> In r to_do \/ here H (snd r) = false.
Proof.
  unfold discover_child. set (tgt := node_namespace_to_str_path _). destruct (here H tgt) eqn:E.
  - destruct (attr H tgt INSTANCE_PATH) as [| | |[|c s]| | | |] eqn:Ea; cbn [fst snd];
      try (split; [apply step_inst|split; [apply keys_set_attr|now left]]). split; [apply step_refl|split; [reflexivity|now left]].
  - cbn [fst snd]. split; [apply step_refl|split; [reflexivity|]]. intros r Hr. apply in_app_or in Hr as [Hr|[<-|[]]]; [now left|right; exact E].
Qed.
Lemma here_keys H H' p : dkeys (comps H') = dkeys (comps H) -> here H' p = here H p.
Proof.
  intros E. destruct (here H p) eqn:F.
  - apply here_In. rewrite E. now apply here_In.
  - destruct (here H' p) eqn:F'; [|reflexivity]. apply here_In in F'. rewrite E in F'. apply here_In in F'. congruence.
Qed.
Lemma discover_children_step p srcs : forall H to_do,
  let r := fold_left (discover_child p) srcs (H, to_do) in
  step n H (fst r) /\ dkeys (comps (fst r)) = dkeys (comps H) /\ forall t, In t (snd r) -> In t to_do \/ here H (snd t) = false.
Proof.
  induction srcs as [|src srcs IH]; intros H to_do; cbn [fold_left].
  - cbn. split; [apply step_refl|split; [reflexivity|now left]].
  - destruct (discover_child_step p H to_do src) as (S1 & K1 & T1). destruct (discover_child p (H, to_do) src) as [H1 td1] eqn:E. cbn [fst snd] in *.
    destruct (IH H1 td1) as (S2 & K2 & T2). cbn zeta in *. split; [eapply step_trans; eauto|]. split; [congruence|].
    intros t Ht. destruct (T2 _ Ht) as [F|F]; [now apply T1|]. right. now rewrite <- (here_keys H H1).
Qed.
Lemma sort_in {A} (key : A -> nat) l x : In x (sort_multidimensional_list key l) <-> In x l.
Proof.
  destruct (SortProofs.sort_rows_spec key l) as (P & _). split; apply Permutation_in; [exact P|now apply Permutation_sym].
Qed.
Lemma discover_step H p :
  step n H (fst (discover one_object H p)) /\ dkeys (comps (fst (discover one_object H p))) = dkeys (comps H) /\
  forall t, In t (snd (discover one_object H p)) -> here H (snd t) = false.
Proof.
  unfold discover. destruct (possible H p) as [real|]; [|cbn; split; [apply step_refl|split; [reflexivity|intros ? []]]].
  set (H1 := set_attr H p INSTANCE_PATH (VStr real)). set (H2 := concern one_object H1 real p).
  set (H3 := if here H2 real then set_order H2 p (merged (order_of H2 p) (order_of H2 real)) else H2).
  assert (S3 : step n H H3 /\ dkeys (comps H3) = dkeys (comps H)).
  { assert (S2 : step n H H2 /\ dkeys (comps H2) = dkeys (comps H)).
    { split; [|unfold H2, concern, H1; cbn [comps with_dirty]; apply keys_set_attr]. eapply step_trans; [apply step_inst|apply step_dirty]. }
    unfold H3. destruct (here H2 real); [|exact S2]. split; [eapply step_trans; [apply S2|apply step_order]|]. unfold set_order. rewrite keys_set_attr. apply S2. }
  cbn zeta. fold H1. fold H2. fold H3. destruct S3 as (S3 & K3).
  destruct (discover_children_step p (kid_paths H3 real) H3 []) as (S4 & K4 & T4). cbn zeta in *.
  destruct (fold_left (discover_child p) (kid_paths H3 real) (H3, [])) as [H4 td]. cbn [fst snd] in *.
  split; [eapply step_trans; eauto|]. split; [congruence|]. intros t Ht. apply sort_in in Ht. destruct (T4 _ Ht) as [[]|F]. now rewrite <- (here_keys H H3).
Qed.
Lemma discover_all_step ps : forall H to_do,
  let r := fold_left (fun acc p => let '(H, to_do) := acc in let '(H, more) := discover one_object H p in (H, to_do ++ more)) ps (H, to_do) in
  step n H (fst r) /\ dkeys (comps (fst r)) = dkeys (comps H) /\ forall t, In t (snd r) -> In t to_do \/ here H (snd t) = false.
Proof.
  induction ps as [|p ps IH]; intros H to_do; cbn [fold_left].
  - cbn. split; [apply step_refl|split; [reflexivity|now left]].
  - destruct (discover_step H p) as (S1 & K1 & T1). destruct (discover one_object H p) as [H1 more]. cbn [fst snd] in *.
    destruct (IH H1 (to_do ++ more)) as (S2 & K2 & T2). cbn zeta in *. split; [eapply step_trans; eauto|]. split; [congruence|].
    intros t Ht. destruct (T2 _ Ht) as [F|F]; [apply in_app_or in F as [F|F]; [now left|right; now apply T1]|]. right. now rewrite <- (here_keys H H1).
Qed.

Lemma step_name_missing H src : step n H (name_missing H src).
Proof. unfold name_missing. destruct (_ && _); [apply step_order|apply step_refl]. Qed.
Lemma here_name_missing H src p : here (name_missing H src) p = here H p.
Proof. unfold name_missing. destruct (_ && _); [|reflexivity]. unfold set_order. now rewrite here_set_attr. Qed.
Lemma create_step H src tgt : step n H (fst (create_instance top_real one_object H src tgt)).
Proof.
  unfold create_instance. cbn zeta. cbn [fst].
  match goal with |- step n H (concern _ ?X _ _) => assert (S : step n H X) end.
  - set (H1 := if here H src then H else name_missing H src).
    assert (S1 : step n H H1) by (unfold H1; destruct (here H src); [apply step_refl|apply step_name_missing]).
    fold H1. destruct (here H1 tgt) eqn:E.
    + eapply step_trans; [exact S1|]. eapply step_trans; [apply step_inst|]. apply step_set_attr. right. now left.
    + eapply step_trans; [exact S1|]. apply step_add_proxy; [exact E|]. intros a Ha. now apply proxy_keys in Ha.
  - eapply step_trans; [exact S|apply step_dirty].
Qed.
Lemma create_all_step (rs : list (list pystr * pystr * pystr)) : forall H (imps : list pystr),
  let r := fold_left (fun acc r => let '(H, imps) := acc in let '(_, src, tgt) := r in
                          let '(H, i) := create_instance top_real one_object H src tgt in
                          (H, if i then imps ++ [tgt] else imps)) rs (H, imps) in
  step n H (fst r) /\ forall t, In t (snd r) -> In t imps \/ exists x, In x rs /\ snd x = t.
Proof.
  induction rs as [|[[ns src] tgt] rs IH]; intros H imps; cbn [fold_left].
  - cbn. split; [apply step_refl|now left].
  - pose proof (create_step H src tgt) as S1. destruct (create_instance top_real one_object H src tgt) as [H1 i]. cbn [fst] in S1.
    destruct (IH H1 (if i then imps ++ [tgt] else imps)) as (S2 & T2). cbn zeta in *. split; [eapply step_trans; eauto|].
    intros t Ht. destruct (T2 _ Ht) as [F|(x & Hx & <-)]; [|right; exists x; split; [now right|reflexivity]].
    destruct i; [|now left]. apply in_app_or in F as [F|[<-|[]]]; [now left|]. right. exists (ns, src, tgt). split; [now left|reflexivity].
Qed.

Lemma loop_step fuel : forall H imps H' imps', good n H -> proxy_loop top_real one_object fuel H imps = Some (H', imps') ->
  step n H H' /\ forall t, In t imps' -> In t imps \/ here H t = false.
Proof.
  induction fuel as [|f IH]; intros H imps H' imps' G E; [discriminate|]. cbn [proxy_loop] in E.
  pose proof (discover_all_step (deep_sort_instances H) H []) as (S1 & K1 & T1). cbn zeta in *.
  unfold discover_all in E. destruct (fold_left _ (deep_sort_instances H) (H, [])) as [H1 to_do] eqn:E1. cbn [fst snd] in *.
  pose proof (create_all_step to_do H1 []) as (S2 & T2). cbn zeta in *.
  unfold create_all in E. destruct (fold_left _ to_do (H1, [])) as [H2 more] eqn:E2. cbn [fst snd] in *.
  assert (T : forall t, In t (imps ++ more) -> In t imps \/ here H t = false).
  { intros t Ht. apply in_app_or in Ht as [Ht|Ht]; [now left|right]. destruct (T2 _ Ht) as [[]|(x & Hx & <-)]. destruct (T1 _ Hx) as [[]|F]. exact F. }
  destruct to_do as [|r rs].
  - injection E as <- <-. split; [eapply step_trans; eauto|exact T].
  - assert (G2 : good n H2) by (apply S2, S1, G). destruct (IH _ _ _ _ G2 E) as (S3 & T3). split; [eapply step_trans; [exact S1|eapply step_trans; eauto]|].
    intros t Ht. destruct (T3 _ Ht) as [F|F]; [now apply T|]. destruct (here H t) eqn:F0; [|now right]. exfalso.
    destruct (step_trans _ _ _ _ S1 S2 G) as (_ & K). rewrite (kept_here _ _ _ K F0) in F. discriminate.
Qed.

(** The composition with proxies: what the layers define is still there. *)
Definition kept' (H H' : heap) : Prop :=
  (exists more, specs H' = specs H ++ more) /\
  forall p c, dget p (comps H) = Some c ->
    exists c', dget p (comps H') = Some c' /\ cbases c' = cbases c /\ forall a, ~ loose a -> dget a (own c') = dget a (own c).

Lemma dget_drop (d : dict cnode) imps p : ~ In p imps -> dget p (fold_left (fun d p => ddel p d) imps d) = dget p d.
Proof.
  revert d. induction imps as [|q imps IH]; intros d Hp; cbn [fold_left]; [reflexivity|]. rewrite IH by (intros F; apply Hp; now right).
  apply dget_ddel_other. intros ->. apply Hp. now left.
Qed.
Lemma drop_sub (d : dict cnode) imps p c : NoDup (dkeys d) -> dget p (fold_left (fun d p => ddel p d) imps d) = Some c -> dget p d = Some c.
Proof.
  revert d. induction imps as [|q imps IH]; intros d Hn E; cbn [fold_left] in E; [exact E|]. apply IH in E; [|now apply NoDup_ddel].
  rewrite dget_ddel in E by exact Hn. destruct (str_eqb q p); [discriminate|exact E].
Qed.
Lemma drop_nodup (d : dict cnode) imps : NoDup (dkeys d) -> NoDup (dkeys (fold_left (fun d p => ddel p d) imps d)).
Proof. revert d. induction imps as [|q imps IH]; intros d Hn; cbn [fold_left]; [exact Hn|]. apply IH. now apply NoDup_ddel. Qed.
Lemma good_drop H imps : good n H -> good n (drop_implied H imps).
Proof.
  intros G. unfold drop_implied. assert (D : forall p c, dget p (fold_left (fun d p => ddel p d) imps (comps H)) = Some c -> dget p (comps H) = Some c).
  { intros p c. apply drop_sub. apply G. }
  split; cbn [specs comps with_comps]; try apply G.
  - apply drop_nodup. apply G.
  - intros p c E. apply (g_bases _ _ G p c). auto.
  - intros p q c d i E1 E2. apply (g_disj _ _ G p q c d i); auto.
  - intros p c a E. apply (g_own _ _ G p c a); auto.
Qed.
Lemma comp_proxies_keeps fuel H H' : good n H -> comp_proxies top_real one_object fuel H = Some H' -> good n H' /\ kept' H H'.
Proof.
  intros G E. unfold comp_proxies in E. destruct (proxy_loop top_real one_object fuel H []) as [[H1 imps]|] eqn:E1; [|discriminate]. cbn in E. injection E as <-.
  destruct (loop_step _ _ _ _ _ G E1) as (S1 & T). destruct (S1 G) as (G1 & K1). split; [now apply good_drop|]. split.
  - destruct (k_specs _ _ K1) as (m & Em). exists m. exact Em.
  - intros p c Ec. destruct (k_nodes _ _ K1 _ _ Ec) as (c' & Ec' & F). exists c'. split; [|exact F]. cbn [comps drop_implied with_comps].
    rewrite dget_drop; [exact Ec'|]. intros I. destruct (T _ I) as [[]|F']. apply here_false in F'. congruence.
Qed.
End Loop.

(** The pre proxy composition is good. *)
Lemma good_pre tables : good (length (concat tables)) (comp_pre_proxies tables).
Proof.
  split.
  - cbn. now rewrite map_length.
  - rewrite pre_keys. apply firsts_spec.
  - intros p c E. rewrite pre_get in E. destruct (stack p (map as_placed (concat tables))) as [|sp l] eqn:Es; [discriminate|]. injection E as <-.
    exists (numbers 0 p (concat tables)). cbn [cbases]. split; [reflexivity|]. split; [|split; [apply numbers_nodup|]].
    + intros F. pose proof (numbers_nodes (concat tables) [] p) as N. cbn [length app] in N. rewrite F, Es in N. discriminate.
    + intros i Hi. apply numbers_nth in Hi as (r & _ & Hi & _). cbn. rewrite map_length. apply nth_error_Some. rewrite Nat.sub_0_r in Hi. congruence.
  - intros p q c d i E1 E2 I1 I2. rewrite pre_get in E1, E2. destruct (stack p _) eqn:Ep; [discriminate|]. destruct (stack q _) eqn:Eq; [discriminate|].
    injection E1 as <-. injection E2 as <-. cbn [cbases] in *. apply in_map_iff in I1 as (j & [= ->] & I1). apply in_map_iff in I2 as (j & [= ->] & I2).
    apply numbers_nth in I1 as (r & _ & F1 & <-). apply numbers_nth in I2 as (r' & _ & F2 & <-). congruence.
  - intros p c a E Ha. rewrite pre_get in E. destruct (stack p _) as [|sp l] eqn:Ep; [discriminate|]. injection E as <-. cbn [own] in Ha.
    assert (Go : forall sps b o, (forall a, dget a o <> None -> In a OWNKEYS) -> forall a, dget a (overloads p b sps o) <> None -> In a OWNKEYS).
    { clear. assert (Ov : forall sp o, (forall a, dget a o <> None -> In a OWNKEYS) -> forall a, dget a (overload p o sp) <> None -> In a OWNKEYS).
      { intros sp o. unfold overload. assert (Hl : incl TRACKED TRACKED) by apply incl_refl. revert o Hl. generalize TRACKED at 1 3 as l.
        induction l as [|b l IH]; intros o Hl Ho a Ha; cbn [fold_left] in Ha; [now apply Ho|]. eapply IH; [intros x Hx; apply Hl; now right| |exact Ha].
        intros c Hc. cbn zeta in Hc. destruct (has_opinion (attr_or_none sp b)); [|now apply Ho]. rewrite !dget_dset in Hc.
        assert (Hb : In b TRACKED) by (apply Hl; now left).
        destruct (str_eqb (b ++ META_SOURCE) c) eqn:E1; [apply str_eqb_eq in E1 as <-; apply in_or_app; right; apply in_map_iff; eauto|].
        destruct (str_eqb b c) eqn:E2; [apply str_eqb_eq in E2 as <-; apply in_or_app; left; apply in_or_app; now left|]. now apply Ho. }
      assert (Co : forall v (o : node), (forall a, dget a o <> None -> In a OWNKEYS) -> forall a, dget a (dset CHILD_ORDER v o) <> None -> In a OWNKEYS).
      { intros v o Ho a Ha. rewrite dget_dset in Ha. destruct (str_eqb CHILD_ORDER a) eqn:E; [|now apply Ho]. apply str_eqb_eq in E as <-. apply str_in_In. reflexivity. }
      induction sps as [|x sps IH]; intros b o Ho a Ha; cbn [overloads] in Ha; [now apply Ho|]. eapply IH; [|exact Ha]. cbn zeta. clear a Ha.
      assert (O1 : forall a, dget a (if b then dset CHILD_ORDER (attr_or_none x CHILD_ORDER) o else o) <> None -> In a OWNKEYS) by (destruct b; [apply Co|]; exact Ho).
      destruct (str_eqb p WORLD); [now apply Ov|]. apply Co. now apply Ov. }
    eapply Go; [|exact Ha]. intros b Hb. cbn [dget] in Hb. destruct (str_eqb NAME b) eqn:E; [apply str_eqb_eq in E as <-; apply str_in_In; reflexivity|congruence].
  - intros i sp a Hi E. exfalso. assert (i < length (specs (comp_pre_proxies tables))) by (apply nth_error_Some; congruence). cbn in H. rewrite map_length in H. lia.
Qed.
