(** Proofs about saving and loading the nodes of a layer. *)

From Coq Require Import String List NArith ZArith Bool Lia Permutation Sorted.
From Verif Require Import PyStr PyStrFacts NxtPath PathSpec PathProofs Dict DictFacts PyVal PyValFacts
  ListMerger OrderSpec MergeProofs NodeIO NodeIOSpec NodeIOProofs LayerIO LayerIOSpec.
Import ListNotations.

Lemma fold_res_app {A B} (f : A -> B -> res A) l : forall m a,
  fold_res f (l ++ m) a = bind (fold_res f l a) (fold_res f m).
Proof.
  induction l as [|x l IH]; intros m a; [reflexivity|]. cbn [app fold_res].
  destruct (f a x); cbn [bind]; auto.
Qed.

Lemma dset_same {V} k (v : V) d : dget k d = Some v -> dset k v d = d.
Proof.
  induction d as [|[k' v'] d IH]; cbn; [discriminate|].
  destruct (str_eqb k' k); intros H; [congruence|]. now rewrite IH.
Qed.

Lemma dset_dset {V} k (v w : V) d : dset k v (dset k w d) = dset k v d.
Proof.
  induction d as [|[k' v'] d IH]; cbn; [now rewrite str_eqb_refl|].
  destruct (str_eqb k' k) eqn:E; cbn; rewrite E; [reflexivity|]. now rewrite IH.
Qed.

Lemma StronglySorted_app_l {A} (R : A -> A -> Prop) l m :
  StronglySorted R (l ++ m) -> StronglySorted R l.
Proof.
  induction l as [|x l IH]; intros H; [constructor|]. inversion H as [|? ? H1 H2]; subst.
  constructor; auto. apply Forall_app in H2. tauto.
Qed.

Lemma StronglySorted_app_lt {A} (R : A -> A -> Prop) l m :
  StronglySorted R (l ++ m) -> forall x y, In x l -> In y m -> R x y.
Proof.
  induction l as [|a l IH]; intros H x y Hx Hy; [destruct Hx|]. inversion H as [|? ? H1 H2]; subst.
  destruct Hx as [->|Hx]; [|now apply IH]. rewrite Forall_forall in H2. apply H2, in_or_app. now right.
Qed.

Lemma filter_none {A} (f : A -> bool) l : (forall x, In x l -> f x = false) -> filter f l = [].
Proof.
  induction l as [|x l IH]; intros H; [reflexivity|]. cbn. rewrite (H x) by now left.
  apply IH. intros. apply H. now right.
Qed.

Lemma str_ltb_asym a b : str_ltb a b = true -> str_ltb b a = false.
Proof.
  intros H. destruct (str_ltb b a) eqn:E; auto.
  pose proof (str_ltb_trans _ _ _ H E) as X. rewrite str_ltb_irrefl in X. discriminate.
Qed.

(** *** Paths *)

Definition good (p : pystr) : Prop :=
  join_node_paths (get_parent_path p) (node_name_from_node_path p) = p /\
  str_ltb (get_parent_path p) p = true.

Lemma abs_good ns : Forall component ns ->
  good (abs_path ns) /\ node_name_from_node_path (abs_path ns) = own_name ns.
Proof.
  intros H. destruct ns as [|m ns _] using rev_ind.
  - split; [split; reflexivity|reflexivity].
  - unfold good. rewrite get_parent_path_abs, node_name_abs, join_node_paths_abs by auto.
    split; [split|].
    + reflexivity.
    + apply Forall_app in H as [_ H]. inversion H as [|? ? [Hm _] _]; subst.
      destruct ns as [|x ns].
      * cbn [app abs_path slashed]. change (SLASH :: m ++ []) with ([SLASH] ++ (m ++ [])).
        apply str_ltb_prefix. now rewrite app_nil_r.
      * rewrite abs_path_snoc. rewrite abs_path_slashed by discriminate.
        apply str_ltb_prefix. discriminate.
    + unfold own_name. now rewrite last_last.
Qed.

(** *** Creating nodes reads none but the known keys *)

Lemma create_ext d d' rp pp :
  (forall k, k <> SOURCE_LAYER -> dget k d = dget k d') ->
  create_node d rp pp false = create_node d' rp pp false.
Proof.
  intros H. unfold create_node.
  rewrite (H (lit "name")) by (vm_compute; discriminate).
  destruct (dget (lit "name") d') as [[]|]; auto.
  rewrite (H K_ATTRS) by (vm_compute; discriminate).
  match goal with |- bind ?x _ = _ => destruct x as [attrs|]; auto end. cbn [bind].
  unfold load_child_order. rewrite (H (lit "child_order")) by (vm_compute; discriminate).
  match goal with |- bind ?x _ = _ => destruct x as [co|]; auto end. cbn [bind].
  assert (G : fold_left (load_internal d) ALL_INTERNAL attrs = fold_left (load_internal d') ALL_INTERNAL attrs).
  { assert (G : forall l a, (forall x, In x l -> as_save_key x <> SOURCE_LAYER) ->
      fold_left (load_internal d) l a = fold_left (load_internal d') l a).
    { induction l as [|x l IH]; intros a Hl; [reflexivity|]. cbn [fold_left].
      rewrite IH by (intros; apply Hl; now right). f_equal. unfold load_internal.
      now rewrite (H (as_save_key x)) by (apply Hl; now left). }
    apply G. intros x Hx. cbn [In ALL_INTERNAL TRACKED UNTRACKED app] in Hx.
    repeat (destruct Hx as [<-|Hx]; [vm_compute; discriminate|]). destruct Hx. }
  now rewrite G.
Qed.

Definition with_order (o : list pystr) (n : node) : node := dset CHILD_ORDER (VStrs o) n.
Definition extend (o ks : list pystr) : list pystr :=
  fold_left (fun acc k => if str_in k acc then acc else acc ++ [k]) ks o.

Lemma extend_dedup l ks : extend (dedup l) ks = dedup (l ++ ks).
Proof. unfold extend, dedup. now rewrite fold_left_app. Qed.

Lemma extend_snoc o ks k : extend o (ks ++ [k]) = if str_in k (extend o ks) then extend o ks else extend o ks ++ [k].
Proof. unfold extend. now rewrite fold_left_app. Qed.

Lemma extend_nodup o ks : NoDup o -> NoDup (extend o ks).
Proof.
  revert o. induction ks as [|k ks IH]; intros o H; [exact H|]. cbn. apply IH.
  destruct (str_in k o) eqn:E; auto. apply str_in_not_In in E.
  apply NoDup_Add with (a := k) (l := o); [|now split].
  rewrite <- (app_nil_r o) at 1. apply Add_app.
Qed.

Lemma extend_id o ks : (forall k, In k ks -> In k o) -> extend o ks = o.
Proof.
  induction ks as [|k ks IH]; intros H; [reflexivity|]. cbn.
  rewrite (proj2 (str_in_In k o)) by (apply H; now left). apply IH. intros. apply H. now right.
Qed.

(** *** The node table *)

Section Construct.
Variables (rp : pyval) (cr : pystr -> node) (od : pystr -> list pystr).

Definition kids_of (p : pystr) (ps : list pystr) : list pystr :=
  map node_name_from_node_path (filter (fun q => str_eqb (get_parent_path q) p) ps).
Definition table (ps : list pystr) : dict node :=
  map (fun p => (p, with_order (extend (od p) (kids_of p ps)) (cr p))) ps.

Definition creates (p : pystr) (d : dict pyval) : Prop :=
  create_node (dset (lit "name") (VStr (node_name_from_node_path p)) d) rp (get_parent_path p) false = Ok (cr p) /\
  dget CHILD_ORDER (cr p) = Some (VStrs (od p)) /\ dget PROXY (cr p) = Some (VBool false) /\
  dget PARENT_PATH (cr p) = Some (VStr (get_parent_path p)) /\ NoDup (od p).

Lemma kids_snoc p ps q :
  kids_of p (ps ++ [q]) = kids_of p ps ++ (if str_eqb (get_parent_path q) p then [node_name_from_node_path q] else []).
Proof.
  unfold kids_of. rewrite filter_app, map_app. cbn [filter]. destruct (str_eqb (get_parent_path q) p); reflexivity.
Qed.

Lemma with_order_get o n k : dget k (with_order o n) = if str_eqb CHILD_ORDER k then Some (VStrs o) else dget k n.
Proof. unfold with_order. apply dget_dset. Qed.

Lemma dset_table (f : pystr -> node) ps p v :
  NoDup ps -> In p ps ->
  dset p v (map (fun q => (q, f q)) ps) = map (fun q => (q, if str_eqb p q then v else f q)) ps.
Proof.
  induction ps as [|q ps IH]; intros Hn Hp; [destruct Hp|]. cbn [map dset].
  apply NoDup_cons_iff in Hn as [N1 N2]. destruct (str_eqb_spec q p) as [->|Hne].
  - rewrite str_eqb_refl. f_equal. apply map_ext_in. intros x Hx.
    destruct (str_eqb_spec p x) as [->|]; [contradiction|reflexivity].
  - destruct Hp as [->|Hp]; [congruence|].
    destruct (str_eqb_spec p q); [congruence|]. f_equal. now apply IH.
Qed.

Lemma construct_table l :
  StronglySorted (fun a b => str_ltb (fst a) (fst b) = true) l ->
  (forall p d, In (p, d) l -> good p /\ creates p d) ->
  fold_res (load_node rp) (map (fun kv => (fst kv, VDict (snd kv))) l) [] = Ok (table (map fst l)).
Proof.
  induction l as [|[q d] l IH] using rev_ind; intros Hs Hc; [reflexivity|].
  rewrite !map_app. cbn [map fst snd]. rewrite fold_res_app.
  assert (IH' : fold_res (load_node rp) (map (fun kv => (fst kv, VDict (snd kv))) l) []
                = Ok (table (map fst l))).
  { apply IH.
    - apply StronglySorted_app_l in Hs. exact Hs.
    - intros p d' H. apply Hc. apply in_or_app. now left. }
  refine (eq_trans (f_equal (fun r => bind r _) IH') _). clear IH'.
  cbn [bind fold_res]. unfold load_node at 1.
  destruct (Hc q d) as [[G1 G2] (C1 & C2 & C3 & C4 & C5)]; [apply in_or_app; right; now left|].
  rewrite (create_ext _ (dset (lit "name") (VStr (node_name_from_node_path q)) d)).
  2:{ intros k Hk. apply dget_dset_other. congruence. }
  rewrite C1. cbn [bind].
  set (ps := map fst l).
  assert (Hlt : forall p, In p ps -> str_ltb p q = true).
  { intros p Hp. apply in_map_iff in Hp as ([p' d'] & <- & Hp).
    exact (StronglySorted_app_lt _ _ _ Hs _ (q, d) Hp (or_introl eq_refl)). }
  assert (Hnd : NoDup ps).
  { apply StronglySorted_app_l in Hs. clear - Hs.
    induction Hs as [|x t Hs IH Hx]; cbn; constructor; auto.
    intros H. apply in_map_iff in H as (y & E & Hy). rewrite Forall_forall in Hx. apply Hx in Hy.
    rewrite E, str_ltb_irrefl in Hy. discriminate. }
  assert (Hq : ~ In q ps) by (intros H; apply Hlt in H; rewrite str_ltb_irrefl in H; discriminate).
  assert (Hno : forall p, In p ps -> get_parent_path p <> q).
  { intros p Hp E. assert (L := Hlt p Hp).
    apply in_map_iff in Hp as ([p' d'] & <- & Hp). cbn in *.
    destruct (Hc p' d') as [[_ K] _]; [apply in_or_app; now left|]. rewrite E in K.
    rewrite (str_ltb_asym _ _ K) in L. discriminate. }
  assert (Hk0 : kids_of q (ps ++ [q]) = []).
  { rewrite kids_snoc. destruct (str_eqb_spec (get_parent_path q) q) as [E|_].
    - rewrite E, str_ltb_irrefl in G2. discriminate.
    - rewrite app_nil_r. unfold kids_of. rewrite filter_none; auto.
      intros p Hp. apply str_eqb_neq. now apply Hno. }
  assert (Hfin : forall t,
     t = map (fun p => (p, with_order (extend (od p) (kids_of p (ps ++ [q]))) (cr p))) ps ->
     (match dget PARENT_PATH (cr q) with
      | Some (VStr pp) => Ok (dset (join_node_paths pp (node_name_from_node_path q)) (cr q) t)
      | _ => Raise TypeError end) = Ok (table (ps ++ [q]))).
  { intros t ->. rewrite C4, G1. f_equal. rewrite dset_new.
    - unfold table. rewrite map_app. f_equal. cbn [map]. rewrite Hk0. cbn [extend fold_left].
      unfold with_order. now rewrite dset_same.
    - rewrite dkeys_map. exact Hq. }
  unfold add_to_parent.
  assert (Hget : forall k, dget k (table ps) = if str_in k ps then
     Some (with_order (extend (od k) (kids_of k ps)) (cr k)) else None).
  { intros k. unfold table. apply (dget_map (fun p => with_order (extend (od p) (kids_of p ps)) (cr p))). }
  rewrite Hget. destruct (str_in (get_parent_path q) ps) eqn:Ep.
  2:{ cbn [bind]. rewrite Hfin; [reflexivity|]. unfold table. apply map_ext_in. intros p Hp.
      rewrite kids_snoc. destruct (str_eqb_spec (get_parent_path q) p) as [E|_].
      - apply str_in_not_In in Ep. rewrite E in Ep. contradiction.
      - now rewrite app_nil_r. }
  set (pp := get_parent_path q) in *.
  rewrite with_order_get, str_eqb_refl. cbn [VStrs]. rewrite strings_vstrs.
  unfold attr_or_none. rewrite C3. rewrite with_order_get.
  apply str_in_In in Ep.
  assert (Cp : dget PROXY (cr pp) = Some (VBool false)).
  { apply in_map_iff in Ep as ([p' d'] & E & Hp). cbn in E. subst p'.
    destruct (Hc pp d') as [_ (_ & _ & X & _)]; [apply in_or_app; now left|exact X]. }
  assert (No : NoDup (od pp)).
  { apply in_map_iff in Ep as ([p' d'] & E & Hp). cbn in E. subst p'.
    destruct (Hc pp d') as [_ (_ & _ & _ & _ & X)]; [apply in_or_app; now left|exact X]. }
  replace (str_eqb CHILD_ORDER PROXY) with false by reflexivity. rewrite Cp. cbn [truthy orb negb].
  rewrite andb_true_r.
  assert (Hext : map (fun p => (p, with_order (extend (od p) (kids_of p (ps ++ [q]))) (cr p))) ps
    = map (fun p => (p, if str_eqb pp p
                        then with_order (extend (od pp) (kids_of pp ps ++ [node_name_from_node_path q])) (cr pp)
                        else with_order (extend (od p) (kids_of p ps)) (cr p))) ps).
  { apply map_ext. intros p. rewrite kids_snoc. fold pp. destruct (str_eqb_spec pp p) as [<-|_]; auto.
    now rewrite app_nil_r. }
  destruct (str_in (node_name_from_node_path q) (extend (od pp) (kids_of pp ps))) eqn:Ei; cbn [negb].
  - cbn [bind]. rewrite Hfin; [reflexivity|]. rewrite Hext. apply map_ext. intros p.
    destruct (str_eqb_spec pp p) as [<-|_]; auto. now rewrite extend_snoc, Ei.
  - rewrite list_merger_disjoint.
    + cbn [bind]. rewrite Hfin; [reflexivity|]. rewrite Hext. unfold table.
      rewrite (dset_table (fun p => with_order (extend (od p) (kids_of p ps)) (cr p))) by auto.
      apply map_ext. intros p. destruct (str_eqb pp p); auto. rewrite extend_snoc, Ei.
      unfold with_order. now rewrite dset_dset.
    + now apply extend_nodup.
    + repeat constructor; auto.
    + intros x [<-|[]]. now apply str_in_not_In.
Qed.
End Construct.

(** *** Saving and loading the nodes of a layer *)

Lemma sort_map {V W} (f : V -> W) (d : dict V) :
  sort_items (map (fun kv => (fst kv, f (snd kv))) d) = map (fun kv => (fst kv, f (snd kv))) (sort_items d).
Proof.
  induction d as [|kv d IH]; [reflexivity|]. cbn [map sort_items]. rewrite IH. clear IH.
  induction (sort_items d) as [|x t IH]; [reflexivity|]. cbn.
  destruct (str_ltb (fst x) (fst kv)); cbn; [|reflexivity]. now rewrite <- IH.
Qed.

Lemma fold_dset_map {V W} (f : V -> W) (d : dict V) :
  NoDup (dkeys d) ->
  fold_left (fun acc kv => dset (fst kv) (f (snd kv)) acc) d [] = map (fun kv => (fst kv, f (snd kv))) d.
Proof.
  intros H.
  assert (G : forall acc, NoDup (dkeys acc ++ dkeys d) ->
    fold_left (fun acc kv => dset (fst kv) (f (snd kv)) acc) d acc = acc ++ map (fun kv => (fst kv, f (snd kv))) d).
  { clear H. induction d as [|[k v] d IH]; intros acc H; cbn [fold_left map fst snd]; [now rewrite app_nil_r|].
    cbn [dkeys map fst] in H. rewrite dset_new.
    - rewrite IH; [now rewrite <- app_assoc|]. unfold dkeys in *. rewrite map_app. cbn [map fst].
      now rewrite <- app_assoc.
    - apply NoDup_remove_2 in H. intros X. apply H, in_or_app. now left. }
  now apply G.
Qed.

Lemma str_ltb_app a x y : str_ltb (a ++ x) (a ++ y) = str_ltb x y.
Proof. induction a as [|c a IH]; [reflexivity|]. cbn. now rewrite N.ltb_irrefl, N.eqb_refl. Qed.

Lemma abs_snoc_form ns : exists pre, forall c, abs_path (ns ++ [c]) = pre ++ c.
Proof. exists (slashed ns ++ [SLASH]). intros c. rewrite abs_path_snoc, <- app_assoc. reflexivity. Qed.

Lemma own_name_world ns : Forall component ns -> own_name ns = lit "/" <-> ns = [].
Proof.
  intros H. split; [|now intros ->]. destruct ns as [|c ns _] using rev_ind; auto.
  unfold own_name. rewrite last_last. intros ->. exfalso.
  apply Forall_app in H as [_ H]. inversion H as [|? ? [_ X] _]; subst. apply X. now left.
Qed.

Lemma kids_are_children ps ns :
  StronglySorted (fun a b => str_ltb a b = true) ps ->
  (forall p, In p ps -> exists ms, Forall component ms /\ p = abs_path ms) ->
  Forall component ns ->
  child_names ps ns (kids_of (abs_path ns) ps).
Proof.
  intros Hs Hp Hns.
  assert (K : forall q, In q ps -> get_parent_path q = abs_path ns ->
            exists c, component c /\ q = abs_path (ns ++ [c]) /\ node_name_from_node_path q = c).
  { intros q Hq E. destruct (Hp q Hq) as (ms & Hms & ->). destruct ms as [|c ms _] using rev_ind.
    - cbn in E. destruct ns; discriminate.
    - rewrite get_parent_path_abs in E by auto. apply Forall_app in Hms as [M1 M2].
      apply abs_path_inj in E; auto. subst ms. exists c. inversion M2; subst.
      split; auto. split; auto. apply node_name_abs. apply Forall_app. auto. }
  split.
  - destruct (abs_snoc_form ns) as [pre Hpre].
    induction Hs as [|q ps Hs IH Hq]; [constructor|]. unfold kids_of in *. cbn [filter].
    assert (IH' := IH (fun p H => Hp p (or_intror H)) (fun p H => K p (or_intror H))).
    destruct (str_eqb_spec (get_parent_path q) (abs_path ns)) as [E|_]; [|exact IH'].
    cbn [map]. constructor; [exact IH'|]. apply Forall_forall. intros c' Hc'.
    apply in_map_iff in Hc' as (q' & <- & Hq'). apply filter_In in Hq' as [Hq' E'].
    apply str_eqb_eq in E'. rewrite Forall_forall in Hq. specialize (Hq q' Hq').
    destruct (K q (or_introl eq_refl) E) as (c & _ & E1 & ->).
    destruct (K q' (or_intror Hq') E') as (c' & _ & E2 & ->).
    rewrite E1, E2, !Hpre, str_ltb_app in Hq. exact Hq.
  - intros c. unfold kids_of. rewrite in_map_iff. split.
    + intros (q & <- & Hq). apply filter_In in Hq as [Hq E]. apply str_eqb_eq in E.
      destruct (K q Hq E) as (c & C1 & C2 & ->). split; auto. now rewrite <- C2.
    + intros [Hc Hi]. assert (HF : Forall component (ns ++ [c])) by (apply Forall_app; auto).
      exists (abs_path (ns ++ [c])). split; [now apply node_name_abs|]. apply filter_In. split; auto.
      apply str_eqb_eq. now apply get_parent_path_abs.
Qed.

Lemma sorted_keys {V} (d : dict V) : NoDup (dkeys d) ->
  StronglySorted (fun a b => str_ltb a b = true) (dkeys (sort_items d)).
Proof.
  intros H. apply sort_sorted in H. induction H as [|x t Hs IH Hx]; [constructor|].
  cbn. constructor; auto. apply Forall_forall. intros y Hy. apply in_map_iff in Hy as (z & <- & Hz).
  rewrite Forall_forall in Hx. now apply Hx.
Qed.

Lemma sorted_map {V W} (f : V -> W) (l : dict V) :
  StronglySorted key_lt l ->
  StronglySorted (fun a b => str_ltb (fst a) (fst b) = true) (map (fun kv => (fst kv, f (snd kv))) l).
Proof.
  induction 1 as [|x l Hs IH Hx]; [constructor|]. cbn [map]. constructor; auto.
  apply Forall_forall. intros y Hy. apply in_map_iff in Hy as (z & <- & Hz).
  rewrite Forall_forall in Hx. now apply Hx.
Qed.

Section Nodes.
Variables (bi : list pystr) (rp : pyval) (t : dict node).
Hypothesis Hok : nodes_ok t.

Definition cr (p : pystr) : node :=
  match dget p t with
  | Some n =>
      match create_node (dset (lit "name") (VStr (node_name_from_node_path p)) (get_node_as_dict bi n))
                        rp (get_parent_path p) false with
      | Ok m => m | Raise _ => [] end
  | None => [] end.
Definition co_of (p : pystr) : list pystr :=
  match dget p t with
  | Some n => match dget CHILD_ORDER n with
              | Some (VList l) => match strings l with Some l => l | None => [] end
              | _ => [] end
  | None => [] end.
Definition od (p : pystr) : list pystr := if str_eqb p WORLD then [] else dedup (co_of p).

Definition nodes_data : dict pyval :=
  sort_items (fold_left (fun acc kv => dset (fst kv) (VDict (get_node_as_dict bi (snd kv))) acc) t []).

Lemma nodes_data_form :
  nodes_data = map (fun kv => (fst kv, VDict (snd kv)))
                   (map (fun kv => (fst kv, get_node_as_dict bi (snd kv))) (sort_items t)).
Proof.
  unfold nodes_data. rewrite (fold_dset_map (fun n => VDict (get_node_as_dict bi n))) by apply Hok.
  rewrite (sort_map (fun n => VDict (get_node_as_dict bi n))). rewrite map_map. reflexivity.
Qed.

Lemma entry p n ns co : dget p t = Some n -> Forall component ns -> p = abs_path ns ->
  node_ok n (own_name ns) co -> co_of p = co.
Proof.
  intros Hg _ _ (_ & _ & Hc). unfold co_of. rewrite Hg.
  change (dget CHILD_ORDER n = Some (VList (map VStr co))) in Hc. rewrite Hc. now rewrite strings_vstrs.
Qed.

Lemma cr_creates p n ns co :
  dget p t = Some n -> Forall component ns -> p = abs_path ns -> node_ok n (own_name ns) co ->
  creates rp cr od p (get_node_as_dict bi n).
Proof.
  intros Hg Hns -> Hn. assert (Hco := entry _ _ _ _ Hg Hns eq_refl Hn).
  destruct Hn as (N1 & N2 & N3). destruct (abs_good ns Hns) as [_ Nm].
  destruct (round_trip_load bi n (own_name ns) (get_parent_path (abs_path ns)) rp co N1 N2 N3)
    as (n' & E & _ & _ & _ & _ & CO & _ & PP & _ & PX).
  unfold creates. unfold cr. rewrite Hg, Nm. unfold trip_data in E. rewrite E.
  split; [reflexivity|]. split; [|split; [exact PX|split; [exact PP|]]].
  - rewrite CO. unfold loaded_order, is_world, od. rewrite Hco.
    destruct (str_eqb_spec (own_name ns) WORLD) as [W|W].
    + apply own_name_world in W; auto. subst ns. reflexivity.
    + destruct (str_eqb_spec (abs_path ns) WORLD) as [W2|W2]; auto.
      exfalso. change WORLD with (abs_path []) in W2. apply abs_path_inj in W2; auto. subst ns. now apply W.
  - unfold od. destruct (str_eqb _ _); [constructor|apply dedup_nodup].
Qed.

Lemma nodes_trip_table :
  construct_node_specs rp nodes_data = Ok (table cr od (dkeys (sort_items t))).
Proof.
  unfold construct_node_specs.
  assert (Hs : sort_items nodes_data = nodes_data).
  { unfold nodes_data. apply sort_idem. rewrite (fold_dset_map (fun n => VDict (get_node_as_dict bi n))) by apply Hok.
    unfold dkeys. rewrite map_map. apply Hok. }
  rewrite Hs, nodes_data_form.
  pose proof (construct_table rp cr od (map (fun kv => (fst kv, get_node_as_dict bi (snd kv))) (sort_items t))) as C.
  replace (dkeys (sort_items t)) with (map fst (map (fun kv => (fst kv, get_node_as_dict bi (snd kv))) (sort_items t)))
    by (rewrite map_map; reflexivity).
  apply C; clear C.
  - destruct Hok as [Hnd _]. exact (sorted_map (get_node_as_dict bi) _ (sort_sorted t Hnd)).
  - intros p d Hi. apply in_map_iff in Hi as ([q n] & E & Hi). cbn in E. injection E as -> <-.
    apply (proj1 (sort_in _ _)) in Hi. pose proof Hi as Hg. apply In_dget in Hg; [|apply Hok].
    destruct Hok as [_ Hf]. destruct (Hf p n Hi) as (ns & co & H1 & H2 & H3).
    split; [subst p; now apply abs_good|]. eapply cr_creates; eauto.
Qed.

Definition trip : dict node := table cr od (dkeys (sort_items t)).

Lemma trip_dget p n :
  dget p t = Some n ->
  dget p trip = Some (with_order (extend (od p) (kids_of p (dkeys (sort_items t)))) (cr p)).
Proof.
  intros Hg. unfold trip, table.
  rewrite (dget_map (fun p => with_order (extend (od p) (kids_of p (dkeys (sort_items t)))) (cr p))).
  rewrite (proj2 (str_in_In _ _)); auto. apply sort_keys_in. apply dget_some_key. eauto.
Qed.

Lemma trip_keys : dkeys trip = dkeys (sort_items t).
Proof. unfold trip, table. apply dkeys_map. Qed.

Lemma child_names_perm ps qs ns l : (forall p, In p ps <-> In p qs) -> child_names ps ns l -> child_names qs ns l.
Proof. intros H [H1 H2]. split; auto. intros c. rewrite <- H. apply H2. Qed.

Lemma trip_kids ns : Forall component ns ->
  child_names (dkeys t) ns (kids_of (abs_path ns) (dkeys (sort_items t))).
Proof.
  intros Hns. apply (child_names_perm (dkeys (sort_items t))); [intros; apply sort_keys_in|].
  apply kids_are_children; auto.
  - apply sorted_keys. apply Hok.
  - intros p Hp. apply (proj1 (sort_keys_in _ _)) in Hp. apply dget_some_key in Hp as (n & Hn).
    apply dget_In in Hn. destruct Hok as [_ Hf]. destruct (Hf p n Hn) as (ms & co & H1 & H2 & _). eauto.
Qed.

Lemma trip_node p n ns co :
  dget p t = Some n -> Forall component ns -> p = abs_path ns -> node_ok n (own_name ns) co ->
  exists n' ks o, dget p trip = Some n' /\ reloaded bi (ns = []) rp p n n' /\
    child_names (dkeys t) ns ks /\
    first_occ ((match ns with [] => [] | _ => co end) ++ ks) o /\
    node_ok n' (own_name ns) o /\
    dget (lit "_parent_path") n' = Some (VStr (get_parent_path p)) /\
    dget (lit "_source_layer") n' = Some rp /\ dget (lit "_proxy") n' = Some (VBool false).
Proof.
  intros Hg Hns Hp Hn. pose proof (cr_creates p n ns co Hg Hns Hp Hn) as (C1 & C2 & C3 & C4 & C5).
  pose proof (entry p n ns co Hg Hns Hp Hn) as Hco.
  exists (with_order (extend (od p) (kids_of p (dkeys (sort_items t)))) (cr p)),
    (kids_of p (dkeys (sort_items t))), (extend (od p) (kids_of p (dkeys (sort_items t)))).
  destruct Hn as (N1 & N2 & N3). destruct (abs_good ns Hns) as [[J _] Nm]. subst p.
  rewrite Nm in C1.
  destruct (node_trip bi n (own_name ns) (get_parent_path (abs_path ns)) rp co N1 N2 N3)
    as (m & E & U1 & U2 & I1 & I2 & R1 & R2 & R3 & R4).
  destruct (round_trip_load bi n (own_name ns) (get_parent_path (abs_path ns)) rp co N1 N2 N3) as (m2 & E2 & Nd & _).
  unfold trip_data in E2. rewrite C1 in E, E2. injection E as <-. injection E2 as <-.
  rewrite Nm in J.
  set (o := extend _ _).
  assert (W : forall k, k <> CHILD_ORDER -> dget k (with_order o (cr (abs_path ns))) = dget k (cr (abs_path ns))).
  { intros k Hk. rewrite with_order_get. destruct (str_eqb_spec CHILD_ORDER k); [congruence|reflexivity]. }
  assert (Wk : forall k, k <> CHILD_ORDER -> In k (dkeys (with_order o (cr (abs_path ns)))) <-> In k (dkeys (cr (abs_path ns)))).
  { intros k Hk. rewrite <- !dget_some_key, W; tauto. }
  assert (Wu : forall u, user_name bi u -> u <> CHILD_ORDER).
  { intros u (_ & Hu & _) ->. apply Hu. cbn. tauto. }
  assert (Wm : forall u m, user_name bi u -> In m ["_comment__nxt"; "_type__nxt"; "_source__nxt"]%string ->
             u ++ lit m <> CHILD_ORDER).
  { intros u m Hu Hm E. destruct (user_not_internal bi u (u ++ lit m) Hu) as (_ & _ & _ & X & _).
    - right. eauto.
    - rewrite E, str_eqb_refl in X. discriminate. }
  split; [exact (trip_dget _ _ Hg)|]. split; [|split; [now apply trip_kids|split; [|split; [|split; [|split]]]]].
  - split; [|split; [|split]].
    + intros u Hu. rewrite Wk by auto. now apply U1.
    + intros u Hu Hi. rewrite J in U2.
      rewrite !W; auto; try (apply (Wm u); auto; cbn; tauto).
    + intros Hw a d Ha. destruct I1 as [I1 _]; [rewrite own_name_world; auto|].
      rewrite W; [now apply I1|]. intros ->. cbn [In saved_internal] in Ha.
      repeat (destruct Ha as [Ha|Ha]; [discriminate|]). destruct Ha.
    + intros Hw a d Ha. destruct I2 as [I2 _]; [now apply own_name_world|].
      rewrite W; [now apply I2|]. intros ->. cbn [In saved_of_world] in Ha.
      repeat (destruct Ha as [Ha|Ha]; [discriminate|]). destruct Ha.
  - unfold o, od. destruct ns as [|x ns].
    + change (str_eqb (abs_path []) WORLD) with true. cbv iota. cbn [app].
      change (@nil pystr) with (dedup []) at 2. rewrite extend_dedup. apply dedup_first.
    + rewrite Hco. destruct (str_eqb_spec (abs_path (x :: ns)) WORLD) as [W2|W2].
      * exfalso. change WORLD with (abs_path []) in W2. apply abs_path_inj in W2; auto. discriminate.
      * rewrite extend_dedup. apply dedup_first.
  - split; [|split].
    + unfold with_order. now apply NoDup_dset.
    + rewrite W; [exact R1|vm_compute; discriminate].
    + change (lit "_child_order") with CHILD_ORDER. rewrite with_order_get, str_eqb_refl. reflexivity.
  - rewrite W; [exact R2|vm_compute; discriminate].
  - rewrite W; [exact R3|vm_compute; discriminate].
  - rewrite W; [exact R4|vm_compute; discriminate].
Qed.

Lemma trip_nodup : NoDup (dkeys trip).
Proof. exact (eq_ind_r (fun l => NoDup l) (sort_nodup t (proj1 Hok)) trip_keys). Qed.

Lemma trip_in p : In p (dkeys trip) <-> In p (dkeys t).
Proof. rewrite trip_keys. apply sort_keys_in. Qed.

Lemma trip_ok : nodes_ok trip.
Proof.
  split; [exact trip_nodup|].
  intros p n' Hi. assert (Hk : In p (dkeys t)).
  { apply trip_in. apply in_map_iff. now exists (p, n'). }
  apply dget_some_key in Hk as (n & Hn). pose proof (dget_In _ _ _ Hn) as Hi2.
  destruct Hok as [_ Hf]. destruct (Hf p n Hi2) as (ns & co & H1 & H2 & H3).
  destruct (trip_node p n ns co Hn H1 H2 H3) as (m & ks & o & E & _ & _ & _ & O & _).
  apply In_dget in Hi; [|exact trip_nodup].
  pose proof (eq_trans (eq_sym Hi) E) as X. injection X as <-. exists ns, o. auto.
Qed.
End Nodes.

(** *** Saving again *)

Lemma first_occ_in l r : first_occ l r -> forall x, In x r <-> In x l.
Proof.
  induction 1 as [|l r x H IH Hn|l r x H IH Hi]; intros y; [tauto| |]; rewrite !in_app_iff; rewrite IH.
  - tauto.
  - cbn. split; [tauto|]. intros [?|[<-|[]]]; auto.
Qed.

Lemma NoDup_snoc {A} (l : list A) x : NoDup l -> ~ In x l -> NoDup (l ++ [x]).
Proof.
  intros H Hx. apply NoDup_Add with (a := x) (l := l); [|now split].
  rewrite <- (app_nil_r l) at 1. apply Add_app.
Qed.

Lemma first_occ_nodup l r : first_occ l r -> NoDup r.
Proof.
  induction 1 as [|l r x H IH Hn|l r x H IH Hi]; auto; [constructor|].
  apply NoDup_snoc; auto. intros X. apply Hn. now apply (first_occ_in _ _ H).
Qed.

Lemma save_with_order bi n o nm :
  NoDup (dkeys n) -> dget NAME n = Some (VStr nm) -> nm = WORLD ->
  get_node_as_dict bi (with_order o n) = get_node_as_dict bi n.
Proof.
  intros Hn Hm ->. apply save_ext.
  - exact Hn.
  - unfold with_order. now apply NoDup_dset.
  - rewrite with_order_get. reflexivity.
  - intros u (_ & Hu & _). unfold with_order. rewrite in_dkeys_dset. split; [|auto].
    intros [->|H]; auto. exfalso. apply Hu. cbn. tauto.
  - intros u Hu _. rewrite !save_user_form.
    assert (W : forall k, k <> CHILD_ORDER -> attr (with_order o n) k = attr n k).
    { intros k Hk. unfold attr. rewrite with_order_get. destruct (str_eqb_spec CHILD_ORDER k); [congruence|reflexivity]. }
    assert (Wm : forall m, In m ["_comment__nxt"; "_type__nxt"; "_source__nxt"]%string ->
               u ++ lit m <> CHILD_ORDER).
    { intros m Hmm E. destruct (user_not_internal bi u (u ++ lit m) Hu) as (_ & _ & _ & X & _).
      - right. eauto.
      - rewrite E, str_eqb_refl in X. discriminate. }
    rewrite !W; auto.
    + intros ->. destruct Hu as (_ & Hu & _). apply Hu. cbn. tauto.
    + apply (Wm "_type__nxt"%string). cbn; tauto.
    + apply (Wm "_comment__nxt"%string). cbn; tauto.
  - intros a Ha. unfold save_list in Ha. rewrite Hm, str_eqb_refl in Ha.
    unfold attr. rewrite with_order_get.
    destruct (str_eqb_spec CHILD_ORDER a) as [<-|_]; [|reflexivity].
    exfalso. revert Ha. vm_compute. intuition discriminate.
Qed.

Section Again.
Variables (bi : list pystr) (rp : pyval) (t : dict node).
Hypotheses (Hok : nodes_ok t) (Hcomp : complete t).

Lemma trip_save p n n' :
  dget p t = Some n -> dget p (trip bi rp t) = Some n' ->
  get_node_as_dict bi n' = get_node_as_dict bi n.
Proof.
  intros Hg Hg'. pose proof (dget_In _ _ _ Hg) as Hi.
  destruct Hok as [_ Hf]. destruct (Hf p n Hi) as (ns & co & Hns & Hp & Hn).
  pose proof (eq_trans (eq_sym Hg') (trip_dget bi rp t p n Hg)) as E. injection E as ->. clear Hg'.
  pose proof (cr_creates bi rp t p n ns co Hg Hns Hp Hn) as (C1 & C2 & _).
  pose proof (entry t p n ns co Hg Hns Hp Hn) as Hco.
  subst p. destruct (abs_good ns Hns) as [_ Nm]. rewrite Nm in C1.
  pose proof Hn as (N1 & N2 & N3).
  destruct ns as [|x ns].
  - rewrite (save_with_order bi _ _ WORLD).
    + eapply node_stable; [exact N1|exact N2|exact N3|now left|exact C1].
    + destruct (round_trip_load bi n _ (get_parent_path (abs_path [])) rp co N1 N2 N3) as (m & E & Nd & _).
      unfold trip_data in E. pose proof (eq_trans (eq_sym C1) E) as X. injection X as X.
      exact (eq_ind_r (fun z => NoDup (dkeys z)) Nd X).
    + destruct (round_trip_load bi n _ (get_parent_path (abs_path [])) rp co N1 N2 N3)
        as (m & E & _ & _ & _ & _ & _ & NN & _).
      unfold trip_data in E. pose proof (eq_trans (eq_sym C1) E) as X. injection X as X.
      exact (eq_ind_r (fun z => dget NAME z = Some (VStr WORLD)) NN X).
    + reflexivity.
  - destruct (Hcomp _ n (x :: ns) co Hg Hns eq_refl) as [K1 K2]; [discriminate|exact Hn|].
    assert (O : od t (abs_path (x :: ns)) = co).
    { unfold od. rewrite Hco. destruct (str_eqb_spec (abs_path (x :: ns)) WORLD) as [W2|_].
      - exfalso. change WORLD with (abs_path []) in W2. apply abs_path_inj in W2; auto. discriminate.
      - now apply dedup_id. }
    rewrite O. rewrite extend_id.
    + unfold with_order. rewrite dset_same by now rewrite C2, O.
      eapply node_stable; [exact N1|exact N2|exact N3|now right|exact C1].
    + intros k Hk. destruct (trip_kids t Hok (x :: ns) Hns) as [_ T]. apply T in Hk as [Q1 Q2]. now apply K2.
Qed.

Lemma trip_save_all : nodes_data bi (trip bi rp t) = nodes_data bi t.
Proof.
  unfold nodes_data.
  assert (N2 : NoDup (dkeys (trip bi rp t))) by (apply trip_nodup; auto).
  assert (N1 : NoDup (dkeys t)) by apply Hok.
  assert (G : forall (u : dict node) k,
    dget k (map (fun kv => (fst kv, VDict (get_node_as_dict bi (snd kv)))) u)
    = option_map (fun n => VDict (get_node_as_dict bi n)) (dget k u)).
  { clear. intros u k. induction u as [|[k' v] u IH]; [reflexivity|]. cbn. destruct (str_eqb k' k); auto. }
  assert (K : forall u : dict node, dkeys (map (fun kv => (fst kv, VDict (get_node_as_dict bi (snd kv)))) u) = dkeys u).
  { clear. intros u. unfold dkeys. rewrite map_map. reflexivity. }
  rewrite (fold_dset_map (fun n => VDict (get_node_as_dict bi n)) _ N1).
  rewrite (fold_dset_map (fun n => VDict (get_node_as_dict bi n)) _ N2).
  apply sort_ext.
  - exact (eq_ind_r (fun l => NoDup l) N2 (K _)).
  - exact (eq_ind_r (fun l => NoDup l) N1 (K _)).
  - intros k. refine (eq_trans (G _ k) (eq_trans _ (eq_sym (G _ k)))).
    destruct (dget k t) as [n|] eqn:E.
    + pose proof (trip_dget bi rp t k n E) as E2.
      refine (eq_trans (f_equal (option_map (fun n => VDict (get_node_as_dict bi n))) E2) _).
      cbn [option_map]. do 2 f_equal. exact (trip_save k n _ E E2).
    + assert (E2 : dget k (trip bi rp t) = None).
      { apply dget_none. intros X. apply trip_in in X. apply dget_none in E. contradiction. }
      exact (f_equal (option_map (fun n => VDict (get_node_as_dict bi n))) E2).
Qed.
End Again.

Lemma trip_complete bi rp t : nodes_ok t -> complete (trip bi rp t).
Proof.
  intros Hok p n' ns co Hg' Hns Hp Hne Hn'.
  assert (Hk : In p (dkeys t)).
  { apply (trip_in bi rp t). apply dget_some_key. eauto. }
  apply dget_some_key in Hk as (n & Hn). pose proof (dget_In _ _ _ Hn) as Hi.
  pose proof Hok as [_ Hf]. destruct (Hf p n Hi) as (ms & co0 & M1 & M2 & M3).
  rewrite Hp in M2. apply abs_path_inj in M2; auto. subst ms.
  destruct (trip_node bi rp t Hok p n ns co0 Hn Hns Hp M3) as (m & ks & o & E & _ & [_ Ks] & Fo & O & _).
  pose proof (eq_trans (eq_sym Hg') E) as X. injection X as <-.
  destruct Hn' as (_ & _ & Hc1). destruct O as (_ & _ & Hc2).
  pose proof (eq_trans (eq_sym Hc1) Hc2) as X. injection X as X.
  assert (co = o). { clear - X. revert o X. induction co as [|a co IH]; intros [|b o] X; try discriminate; auto.
    injection X as -> X. f_equal. now apply IH. }
  subst o. split.
  - eapply first_occ_nodup, Fo.
  - intros c Hc Hi2. apply (first_occ_in _ _ Fo). apply in_or_app. right. apply Ks. split; auto.
    now apply (trip_in bi rp t).
Qed.

(** *** Refreshing a freshly loaded layer changes nothing *)

Lemma local_names_spec bi (n : node) u :
  In u (local_attr_names bi n) -> In u (dkeys n) /\ is_user bi u = true.
Proof.
  unfold local_attr_names.
  assert (G : forall ks acc, In u (fold_left (fun acc a => if str_in a acc then acc
                          else if str_in a (PROTECTED bi) then acc
                          else if endswith META_SUFFIX a then acc else acc ++ [a]) ks acc) ->
          In u acc \/ (In u ks /\ str_in u (PROTECTED bi) = false /\ endswith META_SUFFIX u = false)).
  { induction ks as [|k ks IH]; intros acc H; [now left|]. cbn [fold_left] in H.
    apply IH in H as [H|(H1 & H2)]; [|right; split; [now right|auto]].
    destruct (str_in k acc); auto. destruct (str_in k (PROTECTED bi)) eqn:E1; auto.
    destruct (endswith META_SUFFIX k) eqn:E2; auto.
    apply in_app_iff in H as [H|[<-|[]]]; auto. right. split; [now left|auto]. }
  intros H. apply G in H as [[]|(H1 & H2 & H3)]. split; auto.
  unfold is_user. rewrite H2. cbn [orb negb]. apply negb_true_iff.
  destruct (existsb _ META_ALL) eqn:E; auto. exfalso. apply existsb_exists in E as (m & Hm & E).
  apply endswith_iff in E as [a ->].
  assert (X : endswith META_SUFFIX (a ++ m) = true); [|congruence].
  apply endswith_iff. cbn [In META_ALL] in Hm. destruct Hm as [<-|[<-|[<-|[]]]].
  - exists (a ++ lit "_comment"). rewrite <- app_assoc. reflexivity.
  - exists (a ++ lit "_type"). rewrite <- app_assoc. reflexivity.
  - exists (a ++ lit "_source"). rewrite <- app_assoc. reflexivity.
Qed.

Lemma refresh_id bi rp active (t : dict node) :
  (forall p n u, In (p, n) t -> In u (dkeys n) -> is_user bi u = true ->
     dget (u ++ META_SOURCE) n = Some (VTuple [rp; VStr p])) ->
  map (refresh_node bi rp active) t = t.
Proof.
  intros H. rewrite <- (map_id t) at 2. apply map_ext_in. intros [p n] Hi. unfold refresh_node. f_equal.
  destruct active; [|reflexivity].
  assert (G : forall us, (forall u, In u us -> dget (u ++ META_SOURCE) n = Some (VTuple [rp; VStr p])) ->
    fold_left (fun n a => dset (a ++ META_SOURCE) (VTuple [rp; VStr p]) n) us n = n).
  { induction us as [|u us IH]; intros Hu; [reflexivity|]. cbn [fold_left].
    rewrite dset_same by (apply Hu; now left). apply IH. intros. apply Hu. now right. }
  apply G. intros u Hu. apply local_names_spec in Hu as [H1 H2]. eauto.
Qed.

Lemma trip_refresh bi rp active t : nodes_ok t ->
  map (refresh_node bi rp active) (trip bi rp t) = trip bi rp t.
Proof.
  intros Hok. apply refresh_id. intros p n' u Hi Hu Hus. apply is_user_iff in Hus.
  assert (Hk : In p (dkeys t)) by (apply (trip_in bi rp t); apply in_map_iff; now exists (p, n')).
  apply dget_some_key in Hk as (n & Hn). pose proof (dget_In _ _ _ Hn) as Hi2.
  pose proof Hok as [_ Hf]. destruct (Hf p n Hi2) as (ns & co & H1 & H2 & H3).
  destruct (trip_node bi rp t Hok p n ns co Hn H1 H2 H3) as (m & ks & o & E & R & _).
  apply In_dget in Hi; [|now apply trip_nodup].
  pose proof (eq_trans (eq_sym Hi) E) as X. injection X as <-.
  destruct R as (R1 & R2 & _). apply (R2 u Hus). now apply R1.
Qed.

