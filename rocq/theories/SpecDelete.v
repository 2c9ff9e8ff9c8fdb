(** Stage.delete_node. *)

From Coq Require Import String List NArith Bool Arith Lia Permutation.
From Verif Require Import PyStr PyStrFacts NxtPath PathSpec PathProofs Dict DictFacts ListMerger
  MergeProofs Layer LayerSpec LayerProofs DescProofs ChildCacheSpec ChildCacheProofs HierarchyProofs SortRows SortProofs PyVal
  Names NamesSpec NamesProofs SpecOps SpecOpsSpec SpecBase SpecMove SpecParent SpecClosed SpecReparent SpecRename.
Import ListNotations.

(** *** Descendants *)

Lemma slashed_length ns : Forall component ns -> length ns <= length (slashed ns).
Proof.
  induction 1 as [|x ns Hx _ IH]; [apply le_n|]. cbn [slashed length]. rewrite app_length. lia.
Qed.

Lemma abs_path_length ns : Forall component ns -> length ns <= length (abs_path ns).
Proof.
  intros H. destruct ns as [|x ns]; [cbn; lia|]. rewrite abs_path_slashed by discriminate.
  now apply slashed_length.
Qed.

Lemma sum_bound x l : In x l -> x <= list_sum l.
Proof.
  induction l as [|y l IH]; intros H; [destruct H|]. change (list_sum (y :: l)) with (y + list_sum l).
  destruct H as [->|H]; [lia|]. specialize (IH H). lia.
Qed.

Lemma view_shallower L : books L -> shallower (nodes (view L)) (depth_fuel L).
Proof.
  intros HB ns Hns Hh. unfold has in Hh. cbn [nodes view] in Hh. rewrite (view_keys L HB) in Hh.
  pose proof (abs_path_length ns Hns) as H1. unfold depth_fuel.
  assert (H2 : length (abs_path ns) <= list_sum (map (@length N) (dkeys (by_path L)))).
  { apply sum_bound, in_map_iff. exists (abs_path ns). auto. }
  lia.
Qed.

Lemma known_inhabited L ns : books L -> Forall component ns ->
  (known (nodes (view L)) ns <-> inhabited L ns /\ Forall plain ns).
Proof.
  intros HB Hns. split.
  - intros (r & Hr & Hh). apply (view_has L) in Hh as [Hh Hp]; [|exact HB|apply Forall_app; auto].
    split; [|exact (Forall_app_l _ _ _ Hp)]. exists r. split; [exact (Forall_app_r _ _ _ Hp)|exact Hh].
  - intros [(r & Hr & Hh) Hp]. exists r. split; [now apply plain_component|].
    apply (view_has L); [exact HB|apply plain_component, Forall_app; auto|].
    split; [exact Hh|apply Forall_app; auto].
Qed.

Lemma below_paths_spec L ns : books L -> Forall plain ns ->
  NoDup (below_paths L (abs_path ns)) /\
  forall x, In x (below_paths L (abs_path ns)) <->
    exists r, r <> [] /\ Forall plain r /\ x = abs_path (ns ++ r) /\ inhabited L (ns ++ r).
Proof.
  intros HB Hns. unfold below_paths. pose proof (view_wf L HB) as WF.
  destruct ns as [|y ns'].
  - destruct (descendants_world same_string same_string (depth_fuel L) (view L) true WF) as (l & E & Hnd & Hin).
    change (abs_path []) with WORLD. rewrite E. cbn [fst as_list]. split; [exact Hnd|]. intros x. rewrite Hin.
    cbn [app]. split.
    + intros (r & Hr & Hc & -> & Hk). apply (known_inhabited L r HB Hc) in Hk as [Hk Hp]. exists r. auto.
    + intros (r & Hr & Hp & -> & Hk). exists r. split; [exact Hr|]. pose proof (plain_component r Hp) as Hc.
      split; [exact Hc|]. split; [reflexivity|]. apply (known_inhabited L r HB Hc). auto.
  - remember (y :: ns') as ns eqn:Ens. assert (Hne : ns <> []) by (rewrite Ens; discriminate).
    destruct (descendants_exact same_string same_string (depth_fuel L) (depth_fuel L) (view L) ns true WF (view_ready L)
                (plain_component ns Hns) Hne (view_shallower L HB) (le_n _)) as (l & E & Hnd & Hin).
    rewrite E. cbn [as_list]. split; [exact Hnd|]. intros x. rewrite Hin. split.
    + intros (r & Hr & Hc & -> & Hk). cbn iota in Hk.
      apply (known_inhabited L (ns ++ r) HB) in Hk as [Hk Hp]; [|apply Forall_app; split; [now apply plain_component|exact Hc]].
      exists r. split; [exact Hr|]. split; [exact (Forall_app_r _ _ _ Hp)|]. auto.
    + intros (r & Hr & Hp & -> & Hk). exists r. split; [exact Hr|]. split; [now apply plain_component|].
      split; [reflexivity|]. cbn iota. apply (known_inhabited L (ns ++ r) HB).
      * apply plain_component, Forall_app. auto.
      * split; [exact Hk|]. apply Forall_app. auto.
Qed.

(** *** One path *)

Lemma remove_id_spec i : forall l, NoDup l -> In i l ->
  exists l', remove_id i l = Some l' /\ NoDup l' /\ forall j, In j l' <-> In j l /\ j <> i.
Proof.
  induction l as [|y l IH]; intros Hnd Hi; [destruct Hi|]. inversion Hnd as [|? ? Hy Hl]; subst.
  cbn [remove_id]. destruct (Nat.eqb y i) eqn:E.
  - apply Nat.eqb_eq in E. subst y. exists l. split; [reflexivity|]. split; [exact Hl|].
    intros j. cbn [In]. split; [intros H; split; [now right|intros ->; contradiction]|].
    intros [[->|H] Hne]; [congruence|exact H].
  - apply Nat.eqb_neq in E. destruct Hi as [->|Hi]; [congruence|].
    destruct (IH Hl Hi) as (l' & -> & Hnd' & Hin). exists (y :: l'). split; [reflexivity|]. split.
    + constructor; [|exact Hnd']. intros H. apply Hin in H. tauto.
    + intros j. cbn [In]. rewrite Hin. split; [intros [->|H]; [split; [now left|congruence]|tauto]|tauto].
Qed.

Lemma spells_parent_other n p : spells n p -> s_parent n <> p.
Proof.
  intros [(-> & -> & _)|(ns & nm & H & -> & -> & _)].
  - discriminate.
  - intros E. apply abs_inj in E; [|exact (Forall_app_l _ _ _ H)|exact H].
    rewrite <- (app_nil_r ns) in E at 1. apply app_inv_head in E. discriminate.
Qed.

(** What is left of the child order [l] of node [k] when node [n] goes. *)
Definition popped (pop : bool) (L : slayer) (n : snode) (k : nat) (l : list pystr) : list pystr :=
  match lookup L (s_parent n) with
  | Some j => if Nat.eqb j k && pop then without (s_name n) l else l
  | None => l
  end.

Definition drop_keys {V} (b : bool) (ps : list pystr) (d : dict V) : dict V :=
  if b then fold_left (fun d p => ddel p d) ps d else d.

Lemma remove_path_spec pop rd L p i n :
  books L -> lookup L p = Some i -> obj L i = Some n ->
  exists L1, remove_path pop rd L p = (L1, Done tt) /\ books L1 /\
    (forall q, lookup L1 q = if str_eqb p q then None else lookup L q) /\
    (forall k, obj L1 k = option_map (fun m => set_order (popped pop L n k (s_order m)) m) (obj L k)) /\
    muted L1 = muted L /\ hidden L1 = hidden L /\
    positions L1 = drop_keys rd [p] (positions L) /\ collapse L1 = drop_keys rd [p] (collapse L) /\ top L1 = top L.
Proof.
  intros HB Hp En. destruct (b_spells L HB _ _ Hp) as (n' & En' & Hs).
  assert (n' = n) by congruence. subst n'. clear En'.
  assert (HP : path_of L i = Some p) by now apply (b_inverse L HB).
  destruct (remove_id_spec i (spec_list L) (b_once L HB)) as (sl & Esl & Hnd & Hin).
  { apply (b_listed L HB). now exists p. }
  set (L0 := with_by_node (with_by_path (with_spec_list L sl) (ddel p (by_path L))) (ndel i (by_node L))).
  assert (Lk : forall q, lookup L0 q = if str_eqb p q then None else lookup L q).
  { intros q. unfold L0, lookup. cbn [by_path with_by_node with_by_path].
    rewrite dget_ddel by apply (b_paths L HB). reflexivity. }
  assert (Pk : forall k, path_of L0 k = if Nat.eqb i k then None else path_of L k).
  { intros k. unfold L0, path_of. cbn [by_node with_by_node]. apply nget_ndel. apply (b_nodes L HB). }
  assert (HB0 : books L0).
  { constructor.
    - intros q k. rewrite Lk, Pk. destruct (str_eqb p q) eqn:E1.
      + apply str_eqb_eq in E1. subst q. destruct (Nat.eqb i k) eqn:E2; [split; discriminate|].
        apply Nat.eqb_neq in E2. split; [discriminate|]. intros E. apply (b_inverse L HB) in E. congruence.
      + destruct (Nat.eqb i k) eqn:E2; [|apply (b_inverse L HB)].
        apply Nat.eqb_eq in E2. subst k. apply str_eqb_neq in E1. split; [|discriminate].
        intros E. exfalso. apply E1. exact (books_inj L p q i HB Hp E).
    - intros q k E. rewrite Lk in E. destruct (str_eqb p q); [discriminate|]. exact (b_spells L HB q k E).
    - intros k. change (spec_list L0) with sl. rewrite Hin, (b_listed L HB). split.
      + intros [(q & Eq) Hne]. exists q. rewrite Lk. destruct (str_eqb p q) eqn:E1; [|exact Eq].
        apply str_eqb_eq in E1. congruence.
      + intros (q & Eq). rewrite Lk in Eq. destruct (str_eqb p q) eqn:E1; [discriminate|].
        split; [now exists q|]. intros ->. apply str_eqb_neq in E1. apply E1.
        exact (books_inj L p q i HB Hp Eq).
    - exact Hnd.
    - apply NoDup_ddel, (b_paths L HB).
    - apply NoDup_ndel, (b_nodes L HB). }
  set (L1 := match lookup L0 (s_parent n) with
             | None => L0
             | Some pi => match obj L0 pi with
                          | None => L0
                          | Some pn => if str_in (s_name n) (s_order pn) && pop
                                       then on_node L0 pi (set_order (try_remove (s_name n) (s_order pn)))
                                       else L0
                          end
             end).
  assert (R : reordered L0 L1).
  { unfold L1. destruct (lookup L0 (s_parent n)) as [pi|]; [|apply reordered_refl].
    destruct (obj L0 pi) as [pn|]; [|apply reordered_refl].
    destruct (str_in (s_name n) (s_order pn) && pop); [|apply reordered_refl].
    apply reordered_on. intros m. now exists (try_remove (s_name n) (s_order pn)). }
  assert (LP : lookup L0 (s_parent n) = lookup L (s_parent n)).
  { rewrite Lk. destruct (str_eqb p (s_parent n)) eqn:E; [|reflexivity].
    apply str_eqb_eq in E. exfalso. exact (spells_parent_other n p Hs (eq_sym E)). }
  assert (O1 : forall k, obj L1 k = option_map (fun m => set_order (popped pop L n k (s_order m)) m) (obj L k)).
  { intros k. unfold L1, popped. rewrite LP.
    assert (Id : forall k, obj L0 k = option_map (fun m => set_order (s_order m) m) (obj L k)).
    { intros j. change (obj L0 j) with (obj L j). destruct (obj L j); [|reflexivity]. cbn [option_map].
      now rewrite set_order_same. }
    destruct (lookup L (s_parent n)) as [pi|]; [|apply Id].
    change (obj L0 pi) with (obj L pi). destruct (obj L pi) as [pn|] eqn:Epn.
    - destruct pop; [|rewrite !andb_false_r; apply Id].
      rewrite !andb_true_r.
      destruct (str_in (s_name n) (s_order pn)) eqn:Ein.
      + rewrite obj_on_node. change (obj L0 k) with (obj L k). destruct (Nat.eqb pi k) eqn:Ek.
        * apply Nat.eqb_eq in Ek. subst k. rewrite Epn. cbn [option_map]. now rewrite try_remove_without.
        * destruct (obj L k); [|reflexivity]. cbn [option_map]. now rewrite set_order_same.
      + rewrite Id. destruct (Nat.eqb pi k) eqn:Ek; [|reflexivity]. apply Nat.eqb_eq in Ek. subst k.
        rewrite Epn. cbn [option_map]. rewrite without_not_in; [reflexivity|].
        intros H. apply str_in_In in H. congruence.
    - rewrite Id. destruct (Nat.eqb pi k) eqn:Ek; [|reflexivity]. apply Nat.eqb_eq in Ek. subst k.
      rewrite Epn. reflexivity. }
  exists (if rd then with_collapse (with_positions L1 (ddel p (positions L1))) (ddel p (collapse L1)) else L1).
  split.
  { unfold remove_path. rewrite Hp, Esl. cbn [by_path by_node with_spec_list with_by_path].
    unfold path_of in HP. rewrite HP. fold L0. change (obj L0 i) with (obj L i). rewrite En. fold L1. reflexivity. }
  pose proof (reordered_books L0 L1 R HB0) as HB1.
  split; [destruct rd; [|exact HB1]; constructor; apply HB1|].
  split.
  { intros q. rewrite <- Lk. rewrite <- (reordered_lookup L0 L1 q R). now destruct rd. }
  split; [intros k; rewrite <- O1; now destruct rd|].
  assert (M1 : muted L1 = muted L) by apply (r_muted _ _ R).
  assert (M2 : hidden L1 = hidden L) by apply (r_hidden _ _ R).
  assert (M3 : positions L1 = positions L) by apply (r_positions _ _ R).
  assert (M4 : collapse L1 = collapse L) by apply (r_collapse _ _ R).
  assert (M5 : top L1 = top L) by apply (r_top _ _ R).
  destruct rd; cbn [muted hidden positions collapse top with_collapse with_positions drop_keys fold_left];
    rewrite ?M3, ?M4; repeat split; assumption.
Qed.

(** *** Several *)

Lemma remove_paths_spec pop rd : forall ps L,
  books L -> NoDup ps -> (forall p, In p ps -> exists i, lookup L p = Some i) ->
  exists L', remove_paths pop rd L ps = (L', Done tt) /\ books L' /\
    (forall q, lookup L' q = if str_in q ps then None else lookup L q) /\
    (forall k, match obj L k with
       | None => obj L' k = None
       | Some m => exists l, obj L' k = Some (set_order l m) /\
           ((forall p i n, In p ps -> lookup L p = Some i -> obj L i = Some n ->
                           lookup L (s_parent n) <> Some k) -> l = s_order m)
       end) /\
    muted L' = muted L /\ hidden L' = hidden L /\
    positions L' = drop_keys rd ps (positions L) /\ collapse L' = drop_keys rd ps (collapse L) /\ top L' = top L.
Proof.
  induction ps as [|p ps IH]; intros L HB Hnd Hps.
  - exists L. split; [reflexivity|]. split; [exact HB|]. split; [reflexivity|]. split.
    { intros k. destruct (obj L k) as [m|]; [|reflexivity]. exists (s_order m). rewrite set_order_same. auto. }
    unfold drop_keys. destruct rd; repeat split.
  - inversion Hnd as [|? ? Hp Hnd']; subst. destruct (Hps p (or_introl eq_refl)) as (i & Ei).
    destruct (b_spells L HB _ _ Ei) as (n & En & Hs).
    destruct (remove_path_spec pop rd L p i n HB Ei En) as (L1 & E1 & HB1 & Lk1 & O1 & M1 & M2 & M3 & M4 & M5).
    destruct (IH L1 HB1 Hnd') as (L' & E' & HB' & Lk' & O' & N1 & N2 & N3 & N4 & N5).
    { intros q Hq. destruct (Hps q (or_intror Hq)) as (j & Ej). exists j. rewrite Lk1.
      destruct (str_eqb p q) eqn:E; [apply str_eqb_eq in E; subst q; contradiction|exact Ej]. }
    exists L'. cbn [remove_paths]. rewrite E1. split; [exact E'|]. split; [exact HB'|]. split.
    { intros q. rewrite Lk', Lk1. cbn [str_in existsb]. rewrite (str_eqb_sym q p).
      unfold str_in. destruct (str_eqb p q); cbn [orb]; [now destruct (existsb (str_eqb q) ps)|reflexivity]. }
    split.
    { intros k. specialize (O1 k). specialize (O' k). destruct (obj L k) as [m|]; cbn [option_map] in O1.
      - rewrite O1 in O'. destruct O' as (l & El & Hl). exists l. split; [exact El|]. intros Hk.
        rewrite Hl.
        + cbn [s_order set_order]. unfold popped. specialize (Hk p i n (or_introl eq_refl) Ei En).
          destruct (lookup L (s_parent n)) as [j|]; [|reflexivity].
          destruct (Nat.eqb j k) eqn:Ej; [|reflexivity]. apply Nat.eqb_eq in Ej. congruence.
        + intros q j n' Hq Ej En' Hpk. rewrite Lk1 in Ej, Hpk.
          destruct (str_eqb p q); [discriminate|]. destruct (str_eqb p (s_parent n')); [discriminate|].
          destruct (b_spells L HB _ _ Ej) as (n0 & En0 & _).
          assert (O1j : obj L1 j = option_map (fun m => set_order (popped pop L n j (s_order m)) m) (obj L j)).
          { destruct (remove_path_spec pop rd L p i n HB Ei En) as (L1' & E1' & _ & _ & O1' & _).
            assert (L1' = L1) by congruence. subst L1'. apply O1'. }
          rewrite En0 in O1j. cbn [option_map] in O1j. rewrite En' in O1j. injection O1j as ->.
          exact (Hk q j n0 (or_intror Hq) Ej En0 Hpk).
      - rewrite O1 in O'. exact O'. }
    split; [congruence|]. split; [congruence|].
    split; [rewrite N3, M3; unfold drop_keys; now destruct rd|].
    split; [rewrite N4, M4; unfold drop_keys; now destruct rd|congruence].
Qed.

(** A missing path makes the deletion stop half way. *)
Lemma remove_paths_missing pop rd : forall ps L,
  books L -> NoDup ps -> (exists p, In p ps /\ lookup L p = None) ->
  exists L', remove_paths pop rd L ps = (L', Failed ValueError) /\ table L' = table L /\
    (forall q, lookup L' q = None \/ lookup L' q = lookup L q) /\
    (forall q, ~ In q ps -> lookup L' q = lookup L q).
Proof.
  induction ps as [|p ps IH]; intros L HB Hnd (x & Hx & Ex); [destruct Hx|].
  inversion Hnd as [|? ? Hp Hnd']; subst. cbn [remove_paths]. destruct (lookup L p) as [i|] eqn:Ei.
  - destruct (b_spells L HB _ _ Ei) as (n & En & Hs).
    destruct (remove_path_spec pop rd L p i n HB Ei En) as (L1 & E1 & HB1 & Lk1 & _).
    assert (T1 : table L1 = table L).
    { unfold remove_path in E1. rewrite Ei in E1. destruct (remove_id i (spec_list L)); [|discriminate].
      cbn [by_path by_node with_spec_list with_by_path] in E1. destruct (nget i (by_node L)); [|discriminate].
      injection E1 as <-.
      set (L0 := with_by_node _ _). assert (T0 : table L0 = table L) by reflexivity.
      destruct (obj L0 i) as [n0|]; [|destruct rd; exact T0].
      destruct (lookup L0 (s_parent n0)) as [pi|]; [|destruct rd; exact T0].
      destruct (obj L0 pi) as [pn|]; [|destruct rd; exact T0].
      destruct (str_in (s_name n0) (s_order pn) && pop); destruct rd; exact T0. }
    rewrite E1. destruct Hx as [->|Hx]; [congruence|].
    destruct (IH L1 HB1 Hnd') as (L' & E' & T' & A & B).
    { exists x. split; [exact Hx|]. rewrite Lk1. now destruct (str_eqb p x). }
    exists L'. split; [exact E'|]. split; [congruence|]. split.
    + intros q. destruct (A q) as [H|H]; [now left|]. rewrite H, Lk1. destruct (str_eqb p q); auto.
    + intros q Hq. cbn [In] in Hq. rewrite B by tauto. rewrite Lk1.
      destruct (str_eqb p q) eqn:E; [apply str_eqb_eq in E; tauto|reflexivity].
  - exists L. unfold remove_path. rewrite Ei. split; [reflexivity|]. split; [reflexivity|]. split; auto.
Qed.

Lemma dget_drop {V} b ps : forall (d : dict V) q, NoDup (dkeys d) ->
  dget q (drop_keys b ps d) = if b && str_in q ps then None else dget q d.
Proof.
  unfold drop_keys. destruct b; [|reflexivity]. cbn [andb].
  induction ps as [|p ps IH]; intros d q Hd; [reflexivity|]. cbn [fold_left].
  rewrite IH by now apply NoDup_ddel. rewrite dget_ddel by exact Hd. unfold str_in. cbn [existsb].
  rewrite (str_eqb_sym q p). destruct (str_eqb p q); cbn [orb]; [now destruct (existsb (str_eqb q) ps)|reflexivity].
Qed.

(** *** delete_node *)

Lemma delete_spec L i ns rd wd :
  consistent L -> path_of L i = Some (abs_path ns) -> Forall plain ns ->
  (wd = true -> gapless L ns) ->
  exists L' ps,
    delete_node L i rd wd = (L', Done ps) /\ consistent L' /\
    NoDup ps /\
    (forall x, In x ps <-> x = abs_path ns \/
       wd = true /\ exists r, Forall plain r /\ x = abs_path (ns ++ r) /\ holds L (ns ++ r)) /\
    (forall q, lookup L' q = if str_in q ps then None else lookup L q) /\
    stays L L' ns (wd = true \/ forall r, Forall plain r -> r <> [] -> ~ holds L (ns ++ r)) /\
    (muted L = false -> forall k p m, lookup L' p = Some k -> obj L' k = Some m -> sourced m p) /\
    muted L' = muted L /\ hidden L' = hidden L /\
    (NoDup (dkeys (positions L)) -> forall q, dget q (positions L') = if rd && str_in q ps then None else dget q (positions L)) /\
    (NoDup (dkeys (collapse L)) -> forall q, dget q (collapse L') = if rd && str_in q ps then None else dget q (collapse L)) /\
    top L' = top L.
Proof.
  intros HC Hp Hns Hg. pose proof (consistent_books L HC) as HB.
  assert (Hi : lookup L (abs_path ns) = Some i) by now apply (c_inverse L HC).
  destruct (b_spells L HB _ _ Hi) as (n & En & Hs).
  destruct (below_paths_spec L ns HB Hns) as [Hbn Hbi].
  set (ds := below_paths L (abs_path ns)) in *.
  set (ps := abs_path ns :: if wd then ds else []).
  set (pop := wd || match ds with [] => true | _ => false end).
  assert (Hnd : ~ In (abs_path ns) ds).
  { intros H. apply Hbi in H as (r & Hr & Hpr & E & _). apply abs_inj in E; [|exact Hns|apply Forall_app; auto].
    rewrite <- (app_nil_r ns) in E at 1. apply app_inv_head in E. congruence. }
  assert (Hpsn : NoDup ps).
  { unfold ps. destruct wd; constructor; try assumption; [intros []|constructor]. }
  assert (Hps : forall x, In x ps <-> x = abs_path ns \/
       wd = true /\ exists r, Forall plain r /\ x = abs_path (ns ++ r) /\ holds L (ns ++ r)).
  { intros x. unfold ps. destruct wd; cbn [In].
    - rewrite Hbi. split.
      + intros [<-|(r & Hr & Hpr & -> & Hh)]; [now left|right]. split; [reflexivity|].
        exists r. split; [exact Hpr|]. split; [reflexivity|]. now apply Hg.
      + intros [->|(_ & r & Hpr & -> & Hh)]; [now left|]. destruct r as [|y r]; [left; now rewrite app_nil_r|right].
        exists (y :: r). split; [discriminate|]. split; [exact Hpr|]. split; [reflexivity|].
        exists []. split; [constructor|]. now rewrite app_nil_r.
    - split; [intros [<-|[]]; now left|intros [->|(E & _)]; [now left|discriminate]]. }
  destruct (remove_path_spec pop rd L (abs_path ns) i n HB Hi En)
    as (L1 & E1 & HB1 & Lk1 & O1 & M1 & M2 & M3 & M4 & M5).
  destruct (remove_paths_spec pop rd (if wd then ds else []) L1 HB1) as
    (L2 & E2 & HB2 & Lk2 & O2 & N1 & N2 & N3 & N4 & N5).
  { destruct wd; [exact Hbn|constructor]. }
  { intros p Hin. assert (Hx : In p ps) by now right. apply Hps in Hx as [->|(Ew & r & Hr & -> & (j & Ej))].
    - exfalso. destruct wd; [contradiction|destruct Hin].
    - exists j. rewrite Lk1. destruct (str_eqb (abs_path ns) (abs_path (ns ++ r))) eqn:E; [|exact Ej].
      apply str_eqb_eq in E. rewrite <- E in Hin. exfalso. rewrite Ew in Hin. contradiction. }
  exists (refresh L2), ps. split.
  { unfold delete_node. rewrite En, (spells_join n _ Hs). fold ds. fold ps. fold pop.
    unfold ps at 1. cbn [remove_paths]. rewrite E1, E2. reflexivity. }
  split; [exact (refresh_consistent L2 HB2)|]. split; [exact Hpsn|]. split; [exact Hps|].
  assert (Lk : forall q, lookup L2 q = if str_in q ps then None else lookup L q).
  { intros q. rewrite Lk2, Lk1. unfold ps, str_in. cbn [existsb]. rewrite (str_eqb_sym q (abs_path ns)).
    destruct (str_eqb (abs_path ns) q); cbn [orb]; [now destruct (existsb _ _)|reflexivity]. }
  split; [exact Lk|].
  assert (Epop : pop = true <-> (wd = true \/ forall r, Forall plain r -> r <> [] -> ~ holds L (ns ++ r))).
  { unfold pop. destruct wd; cbn [orb]; [tauto|]. destruct ds as [|d ds'] eqn:Ed.
    - split; [|reflexivity]. intros _. right. intros r Hr Hne Hh.
      destruct (proj2 (Hbi (abs_path (ns ++ r)))). exists r. split; [exact Hne|]. split; [exact Hr|].
      split; [reflexivity|]. exists []. split; [constructor|]. now rewrite app_nil_r.
    - split; [discriminate|]. intros [H|H]; [discriminate|]. exfalso.
      destruct (proj1 (Hbi d) (or_introl eq_refl)) as (r & Hne & Hr & _ & (s & Hs' & Hh)).
      apply (H (r ++ s)); [apply Forall_app; auto| |now rewrite app_assoc].
      intros E. apply app_eq_nil in E. tauto. }
  split.
  { intros k m Hk Em. rewrite path_of_refresh in Hk.
    destruct (path_of L2 k) as [p|] eqn:Ek; [|congruence]. clear Hk.
    apply (b_inverse L2 HB2) in Ek. rewrite Lk in Ek. destruct (str_in p ps) eqn:Ein; [discriminate|].
    assert (Hnin : ~ In p ps) by (intros H; apply str_in_In in H; congruence). clear Ein.
    specialize (O1 k). specialize (O2 k). rewrite Em in O1. cbn [option_map] in O1. rewrite O1 in O2.
    destruct O2 as (l & El & Hl).
    assert (Eord : l = popped pop L n k (s_order m)).
    { rewrite Hl; [reflexivity|]. intros q j n' Hq Ej En' Hpk.
      assert (Hin : In q ps) by now right. apply Hps in Hin as [->|(Ew & r & Hr & -> & Hh)].
      { destruct wd; [contradiction|destruct Hq]. }
      destruct r as [|y r _] using rev_ind.
      { rewrite app_nil_r in Hq. rewrite Ew in Hq. contradiction. }
      rewrite app_assoc in Ej. assert (Hpl : Forall plain ((ns ++ r) ++ [y])).
      { rewrite <- app_assoc. apply Forall_app. auto. }
      destruct (b_spells L1 HB1 _ _ Ej) as (n2 & En2 & Hs2).
      assert (n2 = n') by congruence. subst n2. apply spells_snoc in Hs2 as [Hs2 _]; [|exact Hpl].
      rewrite Hs2, Lk1 in Hpk. destruct (str_eqb (abs_path ns) (abs_path (ns ++ r))) eqn:Es; [discriminate|].
      assert (p = abs_path (ns ++ r)) by exact (books_inj L _ _ k HB Ek Hpk). subst p.
      apply Hnin, Hps. right. split; [exact Ew|]. exists r. split; [exact (Forall_app_l _ _ _ Hr)|].
      split; [reflexivity|]. now exists k. }
    rewrite (obj_refresh L2 k HB2), El.
    set (m0 := set_order l (set_order (popped pop L n k (s_order m)) m)).
    assert (G : exists m', (if muted L2 then Some m0 else match path_of L2 k with
        | Some p => option_map (set_sources p) (Some m0) | None => Some m0 end) = Some m' /\
        s_name m' = s_name m /\ s_parent m' = s_parent m /\ same_data m m' /\ s_order m' = l).
    { destruct (muted L2).
      - exists m0. repeat split; reflexivity.
      - destruct (path_of L2 k) as [q|]; cbn [option_map].
        + eexists. split; [reflexivity|]. split; [reflexivity|]. split; [reflexivity|].
          split; [|reflexivity]. exact (set_sources_data q m0).
        + exists m0. repeat split; reflexivity. }
    destruct G as (m' & G1 & G2 & G3 & G4 & G5). exists m'. split; [exact G1|]. split; [exact G2|].
    split; [exact G3|]. split; [exact G4|]. rewrite G5, Eord. unfold popped. split.
    - intros po nm -> Hk. apply spells_snoc in Hs as [Hsp Hsn]; [|exact Hns]. rewrite Hsp, Hk, Hsn, Nat.eqb_refl.
      cbn [andb]. rewrite <- Epop. destruct pop; split; congruence.
    - intros H. destruct (lookup L (s_parent n)) as [j|] eqn:Ej; [|reflexivity].
      destruct (Nat.eqb j k) eqn:Ejk; [|reflexivity]. apply Nat.eqb_eq in Ejk. subst j. exfalso.
      destruct ns as [|y ns _] using rev_ind.
      + apply spells_world in Hs as [Hs _]. rewrite Hs in Ej.
        destruct (books_proper L _ _ HB Ej) as (ms & Hms & E). destruct ms; discriminate.
      + apply spells_snoc in Hs as [Hsp _]; [|exact Hns]. rewrite Hsp in Ej. exact (H ns y eq_refl Ej). }
  split.
  { intros Hm k p m Ek Em. apply (refresh_sourced L2 k p m HB2); [congruence|now apply (b_inverse L2 HB2)|exact Em]. }
  split; [cbn; congruence|]. split; [cbn; congruence|].
  assert (D : forall V (d : dict V), drop_keys rd (if wd then ds else []) (drop_keys rd [abs_path ns] d) = drop_keys rd ps d).
  { intros V d. unfold drop_keys, ps. destruct rd; reflexivity. }
  split.
  { intros Hk q. change (positions (refresh L2)) with (positions L2). rewrite N3, M3, D. now apply dget_drop. }
  split; [|cbn; congruence].
  intros Hk q. change (collapse (refresh L2)) with (collapse L2). rewrite N4, M4, D. now apply dget_drop.
Qed.

(** A gap below the node: an error, and a layer whose books no longer agree. *)
Lemma delete_gap L i ns rd r :
  consistent L -> path_of L i = Some (abs_path ns) -> Forall plain ns ->
  Forall plain r -> r <> [] -> inhabited L (ns ++ r) -> ~ holds L (ns ++ r) ->
  exists L', delete_node L i rd true = (L', Failed ValueError) /\
    lookup L' (abs_path ns) = None /\ ~ consistent L' /\
    (forall q, lookup L' q = None \/ lookup L' q = lookup L q) /\
    (forall ms, Forall plain ms -> ~ (exists s, ms = ns ++ s) -> lookup L' (abs_path ms) = lookup L (abs_path ms)).
Proof.
  intros HC Hp Hns Hr Hne Hinh Hno. pose proof (consistent_books L HC) as HB.
  assert (Hi : lookup L (abs_path ns) = Some i) by now apply (c_inverse L HC).
  destruct (b_spells L HB _ _ Hi) as (n & En & Hs).
  destruct (below_paths_spec L ns HB Hns) as [Hbn Hbi].
  set (ds := below_paths L (abs_path ns)) in *.
  destruct (remove_path_spec true rd L (abs_path ns) i n HB Hi En)
    as (L1 & E1 & HB1 & Lk1 & _).
  assert (Hrd : In (abs_path (ns ++ r)) ds).
  { apply Hbi. exists r. auto. }
  assert (Hnd : ~ In (abs_path ns) ds).
  { intros H. apply Hbi in H as (s & Hs' & Hps & E & _). apply abs_inj in E; [|exact Hns|apply Forall_app; auto].
    rewrite <- (app_nil_r ns) in E at 1. apply app_inv_head in E. congruence. }
  assert (Hlr : lookup L (abs_path (ns ++ r)) = None).
  { destruct (lookup L (abs_path (ns ++ r))) as [j|] eqn:E; [|reflexivity]. exfalso. apply Hno. now exists j. }
  destruct (remove_paths_missing true rd ds L1 HB1 Hbn) as (L2 & E2 & T2 & A2 & B2).
  { exists (abs_path (ns ++ r)). split; [exact Hrd|]. rewrite Lk1. now destruct (str_eqb _ _). }
  destruct (remove_paths_missing true rd (abs_path ns :: ds) L HB) as (L3 & E3 & T3 & A3 & B3).
  { constructor; assumption. }
  { exists (abs_path (ns ++ r)). split; [now right|exact Hlr]. }
  assert (L3 = L2).
  { cbn [remove_paths] in E3. rewrite E1, E2 in E3. congruence. }
  subst L3. exists L2. split.
  { unfold delete_node. rewrite En, (spells_join n _ Hs). fold ds. cbn [orb]. rewrite E3. reflexivity. }
  assert (Hgone : lookup L2 (abs_path ns) = None).
  { rewrite B2 by exact Hnd. now rewrite Lk1, str_eqb_refl. }
  split; [exact Hgone|]. split; [|split; [exact A3|]].
  - intros HC2. destruct ns as [|y ns'].
    + assert (In ([[]], i) (table L2)).
      { rewrite T3. apply (c_table L HC). right. auto. }
      apply (c_table L2 HC2) in H as [(H & H0 & _)|(_ & H)]; [|congruence].
      inversion H as [|? ? [[H1 _] _] _]. congruence.
    + assert (In (y :: ns', i) (table L2)).
      { rewrite T3. apply (c_table L HC). left. split; [exact Hns|]. split; [discriminate|exact Hi]. }
      apply (c_table L2 HC2) in H as [(_ & _ & H)|(H0 & H)]; [congruence|].
      rewrite H0 in Hns. inversion Hns as [|? ? [[H1 _] _] _]. congruence.
  - intros ms Hms Hn. apply B3. intros [E|H].
    + apply abs_inj in E; [|assumption..]. apply Hn. exists []. now rewrite app_nil_r.
    + apply Hbi in H as (s & _ & Hs' & E & _). apply abs_inj in E; [|exact Hms|apply Forall_app; auto].
      apply Hn. now exists s.
Qed.
