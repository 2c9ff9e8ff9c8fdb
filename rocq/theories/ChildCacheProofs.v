(** Proofs about [ChildCache]: which histories keep the caches right. *)

From Coq Require Import String List NArith ZArith Bool Lia Arith.
From Verif Require Import PyStr PyStrFacts NxtPath PathSpec PathProofs Dict DictFacts
     ListMerger MergeProofs Layer LayerSpec LayerProofs DescProofs ChildCache ChildCacheSpec.
Import ListNotations.

(** *** Questions only add correct entries *)

Definition asked (same : pystr -> pystr -> bool) (incl : bool) (L L' : layer) : Prop :=
  nodes L' = nodes L /\
  (all_ready same L -> all_ready same L') /\
  (forall q, dget q (kids L') = None -> dget q (kids L) = None) /\
  (forall q, dget q (kids L) = None -> q = [] -> dget q (kids L') = None) /\
  (incl = false -> implied L' = implied L) /\
  (NoDup (dkeys (kids L)) -> NoDup (dkeys (kids L'))) /\
  (NoDup (dkeys (implied L)) -> NoDup (dkeys (implied L'))).

Lemma asked_refl same incl L : asked same incl L L.
Proof. unfold asked. auto 10. Qed.

Lemma asked_trans same incl A B C : asked same incl A B -> asked same incl B C -> asked same incl A C.
Proof.
  intros (H1 & H2 & H3 & H4 & H5 & H6) (G1 & G2 & G3 & G4 & G5 & G6).
  split; [congruence|]. split; [auto|]. split; [auto|]. split; [auto|].
  split; [|tauto]. intros H. rewrite G5, H5 by auto. reflexivity.
Qed.

Section Asked.
Variables (same same_name : pystr -> pystr -> bool).

Lemma children_asked L p rt ordered incl :
  asked same incl L (snd (children same same_name L p rt ordered incl)).
Proof.
  destruct p as [|x p'] eqn:Ep.
  { unfold children. cbn [is_empty]. destruct (incl && _); apply asked_refl. }
  rewrite <- Ep. assert (Hne : p <> []) by congruence.
  assert (Hkeys : (forall q, dget q (kids (snd (children same same_name L p rt ordered incl))) = None ->
                             dget q (kids L) = None) /\
                  (forall q, dget q (kids L) = None -> q = [] ->
                     dget q (kids (snd (children same same_name L p rt ordered incl))) = None) /\
                  nodes (snd (children same same_name L p rt ordered incl)) = nodes L /\
                  (incl = false ->
                   implied (snd (children same same_name L p rt ordered incl)) = implied L) /\
                  (NoDup (dkeys (kids L)) ->
                   NoDup (dkeys (kids (snd (children same same_name L p rt ordered incl))))) /\
                  (NoDup (dkeys (implied L)) ->
                   NoDup (dkeys (implied (snd (children same same_name L p rt ordered incl))))) /\
                  (forall q, q <> p ->
                     dget q (kids (snd (children same same_name L p rt ordered incl)))
                     = dget q (kids L)) /\
                  (forall q, q <> p ->
                     dget q (implied (snd (children same same_name L p rt ordered incl)))
                     = dget q (implied L))).
  { unfold children.
    destruct (incl && negb (rtype_eqb rt RPath)); [cbn; auto 12|].
    replace (is_empty p) with false by now subst p.
    set (real_cache := match (if str_eqb p WORLD then None else dget p (kids L)) with
                       | Some c => _ | None => _ end).
    assert (H1 : exists c L1, real_cache = (c, L1) /\ nodes L1 = nodes L /\ implied L1 = implied L /\
                 (forall q, dget q (kids L1) = None -> dget q (kids L) = None) /\
                 (forall q, dget q (kids L) = None -> q = [] -> dget q (kids L1) = None) /\
                 (NoDup (dkeys (kids L)) -> NoDup (dkeys (kids L1))) /\
                 (forall q, q <> p -> dget q (kids L1) = dget q (kids L))).
    { unfold real_cache.
      destruct (if str_eqb p WORLD then None else dget p (kids L)) as [c|].
      - exists c, L. auto 10.
      - cbn zeta. eexists _, _. split; [reflexivity|]. split; [reflexivity|].
        split; [reflexivity|]. cbn [kids with_kids]. split; [|split; [|split]].
        + intros q. rewrite dget_dset. destruct (str_eqb p q); [discriminate|auto].
        + intros q Hq ->. rewrite dget_dset.
          destruct (str_eqb p []) eqn:E; auto. apply str_eqb_eq in E. congruence.
        + apply NoDup_dset.
        + intros q Hq. apply dget_dset_other. congruence. }
    destruct H1 as (c & L1 & -> & Hn & Hi & Hk & Hk2 & Hk4 & Hk5).
    set (imp_cache := if incl then _ else ([], L1)).
    assert (H2 : exists i L2, imp_cache = (i, L2) /\ nodes L2 = nodes L1 /\ kids L2 = kids L1 /\
                 (incl = false -> implied L2 = implied L1) /\
                 (NoDup (dkeys (implied L1)) -> NoDup (dkeys (implied L2))) /\
                 (forall q, q <> p -> dget q (implied L2) = dget q (implied L1))).
    { unfold imp_cache. destruct incl.
      - destruct (if str_eqb p WORLD then None else dget p (implied L)) as [i|].
        + exists i, L1. auto 10.
        + cbn zeta. eexists _, _. split; [reflexivity|]. split; [reflexivity|].
          split; [reflexivity|]. split; [discriminate|]. split; [apply NoDup_dset|].
          intros q Hq. apply dget_dset_other. congruence.
      - exists [], L1. auto 10. }
    destruct H2 as (i & L2 & -> & Hn2 & Hk3 & Hi2 & Hi3 & Hi4).
    assert (G : forall a : answer, 
       (forall q, dget q (kids (snd (a, L2))) = None -> dget q (kids L) = None) /\
       (forall q, dget q (kids L) = None -> q = [] -> dget q (kids (snd (a, L2))) = None) /\
       nodes (snd (a, L2)) = nodes L /\ (incl = false -> implied (snd (a, L2)) = implied L) /\
       (NoDup (dkeys (kids L)) -> NoDup (dkeys (kids (snd (a, L2))))) /\
       (NoDup (dkeys (implied L)) -> NoDup (dkeys (implied (snd (a, L2))))) /\
       (forall q, q <> p -> dget q (kids (snd (a, L2))) = dget q (kids L)) /\
       (forall q, q <> p -> dget q (implied (snd (a, L2))) = dget q (implied L))).
    { intros a. cbn [snd]. rewrite Hk3. split; [auto|]. split; [auto|]. split; [congruence|].
      split; [|rewrite <- Hi; auto]. intros H. rewrite Hi2 by auto. exact Hi. }
    destruct (rtype_eqb rt RBool); [apply G|]. cbn zeta.
    destruct ordered; [|apply G]. destruct (dget p (nodes L)); [apply G|].
    destruct incl; apply G. }
  destruct Hkeys as (H1 & H2 & H3 & H4 & H5 & H6 & H7 & H8).
  split; [exact H3|]. split; [|auto].
  intros Hr q Hq. destruct (str_eqb q p) eqn:E.
  - apply str_eqb_eq in E. subst q.
    destruct (children_refines same same_name L p rt ordered incl Hr Hq)
      as (L' & -> & _ & H). now apply H.
  - apply str_eqb_neq in E. destruct (Hr q Hq) as [A B]. unfold ready, iready in *.
    rewrite H3, H7, H8 by auto. auto.
Qed.

Lemma children_of_all_asked incl rt ps : forall L,
  asked same incl L (snd (children_of_all same same_name L ps rt incl)).
Proof.
  induction ps as [|p ps IH]; intros L; cbn [children_of_all]; [apply asked_refl|].
  pose proof (children_asked L p rt false incl) as H.
  destruct (children same same_name L p rt false incl) as [a L1]. cbn [snd] in H.
  specialize (IH L1). destruct (children_of_all same same_name L1 ps rt incl) as [r L2].
  cbn [snd] in *. eapply asked_trans; eauto.
Qed.

Lemma desc_loop_asked incl fuel : forall L acc more l L',
  desc_loop same same_name fuel L RPath incl acc more = Some (l, L') -> asked same incl L L'.
Proof.
  induction fuel as [|f IH]; intros L acc more l L' E.
  - destruct more; cbn in E; [|discriminate]. injection E as <- <-. apply asked_refl.
  - destruct more as [|p ps] eqn:Em.
    + cbn in E. injection E as <- <-. apply asked_refl.
    + rewrite desc_loop_S in E by discriminate. cbn iota in E. rewrite <- Em in E.
      pose proof (children_of_all_asked incl RPath more L) as H.
      destruct (children_of_all same same_name L more RPath incl) as [tmp L1].
      cbn [snd] in H. apply IH in E. eapply asked_trans; eauto.
Qed.

Lemma ordered_desc_asked incl fuel : forall L p,
  asked same incl L (snd (ordered_desc same same_name fuel L p incl)).
Proof.
  induction fuel as [|f IH]; intros L p; [apply asked_refl|].
  rewrite ordered_desc_S.
  pose proof (children_asked L p RPath true incl) as H.
  destruct (children same same_name L p RPath true incl) as [a L1]. cbn [snd] in H.
  destruct a as [cs| | |]; try exact H.
  eapply asked_trans; [exact H|]. clear H.
  revert L1. induction cs as [|c cs IHc]; intros L1; cbn [go_desc]; [apply asked_refl|].
  specialize (IH L1 c).
  destruct (ordered_desc same same_name f L1 c incl) as [[d| | |] L2]; try exact IH.
  cbn [snd] in IH. eapply asked_trans; [exact IH|]. clear IH.
  specialize (IHc L2).
  destruct (go_desc (fun L c => ordered_desc same same_name f L c incl) cs L2)
    as [[r| | |] L3]; exact IHc.
Qed.

Lemma descendants_asked L fuel p ordered incl :
  asked same incl L (snd (descendants same same_name fuel L p RPath ordered incl)).
Proof.
  unfold descendants. destruct (str_eqb p WORLD).
  { destruct ordered; apply asked_refl. }
  destruct ordered; cbn [rtype_eqb negb].
  { apply ordered_desc_asked. }
  pose proof (children_asked L p RPath false incl) as H.
  destruct (children same same_name L p RPath false incl) as [a L1]. cbn [snd] in H.
  destruct a as [first| | |]; try exact H.
  destruct (desc_loop same same_name fuel L1 RPath incl first first) as [[ds L2]|] eqn:E.
  - cbn [snd]. apply desc_loop_asked in E. eapply asked_trans; eauto.
  - exact H.
Qed.

End Asked.

(** *** A right cache answers like a cold one *)

Lemma cold_ready L : all_ready by_value (cold L).
Proof.
  intros p _. split; [|exact I]. unfold ready. cbn [cold kids dget nodes].
  apply scan_real_exact. reflexivity.
Qed.

Lemma ready_like_cold same same_name L p rt ordered incl :
  all_ready same L -> proper p ->
  fst (children same same_name L p rt ordered incl)
  = fst (children by_value same_name (cold L) p rt ordered incl).
Proof.
  intros Hr Hp. destruct (children_refines same same_name L p rt ordered incl Hr Hp)
    as (L1 & -> & _).
  destruct (children_refines by_value same_name (cold L) p rt ordered incl (cold_ready L) Hp)
    as (L2 & -> & _). reflexivity.
Qed.

(** *** Tables that differ in the child orders only *)

Definition order_eq (a b : pystr * cnode) : Prop :=
  fst a = fst b /\ n_parent (snd a) = n_parent (snd b) /\ n_name (snd a) = n_name (snd b).

Lemma dset_order_eq k n n' d :
  NoDup (dkeys d) -> dget k d = Some n -> n_parent n' = n_parent n -> n_name n' = n_name n ->
  Forall2 order_eq d (dset k n' d).
Proof.
  intros Hnd H Hp Hn. induction d as [|(j & m) d IH]; [discriminate|].
  cbn in H |- *. inversion Hnd as [|? ? Hj Hnd']; subst.
  destruct (str_eqb j k) eqn:E.
  - injection H as ->. apply str_eqb_eq in E. subst j. constructor.
    + repeat split; auto.
    + clear. induction d as [|x d IH]; constructor; auto. repeat split; auto.
  - constructor; [repeat split; auto|]. apply IH; auto.
Qed.

Lemma order_eq_keys a b : Forall2 order_eq a b -> dkeys b = dkeys a.
Proof. induction 1 as [|x y a b (H & _) Hf IH]; cbn; auto. unfold dkeys in *. congruence. Qed.

Lemma order_eq_real a b p : Forall2 order_eq a b -> real b p = real a p.
Proof.
  induction 1 as [|x y a b (H1 & H2 & H3) Hf IH]; auto. unfold real in *. cbn.
  rewrite <- H2. destruct (str_eqb _ p); cbn; congruence.
Qed.

Lemma order_eq_get a b k : Forall2 order_eq a b ->
  option_map n_name (dget k b) = option_map n_name (dget k a).
Proof.
  induction 1 as [|(x & m) (y & n) a b (H1 & H2 & H3) Hf IH]; auto. cbn in *. subst y.
  destruct (str_eqb x k); cbn; congruence.
Qed.

Lemma name_dict_ext a b ks :
  (forall k, In k ks -> option_map n_name (dget k b) = option_map n_name (dget k a)) ->
  name_dict b ks = name_dict a ks.
Proof.
  unfold name_dict. generalize (@nil (pystr * pystr)).
  induction ks as [|k ks IH]; intros acc H; auto. cbn [fold_left].
  pose proof (H k (or_introl eq_refl)) as Hk.
  rewrite IH by (intros; apply H; now right). f_equal.
  destruct (dget k b), (dget k a); cbn in Hk; try discriminate; auto. congruence.
Qed.

Lemma order_eq_entry a b p : Forall2 order_eq a b ->
  entry_of b (real b p) = entry_of a (real a p).
Proof.
  intros H. unfold entry_of. rewrite (order_eq_real _ _ _ H).
  rewrite (name_dict_ext a b); auto. intros. now apply order_eq_get.
Qed.

Lemma order_eq_wf a b : Forall2 order_eq a b -> wf_nodes a -> wf_nodes b.
Proof.
  intros H [Hnd Hp]. split; [now rewrite (order_eq_keys _ _ H)|].
  intros k n Hi. clear Hnd. induction H as [|(x & m) (y & n') a b (H1 & H2 & H3) Hf IH]; [destruct Hi|].
  cbn in *. destruct Hi as [E|Hi].
  - injection E as -> ->. subst x. specialize (Hp k m (or_introl eq_refl)).
    unfold placed in *. rewrite <- H2, <- H3. exact Hp.
  - apply IH; auto.
Qed.

(** *** Adding and removing one entry of the table *)

Lemma real_dset_new d k n p :
  ~ In k (dkeys d) ->
  real (dset k n d) p = real d p ++ (if str_eqb (n_parent n) p then [k] else []).
Proof.
  intros H. rewrite dset_new by auto. unfold real. rewrite filter_app, map_app. cbn.
  destruct (str_eqb (n_parent n) p); reflexivity.
Qed.

Lemma real_keys d p k : In k (real d p) -> In k (dkeys d).
Proof.
  unfold real, dkeys. rewrite !in_map_iff. intros (x & <- & H). apply filter_In in H as [H _].
  exists x. auto.
Qed.

Lemma entry_dset_other d k n p :
  ~ In k (dkeys d) -> n_parent n <> p ->
  entry_of (dset k n d) (real (dset k n d) p) = entry_of d (real d p).
Proof.
  intros Hk Hp. rewrite real_dset_new by auto.
  replace (str_eqb (n_parent n) p) with false by (symmetry; now apply str_eqb_neq).
  rewrite app_nil_r. unfold entry_of. rewrite (name_dict_ext d (dset k n d)); auto.
  intros x Hx. apply real_keys in Hx. rewrite dget_dset_other; auto. congruence.
Qed.

Lemma name_dict_snoc d k n ks :
  ~ In k (dkeys d) -> incl ks (dkeys d) ->
  name_dict (dset k n d) (ks ++ [k]) = dset (n_name n) k (name_dict d ks).
Proof.
  intros Hk Hi. unfold name_dict at 1. rewrite fold_left_app. cbn [fold_left].
  rewrite dget_dset_same. f_equal. apply name_dict_ext.
  intros x Hx. rewrite dget_dset_other; auto. intros ->. auto.
Qed.

Lemma ddel_app_notin {V} k (d : dict V) : ~ In k (dkeys d) -> ddel k d = d.
Proof.
  induction d as [|(j & v) d IH]; cbn; intros H; auto.
  destruct (str_eqb j k) eqn:E.
  - apply str_eqb_eq in E. subst. exfalso. auto.
  - f_equal. auto.
Qed.

Lemma real_ddel d k n p :
  NoDup (dkeys d) -> In (k, n) d ->
  real (ddel k d) p = if str_eqb (n_parent n) p then try_remove k (real d p) else real d p.
Proof.
  intros Hnd Hi. induction d as [|(j & m) d IH]; [destruct Hi|].
  inversion Hnd as [|? ? Hj Hnd']; subst. cbn [ddel].
  destruct Hi as [E|Hi].
  - injection E as -> ->. rewrite str_eqb_refl. unfold real. cbn [filter snd].
    destruct (str_eqb (n_parent n) p); auto. cbn [map fst]. unfold try_remove. cbn [py_remove].
    now rewrite str_eqb_refl.
  - assert (Hkj : k <> j).
    { intros ->. apply Hj. unfold dkeys. apply in_map_iff. exists (j, n). auto. }
    replace (str_eqb j k) with false by (symmetry; apply str_eqb_neq; congruence).
    unfold real in *. cbn [filter snd]. destruct (str_eqb (n_parent m) p) eqn:Em.
    + cbn [map fst]. rewrite IH by auto. destruct (str_eqb (n_parent n) p) eqn:En; auto.
      unfold try_remove. cbn [py_remove].
      replace (str_eqb j k) with false by (symmetry; apply str_eqb_neq; congruence).
      now destruct (py_remove k _).
    + now apply IH.
Qed.

Lemma in_try_remove x k l : In x (try_remove k l) -> In x l.
Proof.
  unfold try_remove. revert x. induction l as [|y l IH]; intros x; cbn [py_remove]; auto.
  destruct (str_eqb y k); [now right|]. destruct (py_remove k l) as [l'|]; auto.
  intros [->|H]; [now left|right; auto].
Qed.

Lemma not_in_try_remove k l : NoDup l -> ~ In k (try_remove k l).
Proof.
  unfold try_remove. induction 1 as [|y l Hy Hl IH]; cbn [py_remove]; [intros []|].
  destruct (str_eqb y k) eqn:E.
  - apply str_eqb_eq in E. now subst.
  - apply str_eqb_neq in E. destruct (py_remove k l) as [l'|]; intros [H|H]; auto.
Qed.

Lemma entry_ddel_other d k n p :
  NoDup (dkeys d) -> In (k, n) d -> n_parent n <> p ->
  entry_of (ddel k d) (real (ddel k d) p) = entry_of d (real d p).
Proof.
  intros Hnd Hi Hp. rewrite (real_ddel d k n) by auto.
  replace (str_eqb (n_parent n) p) with false by (symmetry; now apply str_eqb_neq).
  unfold entry_of. rewrite (name_dict_ext d (ddel k d)); auto.
  intros x Hx. rewrite dget_ddel_other; auto. intros <-.
  unfold real in Hx. apply in_map_iff in Hx as ((k' & m) & E & Hx). cbn in E. subst k'.
  apply filter_In in Hx as [Hx1 Hx2]. cbn in Hx2. apply str_eqb_eq in Hx2.
  pose proof (In_dget _ _ _ Hnd Hi). pose proof (In_dget _ _ _ Hnd Hx1). congruence.
Qed.

(** The children's name dictionary, without repeats in the names. *)
Lemma name_dict_map d ks :
  (forall k, In k ks -> exists n, dget k d = Some n) ->
  NoDup (map (fun k => option_map n_name (dget k d)) ks) ->
  name_dict d ks = map (fun k => (match dget k d with Some n => n_name n | None => [] end, k)) ks.
Proof.
  intros Hin Hnd. unfold name_dict.
  assert (G : forall ks acc,
     (forall k, In k ks -> exists n, dget k d = Some n) ->
     NoDup (map (fun k => option_map n_name (dget k d)) ks) ->
     (forall k n, In k ks -> dget k d = Some n -> ~ In (n_name n) (dkeys acc)) ->
     fold_left (fun d0 k => match dget k d with Some n => dset (n_name n) k d0 | None => d0 end) ks acc
     = acc ++ map (fun k => (match dget k d with Some n => n_name n | None => [] end, k)) ks).
  { clear. induction ks as [|k ks IH]; intros acc Hin Hnd Hacc; cbn [fold_left map].
    - now rewrite app_nil_r.
    - destruct (Hin k (or_introl eq_refl)) as (n & E). rewrite E.
      inversion Hnd as [|? ? H1 H2]; subst.
      rewrite dset_new by (apply (Hacc k n); auto; now left).
      rewrite IH.
      + rewrite <- app_assoc. reflexivity.
      + intros. apply Hin. now right.
      + exact H2.
      + intros k' n' Hk' E'. unfold dkeys. rewrite map_app, in_app_iff. cbn. intros [G|[G|[]]].
        * apply (Hacc k' n'); auto. now right.
        * apply H1. rewrite E. cbn. rewrite G. apply in_map_iff. exists k'. split; auto.
          now rewrite E'. }
  rewrite G; auto.
Qed.

Lemma real_names_nodup d ns :
  wf_nodes d -> Forall component ns ->
  NoDup (map (fun k => option_map n_name (dget k d)) (real d (abs_path ns))).
Proof.
  intros Hwf Hc. pose proof (real_nodup d (abs_path ns) (proj1 Hwf)) as Hnd.
  assert (Hk : forall k, In k (real d (abs_path ns)) -> exists n, dget k d = Some n /\
                 k = child ns (n_name n)).
  { intros k Hk. pose proof Hk as Hk2. apply real_keys in Hk. apply dget_some_key in Hk as (n & E).
    exists n. split; auto. unfold real in Hk2. apply in_map_iff in Hk2 as ((k' & m) & E2 & Hx).
    cbn in E2. subst k'. apply filter_In in Hx as [Hx1 Hx2]. cbn in Hx2. apply str_eqb_eq in Hx2.
    pose proof (In_dget _ _ _ (proj1 Hwf) Hx1) as E3. rewrite E in E3. injection E3 as <-.
    destruct (placed_parent_inv k n ns Hc) as [H _]; auto. now apply Hwf. }
  induction (real d (abs_path ns)) as [|k l IH]; cbn; constructor.
  - intros Hi. apply in_map_iff in Hi as (k' & E & Hk'). inversion Hnd as [|? ? H1 H2]; subst.
    apply H1. destruct (Hk k (or_introl eq_refl)) as (n & E1 & ->).
    destruct (Hk k' (or_intror Hk')) as (n' & E2 & ->).
    rewrite E1, E2 in E. cbn in E. injection E as <-. exact Hk'.
  - inversion Hnd; subst. apply IH; auto. intros. apply Hk. now right.
Qed.

Lemma ddel_map_name d k n ks :
  NoDup ks -> dget k d = Some n -> In k ks ->
  NoDup (map (fun k => option_map n_name (dget k d)) ks) ->
  (forall k, In k ks -> exists n, dget k d = Some n) ->
  ddel (n_name n) (map (fun k => (match dget k d with Some n => n_name n | None => [] end, k)) ks)
  = map (fun k => (match dget k d with Some n => n_name n | None => [] end, k)) (try_remove k ks).
Proof.
  intros Hnd E Hi Hnn Hin. induction ks as [|j ks IH]; [destruct Hi|].
  cbn [map ddel]. unfold try_remove. cbn [py_remove].
  inversion Hnd as [|? ? H1 H2]; subst. inversion Hnn as [|? ? N1 N2]; subst.
  destruct (str_eqb j k) eqn:Ejk.
  - apply str_eqb_eq in Ejk. subst j. rewrite E. now rewrite str_eqb_refl.
  - apply str_eqb_neq in Ejk. destruct Hi as [->|Hi]; [congruence|].
    destruct (Hin j (or_introl eq_refl)) as (m & Em). rewrite Em.
    replace (str_eqb (n_name m) (n_name n)) with false.
    + rewrite IH by (auto; intros; apply Hin; now right).
      unfold try_remove. destruct (py_remove k ks); cbn [map]; now rewrite Em.
    + symmetry. apply str_eqb_neq. intros En. apply N1. apply in_map_iff. exists k.
      rewrite E, Em. cbn. now rewrite En.
Qed.

Lemma entry_ddel_parent d k n ns :
  wf_nodes d -> Forall component ns -> In (k, n) d -> n_parent n = abs_path ns ->
  entry_of (ddel k d) (real (ddel k d) (abs_path ns))
  = {| cc_nodes := try_remove k (real d (abs_path ns));
       cc_paths := try_remove k (real d (abs_path ns));
       cc_table := try_remove k (real d (abs_path ns));
       cc_dict := ddel (n_name n) (name_dict d (real d (abs_path ns))) |}.
Proof.
  intros Hwf Hc Hi Hp. rewrite (real_ddel d k n) by (auto; apply Hwf).
  rewrite Hp, str_eqb_refl. unfold entry_of. f_equal.
  pose proof (In_dget _ _ _ (proj1 Hwf) Hi) as E.
  assert (Hk : In k (real d (abs_path ns))).
  { unfold real. apply in_map_iff. exists (k, n). split; auto. apply filter_In. split; auto.
    cbn. rewrite Hp. apply str_eqb_refl. }
  assert (Hsome : forall x, In x (real d (abs_path ns)) -> exists m, dget x d = Some m).
  { intros x Hx. apply real_keys in Hx. now apply dget_some_key. }
  rewrite (name_dict_ext d (ddel k d)).
  - rewrite !name_dict_map; auto.
    + symmetry. apply ddel_map_name; auto.
      * apply real_nodup. apply Hwf.
      * now apply real_names_nodup.
    + now apply real_names_nodup.
    + intros x Hx. apply in_try_remove in Hx. auto.
    + pose proof (real_names_nodup d ns Hwf Hc) as Hn.
      unfold try_remove. destruct (py_remove k (real d (abs_path ns))) as [l'|] eqn:El; auto.
      revert l' El Hn. clear. generalize (real d (abs_path ns)).
      intros l. induction l as [|y l IH]; intros l' El Hn; cbn in El; [discriminate|].
      inversion Hn as [|? ? N1 N2]; subst.
      destruct (str_eqb y k); [injection El as <-; auto|].
      destruct (py_remove k l) as [l2|] eqn:E2; [|discriminate]. injection El as <-.
      cbn. constructor; [|now apply IH].
      intros Hi. apply N1. apply in_map_iff in Hi as (z & Ez & Hz). apply in_map_iff.
      exists z. split; auto. apply (in_try_remove z k). unfold try_remove. now rewrite E2.
  - intros x Hx. rewrite dget_ddel_other; auto. intros <-.
    revert Hx. apply not_in_try_remove. apply real_nodup. apply Hwf.
Qed.

(** *** Comp layers *)

Definition comp_inv (L : layer) : Prop :=
  wf_nodes (nodes L) /\ implied L = [] /\ NoDup (dkeys (kids L)) /\
  dget [] (kids L) = None /\
  forall p, p <> WORLD -> proper p ->
    match dget p (kids L) with
    | Some c => c = entry_of (nodes L) (real (nodes L) p)
    | None => real (nodes L) p = []
    end.

Lemma comp_inv_ready same L : comp_inv L -> all_ready same L.
Proof.
  intros (Hwf & Hi & Hkd & H0 & H) p Hpr. assert (Hp : p <> []).
  { destruct Hpr as (ns & _ & ->). apply abs_nonempty. }
  split.
  - unfold ready. destruct (str_eqb p WORLD) eqn:Ew.
    + apply str_eqb_eq in Ew. subst. destruct (dget WORLD (kids L)); [now left|].
      apply scan_real_world.
    + apply str_eqb_neq in Ew. specialize (H p Ew Hpr).
      destruct (dget p (kids L)); auto.
      rewrite H. destruct (scan_real same (nodes L) p) as [|y l] eqn:E; auto.
      exfalso. assert (Hy : In y (real (nodes L) p)).
      { apply (scan_real_sub same). rewrite E. now left. }
      rewrite H in Hy. destruct Hy.
  - unfold iready. now rewrite Hi.
Qed.

Lemma comp_inv_asked same L L' : comp_inv L -> asked same false L L' -> comp_inv L'.
Proof.
  intros Hinv (H1 & H2 & H3 & H4 & H5 & H6 & _).
  pose proof (comp_inv_ready same L Hinv) as Hr. destruct Hinv as (Hwf & Hi & Hkd & H0 & H).
  split; [now rewrite H1|]. split; [rewrite H5; auto|]. split; [auto|]. split; [auto|].
  intros p Hw Hp. destruct (H2 Hr p Hp) as [A _]. unfold ready in A.
  destruct (dget p (kids L')) as [c|] eqn:E.
  - destruct A as [A|A]; [contradiction|exact A].
  - apply H3 in E. specialize (H p Hw Hp). rewrite E in H. now rewrite H1.
Qed.

Lemma with_order_parent d k pn o :
  wf_nodes d -> dget k d = Some pn ->
  Forall2 order_eq d (dset k (with_order pn o) d).
Proof. intros Hwf E. eapply dset_order_eq; eauto. apply Hwf. Qed.

Lemma comp_inv_order L d' :
  comp_inv L -> Forall2 order_eq (nodes L) d' -> comp_inv (with_nodes L d').
Proof.
  intros (Hwf & Hi & Hkd & H0 & H) Hd. split; [now apply (order_eq_wf _ _ Hd)|].
  repeat (split; [assumption|]). intros p Hw Hp. specialize (H p Hw Hp).
  cbn [kids with_nodes nodes] in *. destruct (dget p (kids L)).
  - now rewrite (order_eq_entry _ _ _ Hd).
  - now rewrite (order_eq_real _ _ _ Hd).
Qed.

Lemma placed_new_wf d k n : wf_nodes d -> placed k n -> ~ In k (dkeys d) -> wf_nodes (dset k n d).
Proof.
  intros [Hnd Hp] Hk Hn. split; [now apply NoDup_dset|].
  intros j m Hi. rewrite dset_new in Hi by auto. apply in_app_iff in Hi as [Hi|[E|[]]]; auto.
  injection E as <- <-. exact Hk.
Qed.

Lemma placed_parent_key k n : placed k n ->
  n_parent n = [] \/ exists ns, Forall component ns /\ n_parent n = abs_path ns.
Proof.
  intros [[_ H]|(ns & nm & Hc & _ & H & _)]; auto. right. exists ns. split; auto.
  now apply Forall_app in Hc.
Qed.

Lemma comp_inv_add L k n :
  comp_inv L -> placed k n -> ~ In k (dkeys (nodes L)) -> comp_inv (add_node_to_comp_layer L k n).
Proof.
  intros Hinv Hpl Hk. unfold add_node_to_comp_layer.
  set (L1 := with_nodes L (dset k n (nodes L))).
  set (L2 := add_child_to_child_cache L1 (n_parent n) k (n_name n)).
  assert (Hn2 : nodes L2 = dset k n (nodes L)).
  { unfold L2, add_child_to_child_cache. destruct (_ || _); reflexivity. }
  assert (H2 : comp_inv L2).
  { destruct Hinv as (Hwf & Hi & Hkd & H0 & H).
    split; [rewrite Hn2; now apply placed_new_wf|].
    split. { unfold L2, add_child_to_child_cache. destruct (_ || _); exact Hi. }
    split.
    { unfold L2, add_child_to_child_cache. destruct (_ || _); [exact Hkd|].
      cbn [kids with_kids]. now apply NoDup_dset. }
    split.
    { unfold L2, add_child_to_child_cache. destruct (is_empty (n_parent n)) eqn:Ee; [exact H0|].
      cbn [orb]. destruct (str_eqb (n_parent n) WORLD); [exact H0|].
      cbn [kids with_kids]. rewrite dget_dset. destruct (str_eqb (n_parent n) []) eqn:E; [|exact H0].
      apply str_eqb_eq in E. rewrite E in Ee. discriminate. }
    intros p Hw Hpr. rewrite Hn2. specialize (H p Hw Hpr).
    assert (Hp : p <> []) by (destruct Hpr as (ns & _ & ->); apply abs_nonempty).
    destruct (str_eqb (n_parent n) p) eqn:Ep.
    - apply str_eqb_eq in Ep.
      unfold L2, add_child_to_child_cache. rewrite Ep.
      replace (is_empty p) with false by (destruct p; [congruence|reflexivity]).
      replace (str_eqb p WORLD) with false by (symmetry; now apply str_eqb_neq). cbn [orb].
      cbn [kids with_kids]. rewrite dget_dset_same.
      unfold entry_of. rewrite real_dset_new by auto. rewrite Ep, str_eqb_refl.
      rewrite name_dict_snoc; auto; [|intros x; apply real_keys].
      cbn [kids with_nodes L1]. destruct (dget p (kids L)) as [c|].
      + rewrite H. reflexivity.
      + rewrite H. reflexivity.
    - apply str_eqb_neq in Ep.
      assert (Hkk : dget p (kids L2) = dget p (kids L)).
      { unfold L2, add_child_to_child_cache. destruct (_ || _); [reflexivity|].
        cbn [kids with_kids]. rewrite dget_dset_other by auto. reflexivity. }
      rewrite Hkk. destruct (dget p (kids L)).
      + now rewrite entry_dset_other.
      + rewrite real_dset_new by auto.
        replace (str_eqb (n_parent n) p) with false by (symmetry; now apply str_eqb_neq).
        now rewrite app_nil_r. }
  destruct (dget (n_parent n) (nodes L2)) as [pn|] eqn:E; [|exact H2].
  destruct (str_in _ _); [exact H2|]. destruct (list_merger _ _) as [o|]; [|exact H2].
  apply comp_inv_order; auto. apply with_order_parent; auto. apply H2.
Qed.

Lemma wf_ddel d k : wf_nodes d -> wf_nodes (ddel k d).
Proof.
  intros [Hnd Hp]. split; [now apply NoDup_ddel|]. intros j m Hi. apply Hp.
  apply dget_In. assert (Hk : k <> j).
  { intros ->. assert (Hx : In j (dkeys (ddel j d))).
    { unfold dkeys. apply in_map_iff. exists (j, m). auto. }
    apply in_dkeys_ddel in Hx; tauto. }
  rewrite <- (dget_ddel_other k d j) by auto. apply In_dget; auto. now apply NoDup_ddel.
Qed.

Lemma comp_inv_remove L k n :
  comp_inv L -> dget k (nodes L) = Some n -> k <> WORLD -> real (nodes L) k = [] ->
  comp_inv (remove_node_from_comp_layer L k n).
Proof.
  intros Hinv Hk Hkw Hleaf. unfold remove_node_from_comp_layer.
  set (L2 := clear_node_child_cache (with_nodes L (ddel k (nodes L))) k).
  set (L3 := remove_child_from_child_cache L2 (n_parent n) k (n_name n)).
  assert (Hn3 : nodes L3 = ddel k (nodes L)).
  { unfold L3, remove_child_from_child_cache. destruct (str_eqb _ WORLD); [reflexivity|].
    destruct (dget (n_parent n) (kids L2)); reflexivity. }
  pose proof (dget_In _ _ _ Hk) as Hi.
  assert (H3 : comp_inv L3).
  { destruct Hinv as (Hwf & Him & Hkd & H0 & H).
    assert (Hpl : placed k n) by now apply Hwf.
    assert (Hself : n_parent n <> k).
    { destruct Hpl as [[-> _]|(ns & nm & Hc & -> & -> & _)]; [now cbn in Hkw|].
      intros E. apply abs_path_inj in E; auto; [|now apply Forall_app in Hc].
      apply (f_equal (@length pystr)) in E. rewrite app_length in E. cbn in E. lia. }
    assert (Hkids2 : forall q, dget q (kids L2) = if str_eqb k q then None else dget q (kids L)).
    { intros q. apply dget_ddel. exact Hkd. }
    assert (Hkd2 : NoDup (dkeys (kids L2))) by (apply NoDup_ddel; exact Hkd).
    split; [rewrite Hn3; now apply wf_ddel|].
    split.
    { unfold L3, remove_child_from_child_cache. unfold L2.
      destruct (str_eqb (n_parent n) WORLD); [|destruct (dget (n_parent n) _)];
        cbn [implied with_kids clear_node_child_cache with_nodes]; rewrite Him; reflexivity. }
    split.
    { unfold L3, remove_child_from_child_cache.
      destruct (str_eqb (n_parent n) WORLD); [exact Hkd2|].
      destruct (dget (n_parent n) (kids L2)); [|exact Hkd2].
      cbn [kids with_kids]. now apply NoDup_dset. }
    split.
    { unfold L3, remove_child_from_child_cache.
      assert (E0 : dget [] (kids L2) = None) by (rewrite Hkids2; now destruct (str_eqb k [])).
      destruct (str_eqb (n_parent n) WORLD); [exact E0|].
      destruct (dget (n_parent n) (kids L2)) as [c|] eqn:Ec; [|exact E0].
      cbn [kids with_kids]. rewrite dget_dset. destruct (str_eqb (n_parent n) []) eqn:E; [|exact E0].
      apply str_eqb_eq in E. rewrite E in Ec. congruence. }
    intros p Hw Hpr. rewrite Hn3.
    assert (Hp : p <> []) by (destruct Hpr as (ns & _ & ->); apply abs_nonempty).
    destruct (str_eqb (n_parent n) p) eqn:Ep.
    - apply str_eqb_eq in Ep.
      assert (Hns : exists ns, Forall component ns /\ p = abs_path ns).
      { destruct (placed_parent_key _ _ Hpl) as [E|(ns & Hc & E)]; [congruence|].
        exists ns. split; auto. congruence. }
      destruct Hns as (ns & Hc & Epn).
      unfold L3, remove_child_from_child_cache. rewrite Ep.
      replace (str_eqb p WORLD) with false by (symmetry; now apply str_eqb_neq).
      rewrite Hkids2.
      replace (str_eqb k p) with false by (symmetry; apply str_eqb_neq; congruence).
      specialize (H p Hw Hpr). destruct (dget p (kids L)) as [c|] eqn:Ec.
      + cbn [kids with_kids]. rewrite dget_dset_same. subst c. rewrite Epn.
        symmetry. apply (entry_ddel_parent (nodes L) k n ns); auto. congruence.
      + rewrite Hkids2.
        replace (str_eqb k p) with false by (symmetry; apply str_eqb_neq; congruence).
        rewrite Ec. rewrite (real_ddel (nodes L) k n) by (auto; apply Hwf).
        rewrite Ep, str_eqb_refl, H. reflexivity.
    - apply str_eqb_neq in Ep.
      assert (Hkk : dget p (kids L3) = if str_eqb k p then None else dget p (kids L)).
      { unfold L3, remove_child_from_child_cache. destruct (str_eqb (n_parent n) WORLD); auto.
        destruct (dget (n_parent n) (kids L2)); auto.
        cbn [kids with_kids]. rewrite dget_dset_other by auto. auto. }
      rewrite Hkk. destruct (str_eqb k p) eqn:Ek.
      + apply str_eqb_eq in Ek. subst p.
        rewrite (real_ddel (nodes L) k n) by (auto; apply Hwf).
        replace (str_eqb (n_parent n) k) with false by (symmetry; now apply str_eqb_neq).
        exact Hleaf.
      + specialize (H p Hw Hpr). destruct (dget p (kids L)).
        * rewrite (entry_ddel_other (nodes L) k n); auto. apply Hwf.
        * rewrite (real_ddel (nodes L) k n) by (auto; apply Hwf).
          replace (str_eqb (n_parent n) p) with false by (symmetry; now apply str_eqb_neq).
          exact H. }
  destruct (dget (n_parent n) (nodes L3)) as [pn|] eqn:E; [|exact H3].
  destruct (str_in _ _); [|exact H3].
  apply comp_inv_order; auto. apply with_order_parent; auto. apply H3.
Qed.

Lemma comp_inv_empty : comp_inv empty_layer.
Proof.
  split; [split; [constructor|intros ? ? []]|].
  repeat (split; [first [reflexivity|constructor]|]). intros p _ _. reflexivity.
Qed.

Lemma comp_step_inv same same_name L o :
  comp_inv L -> comp_allowed (nodes L) o -> comp_inv (comp_step same same_name L o).
Proof.
  intros Hinv Ho. destruct o as [k n|k|p rt ordered|fuel p ordered]; cbn [comp_step comp_allowed] in *.
  - destruct Ho. now apply comp_inv_add.
  - destruct Ho as (H1 & H2 & H3). destruct (dget k (nodes L)) as [n|] eqn:E; auto.
    now apply comp_inv_remove.
  - eapply comp_inv_asked; eauto. apply children_asked.
  - eapply comp_inv_asked; eauto. apply descendants_asked.
Qed.

Lemma comp_history_inv same same_name ops : forall L,
  comp_inv L -> comp_history same same_name L ops ->
  comp_inv (fold_left (comp_step same same_name) ops L).
Proof.
  induction ops as [|o ops IH]; intros L Hinv Hh; cbn in *; auto.
  destruct Hh as [Ho Hh]. apply IH; auto. now apply comp_step_inv.
Qed.

(** *** Spec layers *)

Definition spec_inv (L : layer) : Prop :=
  wf_nodes (nodes L) /\ all_ready by_value L /\
  NoDup (dkeys (kids L)) /\ NoDup (dkeys (implied L)).

Lemma spec_inv_asked incl L L' : spec_inv L -> asked by_value incl L L' -> spec_inv L'.
Proof.
  intros (Hwf & Hr & H1 & H2) (G1 & G2 & G3 & G4 & G5 & G6 & G7).
  split; [now rewrite G1|]. auto.
Qed.

(** Clearing the caches of a path and of its parent leaves the others; what
    they say must still hold of the new table. *)
Lemma spec_inv_clear L d k p0 :
  spec_inv L -> wf_nodes d ->
  (forall p, proper p -> p <> k -> p <> p0 -> p <> WORLD ->
     entry_of d (real d p) = entry_of (nodes L) (real (nodes L) p)) ->
  (forall p, proper p -> p <> k -> p <> p0 -> p <> WORLD ->
     scan_implied d p = scan_implied (nodes L) p) ->
  spec_inv (clear_node_child_cache (clear_node_child_cache (with_nodes L d) k) p0).
Proof.
  intros (Hwf & Hr & H1 & H2) Hwd Hreal Himp. split; [exact Hwd|]. split.
  - intros p Hp. destruct (Hr p Hp) as [A B]. unfold ready, iready in *.
    cbn [kids implied nodes clear_node_child_cache with_nodes].
    rewrite !dget_ddel by (repeat apply NoDup_ddel; auto).
    assert (Hsc : scan_real by_value d p = real d p) by (now apply scan_real_exact).
    destruct (str_eqb p0 p) eqn:E0; [auto|]. destruct (str_eqb k p) eqn:Ek; [auto|].
    apply str_eqb_neq in E0. apply str_eqb_neq in Ek.
    destruct (str_eqb p WORLD) eqn:Ew.
    { apply str_eqb_eq in Ew. subst p. split.
      - destruct (dget WORLD (kids L)); auto.
      - destruct (dget WORLD (implied L)); auto. }
    apply str_eqb_neq in Ew. split.
    + destruct (dget p (kids L)) as [c|] eqn:Ec; auto.
      destruct A as [A|A]; [now left|]. right. rewrite Hreal; auto.
    + destruct (dget p (implied L)) as [i|] eqn:Ei; auto.
      destruct B as [B|B]; [now left|]. right. rewrite Himp; auto.
  - cbn [kids implied clear_node_child_cache with_nodes].
    split; repeat apply NoDup_ddel; auto.
Qed.

(** A later key adds no implied child when an earlier one already did. *)
Lemma implied_skip p ks k b :
  (is_ancestor k p = true ->
   exists j, In j ks /\ is_ancestor j p = true /\
     trim_to_depth k (Z.of_nat (get_path_depth p) + 1)
     = trim_to_depth j (Z.of_nat (get_path_depth p) + 1)) ->
  fold_left (implied_step p) (ks ++ k :: b) [] = fold_left (implied_step p) (ks ++ b) [].
Proof.
  intros H. rewrite !fold_left_app. cbn [fold_left]. f_equal.
  unfold implied_step at 1. destruct (is_ancestor k p); auto.
  destruct (H eq_refl) as (j & Hj & Ha & ->). cbn zeta.
  replace (str_in _ _) with true; auto. symmetry. apply str_in_In. apply implied_fold_in.
  right. exists j. auto.
Qed.

(** The trimmed path of a child is that of its parent, two levels up or more. *)
Lemma trim_via_parent ns nm ps :
  Forall component (ns ++ [nm]) -> Forall component ps -> ps <> [] -> ps <> ns ->
  is_ancestor (abs_path (ns ++ [nm])) (abs_path ps) = true ->
  is_ancestor (abs_path ns) (abs_path ps) = true /\
  trim_to_depth (abs_path (ns ++ [nm])) (Z.of_nat (get_path_depth (abs_path ps)) + 1)
  = trim_to_depth (abs_path ns) (Z.of_nat (get_path_depth (abs_path ps)) + 1).
Proof.
  intros Hc Hp Hne Hn Ha. pose proof (proj1 (proj1 (Forall_app _ _ _) Hc)) as Hcn.
  apply is_ancestor_abs in Ha; auto. destruct Ha as [Ha|(r & Hr & E)]; [contradiction|].
  destruct (snoc_cases r) as [->|(q & x & ->)]; [congruence|].
  rewrite app_assoc in E. apply app_inj_tail in E as [E _]. subst ns.
  destruct q as [|y q]; [rewrite app_nil_r in Hn; congruence|].
  split.
  - apply is_ancestor_abs; auto. right. exists (y :: q). split; [discriminate|auto].
  - rewrite <- app_assoc. rewrite !trim_child.
    + f_equal. rewrite !firstn_app, !firstn_all2 by lia.
      replace (S (length ps) - length ps) with 1 by lia. reflexivity.
    + exact Hcn.
    + now rewrite app_assoc.
Qed.

(** What [implied_skip] needs, for a node whose parent is listed before it. *)
Lemma parent_covers k n ks p :
  placed k n -> n_parent n = [] \/ n_parent n = WORLD \/ In (n_parent n) ks ->
  proper p -> p <> n_parent n -> p <> WORLD -> is_ancestor k p = true ->
  exists j, In j ks /\ is_ancestor j p = true /\
    trim_to_depth k (Z.of_nat (get_path_depth p) + 1)
    = trim_to_depth j (Z.of_nat (get_path_depth p) + 1).
Proof.
  intros Hpl Hpar (ps & Hps & ->) Hn Hw Ha.
  assert (Hpn : ps <> []) by (intros ->; now apply Hw).
  destruct Hpl as [[-> E]|(ns & nm & Hc & -> & E & _)].
  - apply is_ancestor_abs in Ha; auto. exfalso.
    destruct Ha as [Ha|(r & Hr & Ea)]; [auto|]. destruct ps; [auto|discriminate].
  - rewrite E in *.
    assert (Hn2 : ps <> ns) by congruence.
    destruct (trim_via_parent ns nm ps Hc Hps Hpn Hn2 Ha) as [H1 H2].
    pose proof (proj1 (proj1 (Forall_app _ _ _) Hc)) as Hcn.
    exists (abs_path ns). split; [|split; auto].
    destruct Hpar as [Hpar|[Hpar|Hpar]]; auto; exfalso.
    + now apply (abs_nonempty ns).
    + assert (ns = []) by (apply abs_path_inj; auto). subst.
      apply is_ancestor_abs in H1; auto. destruct H1 as [H1|(r & Hr & Ea)]; [auto|].
      destruct ps; [auto|discriminate].
Qed.

Lemma spec_inv_put L k n :
  spec_inv L -> placed k n ->
  n_parent n = [] \/ n_parent n = WORLD \/ In (n_parent n) (dkeys (nodes L)) ->
  spec_inv (put_node L k n).
Proof.
  intros Hinv Hpl Hpar. unfold put_node. pose proof Hinv as (Hwf & _).
  destruct (dmem k (nodes L)) eqn:Em.
  - (* the path is there already *)
    apply dmem_In in Em. apply dget_some_key in Em as (m & Em).
    pose proof (dget_In _ _ _ Em) as Hin.
    assert (Hpm : placed k m) by now apply Hwf.
    assert (Hpp : n_parent n = n_parent m).
    { destruct Hpl as [[E1 E2]|(ns & nm & Hc & -> & E2 & E3)].
      - destruct Hpm as [[F1 F2]|(ns & nm & Hc & F1 & F2 & F3)]; [congruence|].
        exfalso. rewrite E1 in F1. apply abs_path_inj in F1; auto. now destruct ns.
      - apply placed_parent in Hpm as [F1 F2]; auto. congruence. }
    assert (Hkeys : dkeys (dset k n (nodes L)) = dkeys (nodes L))
      by (apply dkeys_dset_in; apply dget_some_key; eauto).
    assert (Hreal : forall p, real (dset k n (nodes L)) p = real (nodes L) p).
    { intros p. clear -Hwf Em Hpp. destruct Hwf as [Hnd _]. induction (nodes L) as [|(j & x) d IH].
      - discriminate.
      - cbn [dget dset] in *. inversion Hnd as [|? ? Hj Hnd']; subst.
        destruct (str_eqb j k) eqn:E.
        + injection Em as ->. unfold real. cbn. rewrite Hpp. now destruct (str_eqb (n_parent m) p).
        + unfold real in *. cbn. destruct (str_eqb (n_parent x) p); cbn; rewrite IH by auto; auto. }
    apply spec_inv_clear; auto.
    + split; [rewrite Hkeys; apply Hwf|]. intros j x Hi.
      destruct (str_eqb k j) eqn:E.
      * apply str_eqb_eq in E. subst j. apply In_dget in Hi; [|rewrite Hkeys; apply Hwf].
        rewrite dget_dset_same in Hi. injection Hi as <-. exact Hpl.
      * apply str_eqb_neq in E. apply Hwf. apply dget_In.
        rewrite <- (dget_dset_other k n (nodes L) j) by auto.
        apply In_dget; auto. rewrite Hkeys. apply Hwf.
    + intros p H1 H2 H3 H4. unfold entry_of. rewrite Hreal. f_equal.
      apply name_dict_ext. intros x Hx. rewrite dget_dset_other; auto. intros <-.
      unfold real in Hx. apply in_map_iff in Hx as ((k' & x) & Ek & Hx). cbn in Ek. subst k'.
      apply filter_In in Hx as [Hx1 Hx2]. cbn in Hx2. apply str_eqb_eq in Hx2.
      pose proof (In_dget _ _ _ (proj1 Hwf) Hx1) as G. rewrite Em in G. injection G as <-.
      congruence.
    + intros p H1 H2 H3 H4. rewrite !scan_implied_fold. now rewrite Hkeys.
  - apply dmem_false in Em.
    apply spec_inv_clear; auto.
    + now apply placed_new_wf.
    + intros p H1 H2 H3 H4. apply entry_dset_other; auto.
    + intros p H1 H2 H3 H4. rewrite !scan_implied_fold. rewrite dkeys_dset_new by auto.
      rewrite implied_skip; [rewrite app_nil_r; reflexivity|]. intros Ha.
      eapply parent_covers; eauto.
Qed.

Lemma spec_inv_drop L k n a b :
  spec_inv L -> nodes L = a ++ (k, n) :: b ->
  n_parent n = [] \/ n_parent n = WORLD \/ In (n_parent n) (dkeys a) ->
  spec_inv (drop_node L k n).
Proof.
  intros Hinv Hd Hpar. unfold drop_node. pose proof Hinv as (Hwf & _).
  assert (Hin : In (k, n) (nodes L)) by (rewrite Hd; apply in_or_app; right; now left).
  assert (Hpl : placed k n) by now apply Hwf.
  assert (Hdel : dkeys (ddel k (nodes L)) = dkeys a ++ dkeys b).
  { destruct Hwf as [Hnd _]. rewrite Hd in *. clear -Hnd.
    unfold dkeys in *. rewrite map_app in Hnd. cbn in Hnd.
    induction a as [|(j & x) a IH]; cbn in *.
    - now rewrite str_eqb_refl.
    - inversion Hnd as [|? ? Hj Hnd']; subst.
      replace (str_eqb j k) with false.
      + cbn. f_equal. now apply IH.
      + symmetry. apply str_eqb_neq. intros ->. apply Hj. apply in_or_app. right. now left. }
  apply spec_inv_clear; auto.
  - now apply wf_ddel.
  - intros p H1 H2 H3 H4. apply (entry_ddel_other (nodes L) k n); auto. apply Hwf.
  - intros p H1 H2 H3 H4. rewrite !scan_implied_fold, Hdel, Hd.
    replace (dkeys (a ++ (k, n) :: b)) with (dkeys a ++ k :: dkeys b)
      by (unfold dkeys; now rewrite map_app).
    symmetry. apply implied_skip.
    intros Ha. eapply parent_covers; eauto.
Qed.

Lemma spec_inv_empty : spec_inv empty_layer.
Proof.
  split; [split; [constructor|intros ? ? []]|]. split; [|split; constructor].
  intros p _. split; [reflexivity|exact I].
Qed.

(** A layer just loaded: any table, nothing asked yet. *)
Lemma spec_inv_cold d : wf_nodes d -> spec_inv {| nodes := d; kids := []; implied := [] |}.
Proof.
  intros H. split; [exact H|]. split; [|split; constructor].
  apply (cold_ready {| nodes := d; kids := []; implied := [] |}).
Qed.

Lemma spec_step_inv same_name L o :
  spec_inv L -> spec_allowed (nodes L) o -> spec_inv (spec_step by_value same_name L o).
Proof.
  intros Hinv Ho. destruct o as [k n|k|p rt ordered incl|fuel p ordered incl];
    cbn [spec_step spec_allowed] in *.
  - destruct Ho. now apply spec_inv_put.
  - destruct Ho as (a & n & b & E & Hp).
    replace (dget k (nodes L)) with (Some n).
    + eapply spec_inv_drop; eauto.
    + symmetry. apply In_dget; [apply Hinv|]. rewrite E. apply in_or_app. right. now left.
  - eapply spec_inv_asked; eauto. apply children_asked.
  - eapply spec_inv_asked; eauto. apply descendants_asked.
Qed.

Lemma spec_history_inv same_name ops : forall L,
  spec_inv L -> spec_history by_value same_name L ops ->
  spec_inv (fold_left (spec_step by_value same_name) ops L).
Proof.
  induction ops as [|o ops IH]; intros L Hinv Hh; cbn [fold_left spec_history] in *; auto.
  destruct Hh as [Ho Hh]. apply IH; auto. now apply spec_step_inv.
Qed.
