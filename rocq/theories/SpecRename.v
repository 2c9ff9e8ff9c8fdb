(** Stage.set_node_name. *)

From Coq Require Import String List NArith Bool Arith Lia Permutation.
From Verif Require Import PyStr PyStrFacts NxtPath PathSpec PathProofs Dict DictFacts ListMerger
  MergeProofs Layer LayerSpec LayerProofs DescProofs ChildCacheSpec ChildCacheProofs HierarchyProofs SortRows SortProofs PyVal
  Names NamesSpec NamesProofs SpecOps SpecOpsSpec SpecBase SpecMove SpecParent SpecClosed SpecReparent.
Import ListNotations.

(** *** The layer as the hierarchy queries see it *)

Lemma view_keys L : books L -> dkeys (view_nodes L) = dkeys (by_path L).
Proof.
  intros HB. unfold view_nodes.
  assert (H : forall p i, In (p, i) (by_path L) -> exists n, obj L i = Some n).
  { intros p i Hi. apply (in_by_path L p i HB) in Hi. destruct (b_spells L HB _ _ Hi) as (n & E & _). eauto. }
  revert H. generalize (by_path L) as d. unfold dkeys.
  induction d as [|[p i] d IH]; intros H; [reflexivity|].
  cbn [flat_map fst snd map]. destruct (H p i (or_introl eq_refl)) as (n & En). rewrite En.
  cbn [app map fst]. rewrite IH; [reflexivity|]. intros q j Hj. apply (H q j). now right.
Qed.

Lemma view_wf L : books L -> wf_nodes (nodes (view L)).
Proof.
  intros HB. cbn [nodes view]. split; [rewrite (view_keys L HB); apply (b_paths L HB)|].
  intros k n H. unfold view_nodes in H. apply in_flat_map in H as ([p i] & Hi & Hn). cbn [fst snd] in Hn.
  apply (in_by_path L p i HB) in Hi. destruct (b_spells L HB _ _ Hi) as (m & Em & Hs). rewrite Em in Hn.
  destruct Hn as [E|[]]. injection E as <- <-.
  destruct Hs as [(-> & H1 & H2)|(ns & nm & H1 & -> & H2 & H3)].
  - left. auto.
  - right. exists ns, nm. split; [now apply plain_component|]. auto.
Qed.

Lemma view_ready L : all_ready same_string (view L).
Proof. exact (cold_ready (view L)). Qed.

Lemma view_has L ns : books L -> Forall component ns -> (has (nodes (view L)) ns <-> holds L ns /\ Forall plain ns).
Proof.
  intros HB Hns. unfold has. cbn [nodes view]. rewrite (view_keys L HB). rewrite <- dget_some_key. split.
  - intros (i & E). split; [now exists i|].
    destruct (books_proper L _ i HB E) as (ms & Hms & Em).
    apply abs_path_inj in Em; [now subst|exact Hns|now apply plain_component].
  - intros [(i & E) _]. now exists i.
Qed.

(** The nodes found for the children of [ns]. *)
Definition real_kids (L : slayer) (p : pystr) : list nat :=
  flat_map (fun p => match lookup L p with Some j => [j] | None => [] end) (kid_paths L p true).

Lemma kid_paths_spec L ns : books L -> Forall plain ns -> ns <> [] ->
  NoDup (kid_paths L (abs_path ns) true) /\
  forall c, In c (kid_paths L (abs_path ns) true) <->
    exists nm r, Forall plain (nm :: r) /\ c = abs_path (ns ++ [nm]) /\ holds L (ns ++ nm :: r).
Proof.
  intros HB Hns Hne. unfold kid_paths.
  destruct (children_implied same_string same_string (view L) ns (view_wf L HB) (view_ready L)
              (plain_component ns Hns) (or_introl Hne)) as (l & E & Hnd & Hin & _).
  rewrite E. cbn [as_list]. split; [exact Hnd|]. intros c. rewrite Hin. split.
  - intros (nm & Hnm & -> & (r & Hr & Hh)).
    apply (view_has L) in Hh; [|exact HB|].
    2:{ rewrite <- app_assoc. apply Forall_app. split; [now apply plain_component|].
        constructor; assumption. }
    destruct Hh as [Hh Hp]. rewrite <- app_assoc in Hh, Hp. exists nm, r.
    split; [exact (Forall_app_r _ _ _ Hp)|]. split; [reflexivity|exact Hh].
  - intros (nm & r & Hp & -> & Hh). exists nm. split; [inversion Hp as [|? ? [H _] _]; exact H|].
    split; [reflexivity|]. exists r. split; [apply plain_component; now inversion Hp|].
    apply (view_has L); [exact HB| |].
    + rewrite <- app_assoc. cbn [app]. apply plain_component, Forall_app. auto.
    + rewrite <- app_assoc. cbn [app]. split; [exact Hh|]. apply Forall_app. auto.
Qed.

Lemma real_kids_spec L ns : books L -> Forall plain ns -> ns <> [] ->
  exists xs, NoDup xs /\
    (forall x, In x xs <-> plain x /\ holds L (ns ++ [x])) /\
    Forall2 (fun j x => lookup L (abs_path (ns ++ [x])) = Some j) (real_kids L (abs_path ns)) xs.
Proof.
  intros HB Hns Hne. destruct (kid_paths_spec L ns HB Hns Hne) as [Hnd Hin]. unfold real_kids.
  assert (G : forall l, NoDup l -> (forall c, In c l -> exists nm, plain nm /\ c = abs_path (ns ++ [nm])) ->
    exists xs, NoDup xs /\ (forall x, In x xs -> plain x /\ In (abs_path (ns ++ [x])) l) /\
      (forall x, plain x -> In (abs_path (ns ++ [x])) l -> holds L (ns ++ [x]) -> In x xs) /\
      (forall x, In x xs -> holds L (ns ++ [x])) /\
      Forall2 (fun j x => lookup L (abs_path (ns ++ [x])) = Some j)
        (flat_map (fun p => match lookup L p with Some j => [j] | None => [] end) l) xs).
  { induction l as [|c l IH]; intros Hl Hc.
    - exists []. split; [constructor|]. split; [intros ? []|]. split; [intros ? ? []|].
      split; [intros ? []|constructor].
    - inversion Hl as [|? ? Hcl Hl']; subst.
      destruct IH as (xs & X1 & X2 & X3 & X4 & X5); [exact Hl'|intros d Hd; apply Hc; now right|].
      destruct (Hc c (or_introl eq_refl)) as (nm & Hnm & ->). cbn [flat_map].
      destruct (lookup L (abs_path (ns ++ [nm]))) as [j|] eqn:E; cbn [app].
      + exists (nm :: xs). split.
        { constructor; [|exact X1]. intros H. apply X2 in H as [_ H]. contradiction. }
        split; [intros x [<-|Hx]; [split; [exact Hnm|now left]|apply X2 in Hx; split; [tauto|right; tauto]]|].
        split.
        { intros x Hx [He|Hl2] Hh; [|right; now apply X3]. left.
          apply abs_inj in He; [|apply Forall_app; auto..]. apply app_inj_tail in He as [_ ->]. reflexivity. }
        split; [intros x [<-|Hx]; [now exists j|now apply X4]|]. constructor; assumption.
      + exists xs. split; [exact X1|].
        split; [intros x Hx; apply X2 in Hx; split; [tauto|right; tauto]|].
        split.
        { intros x Hx [He|Hl2] Hh; [|now apply X3]. exfalso. destruct Hh as (j & Ej).
          rewrite <- He in Ej. congruence. }
        split; [exact X4|exact X5]. }
  destruct (G _ Hnd) as (xs & X1 & X2 & X3 & X4 & X5).
  { intros c Hc. apply Hin in Hc as (nm & r & Hp & -> & _). exists nm. split; [now inversion Hp|reflexivity]. }
  exists xs. split; [exact X1|]. split; [|exact X5]. intros x. split.
  - intros H. split; [now apply X2|now apply X4].
  - intros [Hx Hh]. apply X3; [exact Hx| |exact Hh]. apply Hin. exists x, [].
    split; [constructor; [exact Hx|constructor]|]. split; [reflexivity|exact Hh].
Qed.

(** *** The children follow *)

Lemma Forall2_weaken {A B} (P Q : A -> B -> Prop) l m :
  (forall a b, P a b -> Q a b) -> Forall2 P l m -> Forall2 Q l m.
Proof. intros H. induction 1; constructor; auto. Qed.

Lemma split_at (po : list pystr) nm0 ms c r : po ++ [nm0] = ms ++ c :: r -> exists s, ms ++ s = po.
Proof.
  intros E. destruct r as [|z r _] using rev_ind.
  - apply app_inj_tail in E as [-> _]. exists []. apply app_nil_r.
  - rewrite app_comm_cons, app_assoc in E. apply app_inj_tail in E as [E _].
    exists (c :: r). now symmetry.
Qed.

Lemma split_before (po : list pystr) nm0 ms c r r1 r2 :
  po ++ [nm0] = ms ++ c :: r -> r = r1 ++ r2 -> r2 <> [] -> exists s, (ms ++ c :: r1) ++ s = po.
Proof.
  intros E -> Hr. destruct (exists_last Hr) as (r3 & z & ->). exists r3.
  rewrite app_comm_cons, !app_assoc in E. apply app_inj_tail in E as [E _]. rewrite E.
  rewrite <- app_assoc. reflexivity.
Qed.


Section Rename.
Variables (ud uw : N -> bool) (extra : slayer -> list pystr).
Variables (L : slayer) (i : nat) (po : list pystr) (nm0 nm : pystr).
Let o := po ++ [nm0].
Let w := po ++ [nm].
Hypothesis HB : books L.
Hypothesis Ho : Forall plain o.
Hypothesis Hw : Forall plain w.
Hypothesis Hi : lookup L (abs_path o) = Some i.
Hypothesis Hv : vacant L w.

(** The sub-trees of the names in [D] have moved. *)
Record halfway (D : list pystr) (C : slayer) : Prop := {
  h_books : books C;
  h_new : lookup C (abs_path w) = Some i;
  h_old : lookup C (abs_path o) = None;
  h_there : forall x r, Forall plain (x :: r) -> In x D ->
            lookup C (abs_path (w ++ x :: r)) = lookup L (abs_path (o ++ x :: r));
  h_notyet : forall x r, Forall plain (x :: r) -> ~ In x D -> lookup C (abs_path (w ++ x :: r)) = None;
  h_gone : forall x r, Forall plain (x :: r) -> In x D -> lookup C (abs_path (o ++ x :: r)) = None;
  h_stay : forall x r, Forall plain (x :: r) -> ~ In x D ->
           lookup C (abs_path (o ++ x :: r)) = lookup L (abs_path (o ++ x :: r));
  h_rest : forall ms, Forall plain ms -> ~ (exists r, ms = o ++ r) -> ~ (exists r, ms = w ++ r) ->
           lookup C (abs_path ms) = lookup L (abs_path ms)
}.

Lemma rn_ne : nm <> nm0.
Proof.
  intros E. specialize (Hv [] (Forall_nil _)). rewrite app_nil_r in Hv. unfold w in Hv. rewrite E in Hv.
  unfold o in Hi. congruence.
Qed.

Lemma rn_apart a b : o ++ a <> w ++ b.
Proof.
  unfold o, w. rewrite <- !app_assoc. intros E. apply app_inv_head in E. injection E as E _.
  now apply rn_ne.
Qed.

(** Above the renamed node nothing changes. *)
Lemma rn_above D C ms r : halfway D C -> ms ++ r = po -> lookup C (abs_path ms) = lookup L (abs_path ms).
Proof.
  intros H P. assert (Pl : length ms + length r = length po) by (rewrite <- app_length; now rewrite P).
  apply (h_rest D C H).
  - pose proof Ho as Ho'. unfold o in Ho'. rewrite <- P in Ho'. rewrite <- !app_assoc in Ho'.
    exact (Forall_app_l _ _ _ Ho').
  - intros (s & E). apply (f_equal (@length _)) in E. unfold o in E. rewrite !app_length in E.
    cbn [length] in E. lia.
  - intros (s & E). apply (f_equal (@length _)) in E. unfold w in E. rewrite !app_length in E.
    cbn [length] in E. lia.
Qed.

Lemma rn_nearest D C x k c : halfway D C -> Forall plain [x] ->
  nearest_above C (o ++ [x]) k c <-> nearest_above L o k c.
Proof.
  intros H Hx. split.
  - intros (ms & r & E & Hne & El & Hr). destruct r as [|y r _] using rev_ind.
    { exfalso. apply app_inj_tail in E as [<- _]. rewrite (h_old D C H) in El. discriminate. }
    rewrite app_comm_cons, app_assoc in E. apply app_inj_tail in E as [E _].
    exists ms, r. split; [exact E|]. split; [exact Hne|].
    pose proof (split_at po nm0 ms c r E) as P.
    destruct P as (s & P). rewrite <- (rn_above D C ms s H P). split; [exact El|].
    intros r1 r2 Er Hr2. rewrite <- (Hr r1 (r2 ++ [y])).
    + symmetry. destruct (split_before po nm0 ms c r r1 r2 E Er Hr2) as (s2 & P2).
      exact (rn_above D C (ms ++ c :: r1) s2 H P2).
    + now rewrite Er, app_assoc.
    + destruct r2; discriminate.
  - intros (ms & r & E & Hne & El & Hr). exists ms, (r ++ [x]).
    pose proof (split_at po nm0 ms c r E) as P.
    destruct P as (s & P). split; [rewrite E, <- app_assoc; reflexivity|]. split; [exact Hne|].
    rewrite (rn_above D C ms s H P). split; [exact El|]. intros r1 r2 Er Hr2.
    destruct (exists_last Hr2) as (r3 & y & ->). rewrite app_assoc in Er. apply app_inj_tail in Er as [Er _].
    destruct r3 as [|z r3].
    + rewrite app_nil_r in Er. subst r1. rewrite <- E. exact (h_old D C H).
    + rewrite <- (Hr r1 (z :: r3) Er ltac:(discriminate)).
      destruct (split_before po nm0 ms c r r1 (z :: r3) E Er ltac:(discriminate)) as (s2 & P2).
      exact (rn_above D C (ms ++ c :: r1) s2 H P2).
Qed.

(** The orders after the names [xs] have moved. *)
Definition child_orders (xs : list pystr) (h : nat -> list pystr -> list pystr) : Prop :=
  (forall l, h i l = fold_left (fun l x => adding x l) xs l) /\
  (forall k l, k <> i ->
     (forall c, nearest_above L o k c -> h k l = repeat_without c (length xs) l) /\
     ((forall c, ~ nearest_above L o k c) -> h k l = l)).

Definition ordered_objs (h : nat -> list pystr -> list pystr) (A B : slayer) : Prop :=
  forall k, match obj A k with
            | None => obj B k = None
            | Some m => exists p, obj B k = Some (set_order (h k (s_order m)) (set_parent p m))
            end.

Lemma rn_self_not_above c : ~ nearest_above L o i c.
Proof.
  intros (ms & r & E & Hne & El & _). assert (Hp : Forall plain ms).
  { rewrite E in Ho. exact (Forall_app_l _ _ _ Ho). }
  pose proof (books_inj L _ _ i HB El Hi) as E2. apply abs_inj in E2; [|exact Hp|exact Ho].
  rewrite <- E2 in E. rewrite <- (app_nil_r ms) in E at 1. apply app_inv_head in E. discriminate.
Qed.

Lemma kids_follow : forall ids xs D C,
  halfway D C -> NoDup xs -> (forall x, In x xs -> plain x /\ ~ In x D) ->
  Forall2 (fun j x => lookup L (abs_path (o ++ [x])) = Some j) ids xs ->
  exists C' olds h,
    parent_each ud uw extra false (abs_path w) C ids = (C', Done olds) /\
    halfway (D ++ xs) C' /\ ordered_objs h C C' /\ child_orders xs h /\
    same_flags C C' /\ positions C' = positions C /\
    collapse C' = fold_left (fun d x => move_key (abs_path (o ++ [x])) (abs_path (w ++ [x])) d) xs (collapse C) /\
    Forall2 (fun j old => exists x, In x xs /\ lookup L (abs_path (o ++ [x])) = Some j /\
                                    old = abs_path (o ++ [x])) ids olds.
Proof.
  induction ids as [|j ids IH]; intros xs D C HH Hnd Hxs HF; inversion HF as [|? x ? xs' Ej HF']; subst.
  { exists C, [], (fun _ l => l). split; [reflexivity|]. rewrite app_nil_r. split; [exact HH|].
    split.
    { intros k. destruct (obj C k) as [m|]; [|reflexivity]. exists (s_parent m). destruct m; reflexivity. }
    split; [split; [reflexivity|]; intros k l _; split; reflexivity|].
    split; [repeat split|]. split; [reflexivity|]. split; [reflexivity|]. constructor. }
  inversion Hnd as [|? ? Hx Hnd']; subst.
  destruct (Hxs x (or_introl eq_refl)) as [Hpx HxD].
  pose proof (h_books D C HH) as HBC.
  assert (Hpx1 : Forall plain [x]) by (constructor; [exact Hpx|constructor]).
  assert (EjC : lookup C (abs_path (o ++ [x])) = Some j) by (rewrite (h_stay D C HH); assumption).
  destruct (b_spells C HBC _ _ EjC) as (n & En & Hs).
  apply spells_snoc in Hs as [_ Hsn]; [|apply Forall_app; auto].
  assert (Hox : Forall plain (o ++ [x])) by (apply Forall_app; auto).
  assert (Hwx : Forall plain (w ++ [x])) by (apply Forall_app; auto).
  destruct (parent_one_spec ud uw extra C j (o ++ [x]) n w x false) as
    (C1 & h1 & E1 & HB1 & HM & HO1 & Hh1 & Hf1 & Hk1).
  { exact HBC. } { now apply (b_inverse C HBC). } { exact Hox. } { intros En0. apply app_eq_nil in En0 as [_ En0]. discriminate. }
  { exact En. } { exact Hwx. } { exact Hsn. }
  { intros r Hr. rewrite <- app_assoc. apply (h_notyet D C HH); [constructor; assumption|exact HxD]. }
  assert (HH1 : halfway (D ++ [x]) C1).
  { assert (Hapart : forall y r s, y :: r = [x] ++ s -> y = x) by (intros y r s E; now injection E).
    constructor.
    - exact HB1.
    - rewrite (m_rest _ _ _ _ HM); [exact (h_new D C HH)|exact Hw| |].
      + intros (r & E). apply (f_equal (@length _)) in E. rewrite !app_length in E. cbn [length] in E. lia.
      + intros (r & E). rewrite <- app_assoc in E. rewrite <- (app_nil_r w) in E. exact (rn_apart _ _ (eq_sym E)).
    - rewrite (m_rest _ _ _ _ HM); [exact (h_old D C HH)|exact Ho| |].
      + intros (r & E). rewrite <- app_assoc in E. rewrite <- (app_nil_r o) in E. exact (rn_apart _ _ E).
      + intros (r & E). apply (f_equal (@length _)) in E. rewrite !app_length in E. cbn [length] in E. lia.
    - intros y r Hy Hin. destruct (pystr_eq_dec y x) as [->|Hne].
      + change (x :: r) with ([x] ++ r). rewrite !app_assoc.
        rewrite (m_there _ _ _ _ HM) by now inversion Hy. rewrite <- !app_assoc. cbn [app].
        apply (h_stay D C HH); assumption.
      + rewrite (m_rest _ _ _ _ HM).
        * apply (h_there D C HH); [exact Hy|]. apply in_app_iff in Hin as [Hin|[Hin|[]]]; [exact Hin|congruence].
        * apply Forall_app. auto.
        * intros (s & E). rewrite <- app_assoc in E. apply app_inv_head in E. injection E as E _. congruence.
        * intros (s & E). rewrite <- app_assoc in E. exact (rn_apart _ _ (eq_sym E)).
    - intros y r Hy Hin. rewrite in_app_iff in Hin. cbn [In] in Hin.
      rewrite (m_rest _ _ _ _ HM).
      + apply (h_notyet D C HH); [exact Hy|tauto].
      + apply Forall_app. auto.
      + intros (s & E). rewrite <- app_assoc in E. apply app_inv_head in E. injection E as E _.
        apply Hin. right. left. congruence.
      + intros (s & E). rewrite <- app_assoc in E. exact (rn_apart _ _ (eq_sym E)).
    - intros y r Hy Hin. destruct (pystr_eq_dec y x) as [->|Hne].
      + change (x :: r) with ([x] ++ r). rewrite app_assoc. apply (m_gone _ _ _ _ HM); [now inversion Hy|].
        intros (s & E). rewrite <- !app_assoc in E. exact (rn_apart _ _ E).
      + rewrite (m_rest _ _ _ _ HM).
        * apply (h_gone D C HH); [exact Hy|]. apply in_app_iff in Hin as [Hin|[Hin|[]]]; [exact Hin|congruence].
        * apply Forall_app. auto.
        * intros (s & E). rewrite <- app_assoc in E. exact (rn_apart _ _ E).
        * intros (s & E). rewrite <- app_assoc in E. apply app_inv_head in E. injection E as E _. congruence.
    - intros y r Hy Hin. rewrite in_app_iff in Hin. cbn [In] in Hin.
      rewrite (m_rest _ _ _ _ HM).
      + apply (h_stay D C HH); [exact Hy|tauto].
      + apply Forall_app. auto.
      + intros (s & E). rewrite <- app_assoc in E. exact (rn_apart _ _ E).
      + intros (s & E). rewrite <- app_assoc in E. apply app_inv_head in E. injection E as E _.
        apply Hin. right. left. congruence.
    - intros ms Hms H1 H2. rewrite (m_rest _ _ _ _ HM); [apply (h_rest D C HH); assumption|exact Hms| |].
      + intros (s & E). apply H2. exists ([x] ++ s). now rewrite app_assoc.
      + intros (s & E). apply H1. exists ([x] ++ s). now rewrite app_assoc. }
  destruct (IH xs' (D ++ [x]) C1 HH1 Hnd') as (C' & olds & h & E' & HH' & HO' & Hh' & Hf' & Hp' & Hc' & HF2).
  { intros y Hy. destruct (Hxs y (or_intror Hy)) as [Hpy HyD]. split; [exact Hpy|].
    rewrite in_app_iff. intros [H|[H|[]]]; [tauto|]. subst y. contradiction. }
  { exact HF'. }
  exists C', (abs_path (o ++ [x]) :: olds), (fun k l => h k (h1 k l)).
  cbn [parent_each]. rewrite E1, E'. split; [reflexivity|].
  rewrite <- app_assoc in HH'. cbn [app] in HH'. split; [exact HH'|].
  split.
  { intros k. specialize (HO1 k). specialize (HO' k). destruct (obj C k) as [m|] eqn:Em.
    - destruct HO1 as (p1 & E1'). rewrite E1' in HO'. destruct HO' as (p & E2). exists p. rewrite E2.
      destruct (Nat.eqb k j) eqn:Ek; [|reflexivity]. apply Nat.eqb_eq in Ek. subst k.
      assert (m = n) by congruence. subst m. destruct n; cbn in *. subst. reflexivity.
    - rewrite HO1 in HO'. exact HO'. }
  split.
  { destruct Hh' as [Hi' Hk']. split.
    - intros l. rewrite Hi'. cbn [fold_left]. f_equal.
      destruct (Hh1 i l) as (l1 & [_ HL] & [HJ _]). rewrite (HJ (h_new D C HH)). f_equal. apply HL.
      intros c Hc. apply (rn_nearest D C x i c HH Hpx1) in Hc. exact (rn_self_not_above c Hc).
    - intros k l Hki. destruct (Hh1 k l) as (l1 & [HL1 HL2] & [_ HJ]).
      assert (E : h1 k l = l1).
      { apply HJ. rewrite (h_new D C HH). congruence. }
      rewrite E. split.
      + intros c Hc. rewrite (proj1 (Hk' k l1 Hki) c Hc). cbn [length].
        rewrite (HL1 c (proj2 (rn_nearest D C x k c HH Hpx1) Hc)). reflexivity.
      + intros Hn. rewrite (proj2 (Hk' k l1 Hki) Hn). apply HL2. intros c Hc.
        apply (rn_nearest D C x k c HH Hpx1) in Hc. exact (Hn c Hc). }
  split; [destruct Hf1 as (A1 & A2 & A3), Hf' as (B1 & B2 & B3); repeat split; congruence|].
  destruct Hk1 as (K1 & K2 & K3).
  split; [congruence|]. split; [cbn [fold_left]; rewrite Hc', K2; reflexivity|].
  constructor.
  - exists x. split; [now left|]. auto.
  - revert HF2. apply Forall2_weaken. intros a b (y & Hy & Hy2). exists y. split; [now right|exact Hy2].
Qed.

(** *** The node itself *)

Definition new_order (k : nat) (l : list pystr) : list pystr :=
  match lookup L (abs_path po) with
  | Some j => if Nat.eqb j k then map (fun x => if str_eqb x nm0 then nm else x) l else l
  | None => l
  end.

Definition name_step : slayer :=
  let L1 := on_node L i (set_name nm) in
  let L2 := match lookup L1 (abs_path po) with
            | Some pi => on_node L1 pi (fun pn =>
                set_order (map (fun x => if str_eqb x nm0 then nm else x) (s_order pn)) pn)
            | None => L1
            end in
  let L3 := with_positions L2 (move_key (abs_path o) (abs_path w) (positions L2)) in
  let L4 := with_collapse L3 (move_key (abs_path o) (abs_path w) (collapse L3)) in
  let L5 := with_by_path L4 (move_key (abs_path o) (abs_path w) (by_path L4)) in
  let L6 := with_top L5 (option_map (fun pc => (move_key (abs_path o) (abs_path w) (fst pc), snd pc)) (top L5)) in
  with_by_node L6 (nset i (abs_path w) (by_node L6)).

Lemma ns_obj k : obj name_step k =
  option_map (fun m => set_order (new_order k (s_order m)) (if Nat.eqb k i then set_name nm m else m)) (obj L k).
Proof.
  unfold name_step. set (L2 := match lookup _ _ with Some _ => _ | None => _ end).
  change (obj L2 k = option_map (fun m => set_order (new_order k (s_order m)) (if Nat.eqb k i then set_name nm m else m)) (obj L k)).
  unfold L2, new_order. change (lookup (on_node L i (set_name nm)) (abs_path po)) with (lookup L (abs_path po)).
  destruct (lookup L (abs_path po)) as [j|].
  - rewrite !obj_on_node, (Nat.eqb_sym k i). destruct (obj L k) as [m|].
    + destruct (Nat.eqb j k), (Nat.eqb i k); cbn [option_map]; try reflexivity; now rewrite ?set_order_same.
    + now destruct (Nat.eqb j k), (Nat.eqb i k).
  - rewrite obj_on_node, (Nat.eqb_sym k i). destruct (obj L k) as [m|].
    + destruct (Nat.eqb i k); cbn [option_map]; [reflexivity|now rewrite set_order_same].
    + now destruct (Nat.eqb i k).
Qed.

Lemma ns_fields : spec_list name_step = spec_list L /\ muted name_step = muted L /\
  hidden name_step = hidden L /\ positions name_step = move_key (abs_path o) (abs_path w) (positions L) /\
  collapse name_step = move_key (abs_path o) (abs_path w) (collapse L) /\
  by_path name_step = dset (abs_path w) i (ddel (abs_path o) (by_path L)) /\
  by_node name_step = nset i (abs_path w) (by_node L).
Proof.
  assert (EK : move_key (abs_path o) (abs_path w) (by_path L) = dset (abs_path w) i (ddel (abs_path o) (by_path L))).
  { unfold move_key. unfold lookup in Hi. now rewrite Hi. }
  unfold name_step. change (lookup (on_node L i (set_name nm)) (abs_path po)) with (lookup L (abs_path po)).
  destruct (lookup L (abs_path po)) as [j|]; cbn; rewrite EK; repeat split.
Qed.

Lemma ns_lookup q : lookup name_step q =
  if str_eqb (abs_path w) q then Some i else if str_eqb (abs_path o) q then None else lookup L q.
Proof.
  unfold lookup at 1. destruct ns_fields as (_ & _ & _ & _ & _ & E & _). rewrite E.
  rewrite dget_dset, dget_ddel by apply (b_paths L HB). reflexivity.
Qed.

Lemma ns_path_of k : path_of name_step k = if Nat.eqb i k then Some (abs_path w) else path_of L k.
Proof.
  unfold path_of at 1. destruct ns_fields as (_ & _ & _ & _ & _ & _ & E). rewrite E. apply nget_nset.
Qed.

Lemma rn_new_free : lookup L (abs_path w) = None.
Proof. specialize (Hv [] (Forall_nil _)). now rewrite app_nil_r in Hv. Qed.

Lemma ns_books : books name_step.
Proof.
  constructor.
  - intros p k. rewrite ns_lookup, ns_path_of. destruct (Nat.eqb i k) eqn:Ek.
    + apply Nat.eqb_eq in Ek. subst k. destruct (str_eqb (abs_path w) p) eqn:E1.
      * apply str_eqb_eq in E1. subst p. split; reflexivity.
      * apply str_eqb_neq in E1. destruct (str_eqb (abs_path o) p) eqn:E2.
        { split; [discriminate|congruence]. }
        apply str_eqb_neq in E2. split; [|congruence]. intros E. exfalso. apply E2.
        exact (books_inj L _ _ i HB Hi E).
    + apply Nat.eqb_neq in Ek. destruct (str_eqb (abs_path w) p) eqn:E1.
      * apply str_eqb_eq in E1. subst p. split; [congruence|]. intros E.
        apply (b_inverse L HB) in E. rewrite rn_new_free in E. discriminate.
      * destruct (str_eqb (abs_path o) p) eqn:E2; [|apply (b_inverse L HB)].
        apply str_eqb_eq in E2. subst p. split; [discriminate|]. intros E.
        apply (b_inverse L HB) in E. congruence.
  - intros p k E. rewrite ns_lookup in E. rewrite ns_obj. destruct (str_eqb (abs_path w) p) eqn:E1.
    + injection E as <-. apply str_eqb_eq in E1. subst p.
      destruct (b_spells L HB _ _ Hi) as (m & Em & Hs). rewrite Em. cbn [option_map].
      rewrite Nat.eqb_refl. eexists. split; [reflexivity|].
      apply spells_snoc in Hs as [Hp _]; [|exact Ho]. right. exists po, nm. auto.
    + destruct (str_eqb (abs_path o) p) eqn:E2; [discriminate|].
      destruct (b_spells L HB _ _ E) as (m & Em & Hs). rewrite Em. cbn [option_map].
      eexists. split; [reflexivity|]. destruct (Nat.eqb k i) eqn:Ek; [|exact Hs].
      apply Nat.eqb_eq in Ek. subst k. apply str_eqb_neq in E2. exfalso. apply E2.
      exact (books_inj L _ _ i HB Hi E).
  - intros k. rewrite (proj1 ns_fields), (b_listed L HB). split; intros (p & E).
    + destruct (Nat.eq_dec k i) as [->|Hne].
      * exists (abs_path w). now rewrite ns_lookup, str_eqb_refl.
      * exists p. rewrite ns_lookup. destruct (str_eqb (abs_path w) p) eqn:E1.
        { apply str_eqb_eq in E1. subst p. rewrite rn_new_free in E. discriminate. }
        destruct (str_eqb (abs_path o) p) eqn:E2; [|exact E].
        apply str_eqb_eq in E2. subst p. congruence.
    + rewrite ns_lookup in E. destruct (str_eqb (abs_path w) p); [injection E as <-; eauto|].
      destruct (str_eqb (abs_path o) p); [discriminate|eauto].
  - rewrite (proj1 ns_fields). apply (b_once L HB).
  - destruct ns_fields as (_ & _ & _ & _ & _ & E & _). rewrite E.
    apply NoDup_dset, NoDup_ddel, (b_paths L HB).
  - destruct ns_fields as (_ & _ & _ & _ & _ & _ & E). rewrite E. apply NoDup_nset, (b_nodes L HB).
Qed.

Lemma ns_halfway : halfway [] name_step.
Proof.
  assert (G : forall ms, Forall plain ms -> ms <> o -> ms <> w -> lookup name_step (abs_path ms) = lookup L (abs_path ms)).
  { intros ms Hms H1 H2. rewrite ns_lookup.
    destruct (str_eqb (abs_path w) (abs_path ms)) eqn:E1.
    { apply str_eqb_eq, abs_inj in E1; [congruence|exact Hw|exact Hms]. }
    destruct (str_eqb (abs_path o) (abs_path ms)) eqn:E2; [|reflexivity].
    apply str_eqb_eq, abs_inj in E2; [congruence|exact Ho|exact Hms]. }
  constructor.
  - exact ns_books.
  - now rewrite ns_lookup, str_eqb_refl.
  - rewrite ns_lookup. destruct (str_eqb (abs_path w) (abs_path o)) eqn:E1.
    { apply str_eqb_eq in E1. pose proof rn_new_free as F. rewrite E1 in F. congruence. }
    now rewrite str_eqb_refl.
  - intros x r _ [].
  - intros x r Hx _. rewrite G.
    + apply Hv. exact Hx.
    + apply Forall_app. auto.
    + intros E. rewrite <- (app_nil_r o) in E. exact (rn_apart _ _ (eq_sym E)).
    + intros E. rewrite <- (app_nil_r w) in E at 2. apply app_inv_head in E. discriminate.
  - intros x r _ [].
  - intros x r Hx _. apply G.
    + apply Forall_app. auto.
    + intros E. rewrite <- (app_nil_r o) in E at 2. apply app_inv_head in E. discriminate.
    + intros E. rewrite <- (app_nil_r w) in E. exact (rn_apart _ _ E).
  - intros ms Hms H1 H2. apply G; [exact Hms| |].
    + intros ->. apply H1. exists []. now rewrite app_nil_r.
    + intros ->. apply H2. exists []. now rewrite app_nil_r.
Qed.

(** *** All of it *)

Lemma halfway_refresh D C : halfway D C -> halfway D (refresh C).
Proof.
  intros H. destruct H. constructor; try assumption.
  apply consistent_books, refresh_consistent. assumption.
Qed.

Lemma map_replace_not_in l : ~ In nm0 (map (fun x => if str_eqb x nm0 then nm else x) l).
Proof.
  intros H. apply in_map_iff in H as (x & E & _). destruct (str_eqb x nm0) eqn:Ex.
  - exact (rn_ne E).
  - rewrite E, str_eqb_refl in Ex. discriminate.
Qed.

Lemma repeat_without_not_in c m : forall l, ~ In c l -> repeat_without c m l = l.
Proof. induction m as [|m IH]; intros l H; [reflexivity|]. cbn [repeat_without]. rewrite without_not_in by exact H. auto. Qed.

Definition orders_after (xs : list pystr) (L' : slayer) : Prop :=
  forall k m m', obj L k = Some m -> obj L' k = Some m' ->
    (k = i -> s_order m' = fold_left (fun l x => adding x l) xs (s_order m)) /\
    (lookup L (abs_path po) = Some k ->
     s_order m' = map (fun x => if str_eqb x nm0 then nm else x) (s_order m)) /\
    (k <> i -> lookup L (abs_path po) <> Some k ->
     (forall c, nearest_above L o k c -> s_order m' = repeat_without c (length xs) (s_order m)) /\
     ((forall c, ~ nearest_above L o k c) -> s_order m' = s_order m)).

Lemma rn_parent_not_self : lookup L (abs_path po) <> Some i.
Proof.
  intros E. pose proof (books_inj L _ _ i HB E Hi) as E2.
  apply abs_inj in E2; [|unfold o in Ho; exact (Forall_app_l _ _ _ Ho)|exact Ho].
  unfold o in E2. rewrite <- (app_nil_r po) in E2 at 1. apply app_inv_head in E2. discriminate.
Qed.

Lemma final_orders xs h C : child_orders xs h -> ordered_objs h name_step C -> orders_after xs C.
Proof.
  intros [Hhi Hhk] HO k m m' Em Em'. specialize (HO k). rewrite ns_obj, Em in HO. cbn [option_map] in HO.
  destruct HO as (p & E). rewrite Em' in E. injection E as ->.
  change (s_order (set_order (h k (s_order (set_order (new_order k (s_order m)) (if Nat.eqb k i then set_name nm m else m))))
        (set_parent p (set_order (new_order k (s_order m)) (if Nat.eqb k i then set_name nm m else m)))))
    with (h k (new_order k (s_order m))).
  assert (En : lookup L (abs_path po) <> Some k -> new_order k (s_order m) = s_order m).
  { intros H. unfold new_order. destruct (lookup L (abs_path po)) as [j|]; [|reflexivity].
    destruct (Nat.eqb j k) eqn:E; [|reflexivity]. apply Nat.eqb_eq in E. congruence. }
  split; [|split].
  - intros ->. rewrite Hhi. rewrite En by exact rn_parent_not_self. reflexivity.
  - intros El. assert (Hki : k <> i) by (intros ->; exact (rn_parent_not_self El)).
    assert (Eo : new_order k (s_order m) = map (fun x => if str_eqb x nm0 then nm else x) (s_order m)).
    { unfold new_order. now rewrite El, Nat.eqb_refl. }
    rewrite Eo. destruct (Hhk k (map (fun x => if str_eqb x nm0 then nm else x) (s_order m)) Hki) as [H1 H2].
    assert (Hpo : po = [] \/ po <> []) by (clear; destruct po; [left; reflexivity|right; discriminate]).
    destruct Hpo as [Epo|Hpo].
    + apply H2. intros c (ms & r & E & Hne & _). unfold o in E. rewrite Epo in E.
      destruct ms as [|y ms]; [congruence|].
      cbn in E. injection E as _ E. destruct ms; discriminate.
    + rewrite (H1 nm0); [apply repeat_without_not_in, map_replace_not_in|].
      exists po, []. split; [reflexivity|]. split; [exact Hpo|]. split; [exact El|].
      intros r1 r2 E Hr. symmetry in E. apply app_eq_nil in E. tauto.
  - intros Hki Hl. rewrite (En Hl). exact (Hhk k (s_order m) Hki).
Qed.

Lemma ordered_objs_kept h A B : ordered_objs h A B -> data_kept A B.
Proof.
  intros H k. specialize (H k). destruct (obj A k) as [m|]; [|exact H].
  destruct H as (p & E). eexists. split; [exact E|]. split; reflexivity.
Qed.

Lemma ns_kept : data_kept L name_step.
Proof.
  intros k. rewrite ns_obj. destruct (obj L k) as [m|]; [|reflexivity]. cbn [option_map].
  eexists. split; [reflexivity|]. destruct (Nat.eqb k i); split; reflexivity.
Qed.

Lemma orders_after_refresh xs C : books C -> orders_after xs C -> orders_after xs (refresh C).
Proof.
  intros HBC H k m m' Em Em'.
  destruct (obj C k) as [m1|] eqn:E1.
  - rewrite (refresh_order C k m' m1 HBC E1 Em'). exact (H k m m1 Em E1).
  - rewrite (obj_refresh C k HBC), E1 in Em'. destruct (muted C), (path_of C k); discriminate.
Qed.

Lemma refresh_same_again A B : books B -> same_nodes A B -> same_nodes A (refresh B).
Proof.
  intros HBB H k. specialize (H k). rewrite (obj_refresh B k HBB). destruct (obj A k) as [m|].
  - destruct H as (m' & E & K). rewrite E. destruct (muted B); [now exists m'|].
    destruct (path_of B k) as [p|]; [|now exists m']. cbn [option_map].
    eexists. split; [reflexivity|]. exact (same_data_trans _ _ _ K (set_sources_data p m')).
  - rewrite H. destruct (muted B), (path_of B k); reflexivity.
Qed.

Lemma set_node_name_spec (n : snode) (name : pystr) (force : bool) :
  obj L i = Some n ->
  (if force then name = nm
   else unique_name ud uw extra L (Some name) (abs_path po) = Some (Ok nm)) ->
  exists L' xs,
    set_node_name ud uw extra L i name force = (L', Done (abs_path w)) /\
    consistent L' /\
    NoDup xs /\ (forall x, In x xs <-> plain x /\ holds L (o ++ [x])) /\
    halfway xs L' /\ same_nodes L L' /\
    (muted L = false -> forall k p m, lookup L' p = Some k -> obj L' k = Some m -> sourced m p) /\
    orders_after xs L' /\ same_flags L L' /\
    positions L' = move_key (abs_path o) (abs_path w) (positions L) /\
    collapse L' = fold_left (fun d x => move_key (abs_path (o ++ x)) (abs_path (w ++ x)) d)
                            ([] :: map (fun x => [x]) xs) (collapse L).
Proof.
  intros En Hch. destruct (b_spells L HB _ _ Hi) as (n' & En' & Hs).
  assert (n' = n) by congruence. subst n'. clear En'.
  apply spells_snoc in Hs as [Hsp Hsn]; [|exact Ho].
  destruct (real_kids_spec L o HB Ho) as (xs & X1 & X2 & X3).
  { unfold o. intros E. apply app_eq_nil in E as [_ E]. discriminate. }
  assert (EP : path_of L i = Some (abs_path o)) by now apply (b_inverse L HB).
  unfold set_node_name. rewrite EP, En, Hsp, Hsn.
  assert (EU : (if force then Some (Ok name) else unique_name ud uw extra L (Some name) (abs_path po)) = Some (Ok nm)).
  { destruct force; [now rewrite Hch|exact Hch]. }
  rewrite EU. cbv zeta. rewrite (join_plain po nm Hw). fold o. fold w.
  change (flat_map (fun p => match lookup L p with Some j => [j] | None => [] end) (kid_paths L (abs_path o) true))
    with (real_kids L (abs_path o)).
  set (LR := with_by_node _ _). change LR with name_step. clear LR.
  destruct ns_fields as (F1 & F2 & F3 & F4 & F5 & _ & _).
  destruct (kids_follow (real_kids L (abs_path o)) xs [] name_step ns_halfway X1) as
    (C & olds & h & E & HH & HO & Hh & Hf & Hp & Hcol & HF).
  { intros x Hx. split; [now apply X2|intros []]. }
  { exact X3. }
  cbn [app] in HH. pose proof (h_books _ _ HH) as HBC.
  assert (HD : data_kept L C) by exact (data_kept_trans L name_step C ns_kept (ordered_objs_kept h _ _ HO)).
  assert (HOA : orders_after xs C) by exact (final_orders xs h C Hh HO).
  assert (Ecol : collapse C = fold_left (fun d x => move_key (abs_path (o ++ x)) (abs_path (w ++ x)) d)
                            ([] :: map (fun x => [x]) xs) (collapse L)).
  { rewrite Hcol, F5. cbn [fold_left]. rewrite !app_nil_r. generalize (move_key (abs_path o) (abs_path w) (collapse L)).
    clear. induction xs as [|x xs IH]; intros d; [reflexivity|]. cbn [fold_left map]. apply IH. }
  assert (Fin : forall C', halfway xs C' -> same_nodes L (refresh C') -> orders_after xs C' ->
     same_flags L C' -> positions C' = positions C -> collapse C' = collapse C ->
     consistent (refresh C') /\ NoDup xs /\ (forall x, In x xs <-> plain x /\ holds L (o ++ [x])) /\
     halfway xs (refresh C') /\ same_nodes L (refresh C') /\
     (muted L = false -> forall k p m, lookup (refresh C') p = Some k -> obj (refresh C') k = Some m -> sourced m p) /\
     orders_after xs (refresh C') /\ same_flags L (refresh C') /\
     positions (refresh C') = move_key (abs_path o) (abs_path w) (positions L) /\
     collapse (refresh C') = fold_left (fun d x => move_key (abs_path (o ++ x)) (abs_path (w ++ x)) d)
                            ([] :: map (fun x => [x]) xs) (collapse L)).
  { intros C' K1 K2 K4 K5 K6 K7. pose proof (h_books _ _ K1) as KB.
    split; [exact (refresh_consistent C' KB)|]. split; [exact X1|]. split; [exact X2|].
    split; [exact (halfway_refresh xs C' K1)|]. split; [exact K2|].
    split.
    { intros Hm k p m Ek Em. apply (refresh_sourced C' k p m KB); [destruct K5; congruence|now apply (b_inverse C' KB)|exact Em]. }
    split; [exact (orders_after_refresh xs C' KB K4)|]. split; [exact K5|].
    split; [cbn; congruence|cbn [collapse refresh]]. change (collapse C' = fold_left (fun d x => move_key (abs_path (o ++ x)) (abs_path (w ++ x)) d)
                            ([] :: map (fun x => [x]) xs) (collapse L)). congruence. }
  assert (HfC : same_flags L C).
  { destruct Hf as (A1 & A2 & A3). repeat split; congruence. }
  destruct (real_kids L (abs_path o)) as [|k0 kt] eqn:EK.
  - cbn [parent_each] in E. injection E as EC _. rewrite EC.
    exists (refresh C), xs. split; [reflexivity|]. apply Fin; auto. exact (refresh_same_nodes L C HBC HD).
  - unfold parent_nodes. rewrite <- EK in *. destruct (real_kids L (abs_path o)) as [|k1 kt1] eqn:EK1; [discriminate|].
    rewrite <- EK1 in *. rewrite E.
    destruct (parent_result_done (refresh C) (refresh_consistent C HBC) (real_kids L (abs_path o)) olds [])
      as (res & ER).
    { intros j Hj.
      assert (HP : exists x, In x xs /\ lookup L (abs_path (o ++ [x])) = Some j).
      { clear - X3 Hj. induction X3 as [|j' x' t t' H X3 IH]; [destruct Hj|].
        destruct Hj as [<-|Hj]; [exists x'; split; [now left|exact H]|].
        destruct (IH Hj) as (x & Hx & Ex). exists x. split; [now right|exact Ex]. }
      destruct HP as (x & Hx & Ex). exists (abs_path (w ++ [x])). rewrite path_of_refresh.
      apply (b_inverse C HBC). rewrite (h_there _ _ HH); [exact Ex| |exact Hx].
      constructor; [now apply X2|constructor]. }
    { revert HF. apply Forall2_weaken. intros j old (x & Hx & Ex & ->). rewrite path_of_refresh.
      intros Ec. apply (b_inverse C HBC) in Ec. rewrite (h_gone _ _ HH) in Ec; [discriminate| |exact Hx].
      constructor; [now apply X2|constructor]. }
    rewrite ER.
    exists (refresh (refresh C)), xs. split; [reflexivity|]. apply Fin.
    + exact (halfway_refresh xs C HH).
    + apply refresh_same_again; [exact (h_books _ _ (halfway_refresh xs C HH))|].
      exact (refresh_same_nodes L C HBC HD).
    + exact (orders_after_refresh xs C HBC HOA).
    + exact HfC.
    + reflexivity.
    + reflexivity.
Qed.
End Rename.

(** *** Layers without gaps *)

Lemma halfway_moved L i po nm0 nm xs L' :
  closed L -> Forall plain (po ++ [nm0]) -> lookup L (abs_path (po ++ [nm0])) = Some i ->
  vacant L (po ++ [nm]) ->
  (forall x, In x xs <-> plain x /\ holds L ((po ++ [nm0]) ++ [x])) ->
  halfway L i po nm0 nm xs L' -> moved (po ++ [nm0]) (po ++ [nm]) L L'.
Proof.
  intros Hc Ho Hi Hv Hxs HH. set (o := po ++ [nm0]) in *. set (w := po ++ [nm]) in *.
  assert (Hone : o <> []) by (intros E; apply app_eq_nil in E as [_ E]; discriminate).
  assert (G : forall x r, Forall plain (x :: r) -> ~ In x xs -> lookup L (abs_path (o ++ x :: r)) = None).
  { intros x r Hr Hx. change (x :: r) with ([x] ++ r). rewrite app_assoc.
    assert (V : vacant L (o ++ [x])).
    { apply closed_vacant; [exact Hc| | |].
      - apply Forall_app. split; [exact Ho|]. inversion Hr; subst. constructor; [assumption|constructor].
      - intros E. apply app_eq_nil in E. tauto.
      - intros H. apply Hx, Hxs. split; [now inversion Hr|exact H]. }
    apply V. now inversion Hr. }
  constructor.
  - intros [|x r] Hr.
    + rewrite !app_nil_r, Hi. exact (h_new _ _ _ _ _ _ _ HH).
    + destruct (in_dec pystr_eq_dec x xs) as [Hx|Hx]; [now apply (h_there _ _ _ _ _ _ _ HH)|].
      rewrite (G x r Hr Hx). now apply (h_notyet _ _ _ _ _ _ _ HH).
  - intros [|x r] Hr _.
    + rewrite app_nil_r. exact (h_old _ _ _ _ _ _ _ HH).
    + destruct (in_dec pystr_eq_dec x xs) as [Hx|Hx]; [now apply (h_gone _ _ _ _ _ _ _ HH)|].
      rewrite <- (G x r Hr Hx). now apply (h_stay _ _ _ _ _ _ _ HH).
  - intros ms Hms H1 H2. now apply (h_rest _ _ _ _ _ _ _ HH).
Qed.

Lemma set_node_name_closed ud uw extra L i po nm0 n name :
  consistent L -> closed L -> composed L -> path_of L i = Some (abs_path (po ++ [nm0])) ->
  Forall plain (po ++ [nm0]) -> obj L i = Some n -> name <> [] ->
  exists L' nm xs,
    set_node_name ud uw extra L i name false = (L', Done (abs_path (po ++ [nm]))) /\
    legal (isdigit ud) (is_word uw) nm /\ ~ holds L (po ++ [nm]) /\
    (~ holds L (po ++ [preferred (isdigit ud) (is_word uw) (Some name)]) ->
     ~ In (abs_path (po ++ [preferred (isdigit ud) (is_word uw) (Some name)])) (extra L) ->
     nm = preferred (isdigit ud) (is_word uw) (Some name)) /\
    consistent L' /\ closed L' /\ composed L' /\
    moved (po ++ [nm0]) (po ++ [nm]) L L' /\ same_nodes L L' /\
    (forall k p m, lookup L' p = Some k -> obj L' k = Some m -> sourced m p) /\
    NoDup xs /\ (forall x, In x xs <-> plain x /\ holds L (po ++ [nm0; x])) /\
    (forall k m m', obj L k = Some m -> obj L' k = Some m' ->
      (k = i -> s_order m' = fold_left (fun l x => adding x l) xs (s_order m)) /\
      (lookup L (abs_path po) = Some k ->
       s_order m' = map (fun x => if str_eqb x nm0 then nm else x) (s_order m)) /\
      (k <> i -> lookup L (abs_path po) <> Some k -> s_order m' = s_order m)) /\
    same_flags L L' /\
    positions L' = move_key (abs_path (po ++ [nm0])) (abs_path (po ++ [nm])) (positions L).
Proof.
  intros HC Hc Hcomp Hp Ho En Hn.
  assert (Hi : lookup L (abs_path (po ++ [nm0])) = Some i) by now apply (c_inverse L HC).
  destruct (unique_name_free ud uw extra L (Some name) po) as (nm & EU & Hleg & Hw & Hfree & Hex & Hpref).
  { congruence. } { exact (Forall_app_l _ _ _ Ho). } { exact Hcomp. }
  assert (Hv : vacant L (po ++ [nm])).
  { apply closed_vacant; [exact Hc|exact Hw| |exact Hfree]. intros E. apply app_eq_nil in E as [_ E]. discriminate. }
  destruct (set_node_name_spec ud uw extra L i po nm0 nm (consistent_books L HC) Ho Hw Hi Hv n name false En EU)
    as (L' & xs & E & HC' & X1 & X2 & HH & HS & Hsrc & HO & Hf & Hpos & _).
  pose proof (halfway_moved L i po nm0 nm xs L' Hc Ho Hi Hv X2 HH) as HM.
  exists L', nm, xs. split; [exact E|]. split; [exact Hleg|]. split; [exact Hfree|]. split; [exact Hpref|].
  split; [exact HC'|].
  assert (Hno : ~ exists r, po = (po ++ [nm0]) ++ r).
  { intros (r & Er). rewrite <- app_assoc in Er. rewrite <- (app_nil_r po) in Er at 1.
    apply app_inv_head in Er. discriminate. }
  assert (Hpar : po = [] \/ holds L po) by (apply (Hc po nm0 Ho); now exists i).
  split.
  { eapply moved_closed; [exact HM|exact Hc|exact Ho| |exact Hw|exact Hv|exact Hpar|exact Hno].
    intros E0. apply app_eq_nil in E0 as [_ E0]. discriminate. }
  split; [destruct Hf as (F1 & F2 & _), Hcomp as [C1 C2]; split; congruence|].
  split; [exact HM|]. split; [exact HS|]. split; [exact (Hsrc (proj1 Hcomp))|]. split; [exact X1|].
  split; [intros x; rewrite X2, <- app_assoc; reflexivity|]. split; [|split; [exact Hf|exact Hpos]].
  intros k m m' Em Em'. destruct (HO k m m' Em Em') as (A & B & C). split; [exact A|]. split; [exact B|].
  intros Hki Hl. apply C; [exact Hki|exact Hl|]. intros c (ms & r & E0 & Hne & El & Hr).
  destruct Hpar as [Hpar|(pj & Hpar)].
  - rewrite Hpar in E0. destruct ms as [|y ms]; [congruence|]. cbn in E0. injection E0 as _ E0. destruct ms; discriminate.
  - destruct r as [|y r _] using rev_ind.
    + apply app_inj_tail in E0 as [<- _]. contradiction.
    + rewrite app_comm_cons, app_assoc in E0. apply app_inj_tail in E0 as [E0 _].
      rewrite E0 in Hpar. rewrite (Hr r [y] eq_refl) in Hpar by discriminate. discriminate.
Qed.
