(** Proofs about [ListMerger]. *)

From Coq Require Import List NArith Bool Lia Arith Permutation.
From Verif Require Import PyStr PyStrFacts ListMerger OrderSpec.
Import ListNotations.

Lemma list_eqb_eq a b : list_eqb a b = true <-> a = b.
Proof.
  revert b. induction a as [|x a IH]; intros [|y b]; cbn; split; try congruence.
  - intros H. apply andb_true_iff in H as [H1 H2].
    apply str_eqb_eq in H1. apply IH in H2. congruence.
  - intros H. injection H as -> ->. rewrite str_eqb_refl. cbn. now apply IH.
Qed.

Lemma str_in_false x l : str_in x l = false <-> ~ In x l.
Proof. rewrite <- str_in_In. destruct (str_in x l); split; congruence. Qed.

Lemma py_insert_perm i x l : Permutation (py_insert i x l) (x :: l).
Proof.
  unfold py_insert. rewrite <- Permutation_middle.
  now rewrite firstn_skipn.
Qed.

Lemma insert_position_total src tgt idx :
  idx < length tgt -> exists i, insert_position src tgt idx = Some i.
Proof.
  intros H. unfold insert_position.
  destruct (nth_error src idx) eqn:E; [|eauto].
  assert (Hs : idx < length src) by (apply nth_error_Some; congruence).
  unfold same_at at 1.
  destruct (nth_error src (idx - 1)) eqn:E1.
  2:{ apply nth_error_None in E1. lia. }
  destruct (nth_error tgt (idx - 1)) eqn:E2.
  2:{ apply nth_error_None in E2. lia. }
  destruct (str_eqb p0 p1); [eauto|].
  destruct (same_at src tgt (idx + 1)) as [[|]|]; eauto.
Qed.

Lemma merge_loop_perm src tgt rest idx merged :
  idx + length rest <= length tgt ->
  exists m, merge_loop src tgt rest idx merged = Some m /\
            Permutation m (merged ++ new_names src rest).
Proof.
  revert idx merged. induction rest as [|x rest IH]; intros idx merged H; cbn in *.
  - exists merged. split; auto. now rewrite app_nil_r.
  - destruct (str_in x src) eqn:E; cbn.
    + apply IH. lia.
    + destruct (insert_position_total src tgt idx) as [i ->]; [lia|].
      destruct (IH (S idx) (py_insert i x merged)) as (m & -> & Hp); [lia|].
      exists m. split; auto. rewrite Hp, (py_insert_perm i x merged).
      now rewrite <- Permutation_middle.
Qed.

Lemma py_remove_perm x l :
  In x l -> exists l', py_remove x l = Some l' /\ Permutation l (x :: l').
Proof.
  induction l as [|y l IH]; intros H; [destruct H|]. cbn.
  destruct (str_eqb y x) eqn:E.
  - apply str_eqb_eq in E as ->. eauto.
  - destruct H as [->|H]; [rewrite str_eqb_refl in E; discriminate|].
    destruct (IH H) as (l' & -> & Hp). exists (y :: l'). split; auto.
    rewrite Hp. apply perm_swap.
Qed.

Lemma to_front_perm items m :
  (forall x, In x items -> In x m) ->
  exists r, to_front items m = Some r /\ Permutation r m.
Proof.
  revert m. induction items as [|x t IH]; intros m H; cbn [to_front]; [eauto|].
  destruct (py_remove_perm x m) as (l' & -> & Hp); [apply H; now left|].
  destruct (IH (py_insert 0 x l')) as (r & -> & Hr).
  - intros y Hy. change (In y (x :: l')). eapply Permutation_in; [exact Hp|]. apply H. now right.
  - exists r. split; auto. rewrite Hr. cbn. now symmetry.
Qed.

Lemma new_names_none base overlay :
  forallb (fun x => str_in x base) overlay = true -> new_names base overlay = [].
Proof.
  unfold new_names. induction overlay as [|x l IH]; cbn; auto.
  intros H. apply andb_true_iff in H as [-> H]. cbn. auto.
Qed.

Lemma new_names_self base : new_names base base = [].
Proof.
  apply new_names_none. apply forallb_forall. intros x H. now apply str_in_In.
Qed.

Lemma list_merger_perm base overlay :
  exists m, list_merger base overlay = Some m /\
            Permutation m (base ++ new_names base overlay).
Proof.
  unfold list_merger.
  destruct (list_eqb base overlay) eqn:Eq.
  { apply list_eqb_eq in Eq as <-. exists base. split; auto.
    now rewrite new_names_self, app_nil_r. }
  destruct (forallb (fun x => str_in x base) overlay) eqn:Hsub.
  { exists base. split; auto. now rewrite new_names_none, app_nil_r. }
  destruct (merge_loop_perm base overlay overlay 0 base) as (m & -> & Hp); [cbn; lia|].
  match goal with |- context [to_front (rev ?os)] => set (only := os) end.
  destruct (to_front_perm (rev only) m) as (r & E & Hr).
  { intros x Hx. apply Permutation_sym in Hp. eapply Permutation_in; [exact Hp|].
    apply in_or_app. left. apply in_rev in Hx. unfold only in Hx.
    destruct (existsb _ _); [destruct Hx|]. now apply filter_In in Hx. }
  exists r. split; auto. now rewrite Hr.
Qed.

(** Order of the base. *)
Lemma filter_insert_out i x src m :
  ~ In x src ->
  filter (fun y => str_in y src) (py_insert i x m) = filter (fun y => str_in y src) m.
Proof.
  intros H. unfold py_insert. rewrite filter_app. cbn.
  apply str_in_false in H. rewrite H, <- filter_app. now rewrite firstn_skipn.
Qed.

Lemma merge_loop_base_order src tgt rest idx merged m :
  merge_loop src tgt rest idx merged = Some m ->
  filter (fun y => str_in y src) m = filter (fun y => str_in y src) merged.
Proof.
  revert idx merged. induction rest as [|x rest IH]; intros idx merged H; cbn in H.
  - now injection H as ->.
  - destruct (str_in x src) eqn:E; [eauto|].
    destruct (insert_position src tgt idx); [|discriminate].
    rewrite (IH _ _ H). apply filter_insert_out. now apply str_in_false.
Qed.

Lemma filter_self (base : list pystr) : filter (fun y => str_in y base) base = base.
Proof.
  assert (H : forall l, (forall x, In x l -> In x base) ->
              filter (fun y => str_in y base) l = l).
  { induction l as [|x l IH]; auto. intros H. cbn.
    assert (Hx : str_in x base = true) by (apply str_in_In; apply H; now left).
    rewrite Hx, IH; auto. intros y Hy. apply H. now right. }
  apply H. auto.
Qed.

Lemma py_remove_filter (f : pystr -> bool) x l l' :
  py_remove x l = Some l' -> f x = false -> filter f l' = filter f l.
Proof.
  revert l'. induction l as [|y l IH]; intros l' H Hf; cbn in H; [discriminate|].
  destruct (str_eqb y x) eqn:E.
  - apply str_eqb_eq in E as ->. injection H as <-. cbn. now rewrite Hf.
  - destruct (py_remove x l) as [t|] eqn:Et; [|discriminate]. injection H as <-.
    cbn. now rewrite (IH t eq_refl Hf).
Qed.

Lemma to_front_filter (f : pystr -> bool) items m r :
  to_front items m = Some r -> (forall x, In x items -> f x = false) ->
  filter f r = filter f m.
Proof.
  revert m. induction items as [|x t IH]; intros m H Hf; cbn [to_front] in H.
  - now injection H as ->.
  - destruct (py_remove x m) as [l|] eqn:E; [|discriminate].
    rewrite (IH _ H). 2:{ intros; apply Hf; now right. }
    cbn. rewrite (Hf x) by now left. apply (py_remove_filter f x m); auto.
    apply Hf. now left.
Qed.

Lemma existsb_false {A} (f : A -> bool) l :
  existsb f l = false <-> forall x, In x l -> f x = false.
Proof.
  induction l as [|y l IH]; cbn; split; auto.
  - intros _ x [].
  - intros H x [->|Hx]; apply orb_false_iff in H as [H1 H2]; auto. now apply IH.
  - intros H. apply orb_false_iff. split; auto. apply IH. auto.
Qed.

Lemma filter_id {A} (f : A -> bool) l :
  (forall x, In x l -> f x = true) -> filter f l = l.
Proof.
  induction l as [|x l IH]; auto. intros H. cbn. rewrite (H x) by now left.
  f_equal. apply IH. intros y Hy. apply H. now right.
Qed.

Lemma filter_none {A} (f : A -> bool) l :
  (forall x, In x l -> f x = false) -> filter f l = [].
Proof.
  induction l as [|x l IH]; auto. intros H. cbn. rewrite (H x) by now left.
  apply IH. intros y Hy. apply H. now right.
Qed.

Lemma to_front_prefix items m r :
  NoDup items -> to_front items m = Some r -> NoDup m ->
  (forall x, In x items -> In x m) ->
  r = rev items ++ filter (fun x => negb (str_in x items)) m.
Proof.
  revert m r. induction items as [|x t IH]; intros m r Hnd H Hm Hin; cbn [to_front] in H.
  - injection H as <-. cbn [rev app]. symmetry. apply filter_id. reflexivity.
  - destruct (py_remove x m) as [l|] eqn:E; [|discriminate].
    inversion Hnd as [|? ? Hx Hnd']; subst.
    destruct (py_remove_perm x m) as (l2 & E2 & Hp); [apply Hin; now left|].
    rewrite E in E2. injection E2 as <-.
    assert (Hxl : NoDup (x :: l)) by (eapply Permutation_NoDup; eauto).
    rewrite (IH _ _ Hnd' H).
    + cbn [py_insert firstn skipn app]. cbn [rev filter].
      assert (Hxt : str_in x t = false) by now apply str_in_false.
      rewrite Hxt. cbn [negb]. rewrite <- app_assoc. cbn [app]. do 2 f_equal.
      rewrite <- (py_remove_filter (fun y => negb (str_in y (x :: t))) x m l E).
      2:{ cbn. now rewrite str_eqb_refl. }
      apply filter_ext_in. intros y Hy. cbn.
      destruct (str_eqb y x) eqn:Eyx; auto. apply str_eqb_eq in Eyx as ->.
      inversion Hxl; subst. contradiction.
    + exact Hxl.
    + intros y Hy. eapply Permutation_in; [exact Hp|]. apply Hin. now right.
Qed.

Lemma NoDup_perm_merge base overlay m :
  NoDup base -> NoDup overlay ->
  Permutation m (base ++ new_names base overlay) -> NoDup m.
Proof.
  intros Hb Ho Hp. apply Permutation_sym in Hp. eapply Permutation_NoDup; [exact Hp|].
  clear Hp m. induction Hb as [|x l Hx Hb IH]; cbn.
  - now apply NoDup_filter.
  - assert (G : forall a b, NoDup a -> NoDup b -> (forall y : pystr, In y a -> ~ In y b) ->
              NoDup (a ++ b)).
    { clear. induction 1 as [|z a Hz Ha IHa]; cbn; auto. intros Hb Hd.
      constructor.
      - intros Hi. apply in_app_or in Hi as [Hi|Hi]; auto.
        apply (Hd z); auto.
      - apply IHa; auto. }
    apply (G (x :: l)).
    + now constructor.
    + now apply NoDup_filter.
    + intros y Hy Hn. apply filter_In in Hn as [_ Hn].
      apply negb_true_iff, str_in_false in Hn. auto.
Qed.

Lemma list_merger_base_order base overlay m :
  NoDup base -> NoDup overlay -> list_merger base overlay = Some m ->
  filter (fun y => str_in y base) m = base.
Proof.
  intros Hnb Hno. unfold list_merger.
  destruct (list_eqb base overlay) eqn:Eq.
  { intros H; injection H as <-. apply filter_self. }
  destruct (forallb (fun x => str_in x base) overlay) eqn:Hsub.
  { intros H; injection H as <-. apply filter_self. }
  destruct (merge_loop base overlay overlay 0 base) as [m1|] eqn:E; [|discriminate].
  pose proof (merge_loop_base_order _ _ _ _ _ _ E) as Ho.
  rewrite filter_self in Ho.
  destruct (existsb (fun x => str_in x base) overlay) eqn:Ei.
  - cbn. intros H; injection H as <-. exact Ho.
  - intros H.
    assert (Hdis : forall x, In x overlay -> ~ In x base).
    { intros x Hx. rewrite existsb_false in Ei. apply str_in_false. now apply Ei. }
    assert (Hos : filter (fun n => negb (str_in n overlay)) base = base).
    { apply filter_id. intros x Hx. apply negb_true_iff, str_in_false.
      intros Hi. now apply (Hdis x). }
    rewrite Hos in H.
    destruct (merge_loop_perm base overlay overlay 0 base) as (m2 & E2 & Hp); [cbn; lia|].
    rewrite E in E2. injection E2 as <-.
    assert (Hm1 : NoDup m1) by (exact (NoDup_perm_merge _ _ _ Hnb Hno Hp)).
    rewrite (to_front_prefix (rev base) m1 m) with (2 := H); auto.
    + rewrite rev_involutive, filter_app, filter_self.
      rewrite (filter_none _ (filter _ m1)); [now rewrite app_nil_r|].
      intros x Hx. apply filter_In in Hx as [_ Hx].
      apply negb_true_iff, str_in_false in Hx. apply str_in_false.
      intros Hi. apply Hx. now apply -> in_rev.
    + now apply NoDup_rev.
    + intros x Hx. apply in_rev in Hx. apply Permutation_sym in Hp.
      eapply Permutation_in; [exact Hp|]. apply in_or_app. now left.
Qed.

Lemma list_merger_subset base overlay :
  (forall x, In x overlay -> In x base) -> list_merger base overlay = Some base.
Proof.
  intros H. unfold list_merger. destruct (list_eqb base overlay); auto.
  assert (E : forallb (fun x => str_in x base) overlay = true).
  { apply forallb_forall. intros x Hx. apply str_in_In. auto. }
  now rewrite E.
Qed.

(** Disjoint lists. *)
Lemma same_at_disjoint src tgt i b :
  (forall x, In x tgt -> ~ In x src) -> same_at src tgt i = Some b -> b = false.
Proof.
  intros Hd. unfold same_at.
  destruct (nth_error src i) eqn:E1; [|discriminate].
  destruct (nth_error tgt i) eqn:E2; [|discriminate].
  intros H; injection H as <-. destruct (str_eqb p p0) eqn:E; auto.
  apply str_eqb_eq in E as ->. apply nth_error_In in E1. apply nth_error_In in E2.
  now destruct (Hd p0).
Qed.

Lemma py_insert_app a x b : py_insert (length a) x (a ++ b) = a ++ x :: b.
Proof.
  unfold py_insert. rewrite firstn_app, skipn_app, Nat.sub_diag.
  cbn. rewrite firstn_all, skipn_all, app_nil_r. reflexivity.
Qed.

Lemma merge_loop_disjoint src tgt done rest :
  tgt = done ++ rest -> (forall x, In x tgt -> ~ In x src) ->
  merge_loop src tgt rest (length done) (done ++ src) = Some (tgt ++ src).
Proof.
  revert done. induction rest as [|x rest IH]; intros done -> Hd; cbn.
  - now rewrite app_nil_r.
  - assert (Hx : str_in x src = false).
    { apply str_in_false, Hd. apply in_or_app. right. now left. }
    rewrite Hx.
    assert (Hpos : insert_position src (done ++ x :: rest) (length done) = Some (length done)).
    { destruct (insert_position_total src (done ++ x :: rest) (length done)) as [i Hi].
      { rewrite app_length. cbn. lia. }
      unfold insert_position in *.
      destruct (nth_error src (length done)); auto.
      destruct (same_at src (done ++ x :: rest) (length done - 1)) as [b|] eqn:E1;
        [|discriminate].
      apply same_at_disjoint in E1 as ->; auto.
      destruct (same_at src (done ++ x :: rest) (length done + 1)) as [b|] eqn:E2;
        [|now rewrite Nat.add_0_r].
      apply same_at_disjoint in E2 as ->; auto. }
    rewrite Hpos, py_insert_app.
    specialize (IH (done ++ [x])). rewrite <- !app_assoc in IH. cbn in IH.
    rewrite app_length in IH. cbn in IH. rewrite Nat.add_1_r in IH.
    rewrite <- app_assoc. apply IH; auto.
Qed.

Lemma list_merger_disjoint base overlay :
  NoDup base -> NoDup overlay -> (forall x, In x overlay -> ~ In x base) ->
  list_merger base overlay = Some (base ++ overlay).
Proof.
  intros Hnb Hno Hd. unfold list_merger.
  destruct (list_eqb base overlay) eqn:Eq.
  { apply list_eqb_eq in Eq as <-. destruct base as [|x l]; auto.
    destruct (Hd x); now left. }
  destruct (forallb (fun x => str_in x base) overlay) eqn:Hsub.
  { destruct overlay as [|x l]; [now rewrite app_nil_r|].
    cbn in Hsub. apply andb_true_iff in Hsub as [Hx _].
    apply str_in_In in Hx. destruct (Hd x); auto. now left. }
  pose proof (merge_loop_disjoint base overlay [] overlay eq_refl Hd) as Hm.
  cbn [length app] in Hm. rewrite Hm. clear Hm.
  assert (Hi : existsb (fun x => str_in x base) overlay = false).
  { apply existsb_false. intros x Hx. apply str_in_false. auto. }
  rewrite Hi.
  assert (Hos : filter (fun n => negb (str_in n overlay)) base = base).
  { apply filter_id. intros x Hx. apply negb_true_iff, str_in_false.
    intros Hi2. now apply (Hd x). }
  rewrite Hos.
  destruct (to_front_perm (rev base) (overlay ++ base)) as (r & E & _).
  { intros x Hx. apply in_rev in Hx. apply in_or_app. now right. }
  rewrite E. f_equal.
  assert (Hnd : NoDup (overlay ++ base)).
  { apply (Permutation_NoDup (l := base ++ overlay)); [apply Permutation_app_comm|].
    eapply (NoDup_perm_merge base overlay); auto.
    unfold new_names. rewrite (filter_id _ overlay); auto.
    intros x Hx. apply negb_true_iff, str_in_false. auto. }
  rewrite (to_front_prefix (rev base) (overlay ++ base) r) with (2 := E); auto.
  - rewrite rev_involutive, filter_app. f_equal.
    rewrite (filter_id _ overlay), (filter_none _ base); [now rewrite app_nil_r| |].
    + intros x Hx. apply negb_false_iff, str_in_In. now apply -> in_rev.
    + intros x Hx. apply negb_true_iff, str_in_false. intros Hi2.
      apply in_rev in Hi2. now apply (Hd x).
  - now apply NoDup_rev.
  - intros x Hx. apply in_rev in Hx. apply in_or_app. now right.
Qed.

(** The overlay extends the base. *)
Lemma subseq_in a l x : subseq a l -> In x a -> In x l.
Proof. induction 1; cbn; intuition congruence. Qed.

Lemma subseq_length a l : subseq a l -> length a <= length l.
Proof. induction 1; cbn; lia. Qed.

Lemma subseq_nth a l i j x :
  subseq a l -> NoDup l -> nth_error a i = Some x -> nth_error l j = Some x -> i <= j.
Proof.
  intros H. revert i j. induction H as [l|y a l H IH|y a l H IH]; intros i j Hn Ha Hl.
  - destruct i; discriminate.
  - inversion Hn; subst. destruct i as [|i], j as [|j]; cbn in *; try lia.
    + injection Hl as <-. apply nth_error_In in Ha. exfalso.
      apply (subseq_in _ _ y) in H; auto.
    + apply le_n_S. eauto.
  - inversion Hn; subst. destruct j as [|j]; cbn in *.
    + injection Hl as <-. apply nth_error_In in Ha. exfalso.
      apply (subseq_in _ _ y) in H; auto.
    + specialize (IH i j). apply le_S. auto.
Qed.

(** If the elements at index k agree then so do all before it. *)
Lemma subseq_same_prefix a l k x :
  subseq a l -> NoDup l -> nth_error a k = Some x -> nth_error l k = Some x ->
  forall i, i <= k -> nth_error a i = nth_error l i.
Proof.
  intros H. revert k. induction H as [l|y a l H IH|y a l H IH];
    intros k Hn Ha Hl i Hi.
  - destruct k; discriminate.
  - inversion Hn; subst. destruct k as [|k], i as [|i]; cbn in *; auto; try lia.
    apply (IH k); auto. lia.
  - exfalso. assert (Hs : subseq (y :: a) (y :: l)) by now constructor.
    assert (Hs2 : nth_error (y :: a) (S k) = Some x) by exact Ha.
    pose proof (subseq_nth _ _ _ _ _ Hs Hn Hs2 Hl). lia.
Qed.

Lemma merge_loop_extend src tgt done rest base_left :
  tgt = done ++ rest -> NoDup tgt -> subseq src tgt ->
  subseq base_left rest ->
  (forall x, In x rest -> (In x src <-> In x base_left)) ->
  merge_loop src tgt rest (length done) (done ++ base_left) = Some tgt.
Proof.
  revert done base_left.
  induction rest as [|x rest IH]; intros done bl -> Hnd Hs Hsub Hiff; cbn.
  - inversion Hsub. now rewrite !app_nil_r.
  - assert (Hx : ~ In x rest).
    { apply NoDup_remove_2 in Hnd. intros Hi. apply Hnd. apply in_or_app. auto. }
    destruct (str_in x src) eqn:E.
    + apply str_in_In in E. apply Hiff in E; [|now left].
      inversion Hsub as [|y a l H1 E1 E2|y a l H1 E1 E2]; subst.
      * destruct E.
      * specialize (IH (done ++ [x]) a). rewrite <- !app_assoc in IH. cbn in IH.
        rewrite app_length in IH. cbn in IH. rewrite Nat.add_1_r in IH.
        apply IH; auto.
        intros z Hz. rewrite Hiff by now right. cbn. split; auto.
        intros [->|Hz']; [contradiction|auto].
      * apply (subseq_in _ _ x) in H1; auto. contradiction.
    + apply str_in_false in E.
      assert (Hnbl : ~ In x bl) by (intros Hi; apply E, Hiff; [now left|auto]).
      assert (H1 : subseq bl rest).
      { inversion Hsub as [|y a l H1 E1 E2|y a l H1 E1 E2]; subst; auto.
        - constructor.
        - destruct Hnbl. now left. }
      assert (Hpos : insert_position src (done ++ x :: rest) (length done)
                     = Some (length done)).
      { assert (Hlen : length done < length (done ++ x :: rest))
          by (rewrite app_length; cbn; lia).
        destruct (insert_position_total src (done ++ x :: rest) (length done)) as [i Hi]; auto.
        unfold insert_position in *.
        destruct (nth_error src (length done)) as [z|] eqn:En; auto.
        destruct (same_at src (done ++ x :: rest) (length done - 1)) as [[|]|] eqn:E1;
          [now rewrite Nat.add_0_r| |discriminate].
        destruct (same_at src (done ++ x :: rest) (length done + 1)) as [[|]|] eqn:E2;
          [|now rewrite Nat.add_0_r|now rewrite Nat.add_0_r].
        exfalso. unfold same_at in E2.
        destruct (nth_error src (length done + 1)) as [u|] eqn:Eu; [|discriminate].
        destruct (nth_error (done ++ x :: rest) (length done + 1)) as [v|] eqn:Ev;
          [|discriminate].
        injection E2 as E2. apply str_eqb_eq in E2 as ->.
        pose proof (subseq_same_prefix _ _ _ _ Hs Hnd Eu Ev (length done) ltac:(lia)) as Hk.
        rewrite nth_error_app2, Nat.sub_diag in Hk by lia. cbn in Hk.
        apply E. eapply nth_error_In. exact Hk. }
      rewrite Hpos, py_insert_app.
      specialize (IH (done ++ [x]) bl). rewrite <- !app_assoc in IH. cbn in IH.
      rewrite app_length in IH. cbn in IH. rewrite Nat.add_1_r in IH.
      apply IH; auto. intros z Hz. apply Hiff. now right.
Qed.

Lemma list_merger_extend base overlay :
  NoDup overlay -> subseq base overlay -> list_merger base overlay = Some overlay.
Proof.
  intros Hn Hs. unfold list_merger.
  destruct (list_eqb base overlay) eqn:Eq.
  { apply list_eqb_eq in Eq as <-. reflexivity. }
  destruct (forallb (fun x => str_in x base) overlay) eqn:Hsub.
  { (* overlay has the same elements, so it is the base *)
    f_equal. rewrite forallb_forall in Hsub.
    clear Eq. induction Hs as [l|y a l Hs IH|y a l Hs IH].
    - destruct l as [|z l]; auto. specialize (Hsub z (or_introl eq_refl)). discriminate.
    - f_equal. inversion Hn; subst. apply IH; auto.
      intros x Hx. specialize (Hsub x (or_intror Hx)).
      apply str_in_In in Hsub as [->|Hi]; [contradiction|now apply str_in_In].
    - exfalso. specialize (Hsub y (or_introl eq_refl)). apply str_in_In in Hsub.
      inversion Hn; subst. apply (subseq_in _ _ y) in Hs; auto. }
  pose proof (merge_loop_extend base overlay [] overlay base eq_refl Hn Hs Hs) as Hm.
  cbn [length app] in Hm. rewrite Hm by (intros; reflexivity). clear Hm.
  destruct (existsb (fun x => str_in x base) overlay) eqn:Ei; auto.
  assert (base = []) as ->.
  { destruct base as [|b base]; auto. rewrite existsb_false in Ei.
    assert (Hb : In b overlay) by (apply (subseq_in _ _ b) in Hs; auto; now left).
    specialize (Ei b Hb). cbn in Ei. now rewrite str_eqb_refl in Ei. }
  reflexivity.
Qed.

(** Exactly one new name: where it goes. *)
Lemma list_merger_single base p x q :
  NoDup (p ++ x :: q) -> ~ In x base ->
  (forall y, In y (p ++ q) -> In y base) -> p ++ q <> [] ->
  exists i, insert_position base (p ++ x :: q) (length p) = Some i /\
            list_merger base (p ++ x :: q) = Some (firstn i base ++ x :: skipn i base).
Proof.
  intros Hnd Hx Hin Hne.
  destruct (insert_position_total base (p ++ x :: q) (length p)) as [i Hi].
  { rewrite app_length. cbn. lia. }
  exists i. split; auto. unfold list_merger.
  destruct (list_eqb base (p ++ x :: q)) eqn:Eq.
  { apply list_eqb_eq in Eq as ->. destruct Hx. apply in_or_app. right. now left. }
  destruct (forallb (fun x => str_in x base) (p ++ x :: q)) eqn:Hsub.
  { rewrite forallb_forall in Hsub. destruct Hx. apply str_in_In, Hsub.
    apply in_or_app. right. now left. }
  assert (Hi2 : existsb (fun x => str_in x base) (p ++ x :: q) = true).
  { apply existsb_exists. destruct (p ++ q) as [|y l] eqn:E; [congruence|].
    exists y. assert (Hy : In y (p ++ q)) by (rewrite E; now left).
    split.
    - apply in_app_or in Hy. apply in_or_app. cbn. tauto.
    - apply str_in_In, Hin. now left. }
  rewrite Hi2.
  assert (Hskip : forall l tgt idx m, (forall y, In y l -> In y base) ->
            merge_loop base tgt l idx m = Some m).
  { induction l as [|y l IH]; intros tgt idx m Hl; auto. cbn.
    assert (Hy : str_in y base = true) by (apply str_in_In, Hl; now left).
    rewrite Hy. apply IH. intros z Hz. apply Hl. now right. }
  assert (Happ : forall l1 l2 tgt idx m, (forall y, In y l1 -> In y base) ->
            merge_loop base tgt (l1 ++ l2) idx m = merge_loop base tgt l2 (idx + length l1) m).
  { induction l1 as [|y l1 IH]; intros l2 tgt idx m Hl.
    - cbn. now rewrite Nat.add_0_r.
    - cbn. assert (Hy : str_in y base = true) by (apply str_in_In, Hl; now left).
      rewrite Hy, IH by (intros z Hz; apply Hl; now right).
      f_equal. lia. }
  rewrite Happ by (intros y Hy; apply Hin, in_or_app; now left).
  cbn [merge_loop Nat.add]. apply str_in_false in Hx. rewrite Hx, Hi.
  rewrite Hskip by (intros y Hy; apply Hin, in_or_app; now right).
  reflexivity.
Qed.
