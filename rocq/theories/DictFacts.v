(** Facts about [Dict]. *)

From Coq Require Import List NArith Bool Lia.
From Verif Require Import PyStr PyStrFacts Dict.
Import ListNotations.

Section Facts.
Context {V : Type}.
Implicit Types (d : dict V) (k : pystr) (v : V).

Lemma dget_dset k v d k' :
  dget k' (dset k v d) = if str_eqb k k' then Some v else dget k' d.
Proof.
  induction d as [|[k0 v0] d IH]; cbn [dset dget]; auto.
  destruct (str_eqb k0 k) eqn:E.
  - apply str_eqb_eq in E as ->. cbn [dget]. destruct (str_eqb k k'); auto.
  - cbn [dget]. rewrite IH. destruct (str_eqb k0 k') eqn:E2; auto.
    apply str_eqb_eq in E2 as ->. destruct (str_eqb k k') eqn:E3; auto.
    apply str_eqb_eq in E3 as ->. rewrite str_eqb_refl in E. discriminate.
Qed.

Lemma dget_dset_same k v d : dget k (dset k v d) = Some v.
Proof. now rewrite dget_dset, str_eqb_refl. Qed.

Lemma dget_dset_other k v d k' : k <> k' -> dget k' (dset k v d) = dget k' d.
Proof. intros H. rewrite dget_dset. apply str_eqb_neq in H. now rewrite H. Qed.

Lemma dget_In k v d : dget k d = Some v -> In (k, v) d.
Proof.
  induction d as [|[k0 v0] d IH]; cbn [dget]; [discriminate|].
  destruct (str_eqb k0 k) eqn:E.
  - apply str_eqb_eq in E as ->. intros H; injection H as ->. now left.
  - intros H. right. auto.
Qed.

Lemma In_dget k v d : NoDup (dkeys d) -> In (k, v) d -> dget k d = Some v.
Proof.
  induction d as [|[k0 v0] d IH]; intros Hn H; [destruct H|].
  cbn in *. inversion Hn; subst. destruct H as [H|H].
  - injection H as -> ->. now rewrite str_eqb_refl.
  - destruct (str_eqb k0 k) eqn:E; auto. apply str_eqb_eq in E as ->.
    exfalso. apply H2. apply in_map_iff. exists (k, v). auto.
Qed.

Lemma dget_none k d : dget k d = None <-> ~ In k (dkeys d).
Proof.
  induction d as [|[k0 v0] d IH]; cbn; [tauto|].
  destruct (str_eqb k0 k) eqn:E.
  - apply str_eqb_eq in E as ->. split; [discriminate|]. intros H. destruct H. now left.
  - rewrite IH. apply str_eqb_neq in E. tauto.
Qed.

Lemma dget_some_key k d : (exists v, dget k d = Some v) <-> In k (dkeys d).
Proof.
  split.
  - intros [v H]. apply dget_In in H. apply in_map_iff. now exists (k, v).
  - intros H. destruct (dget k d) eqn:E; eauto. apply dget_none in E. contradiction.
Qed.

Lemma dmem_In k d : dmem k d = true <-> In k (dkeys d).
Proof.
  rewrite <- dget_some_key. unfold dmem. destruct (dget k d); split; eauto; try discriminate.
  intros [v H]. discriminate.
Qed.

Lemma dmem_false k d : dmem k d = false <-> ~ In k (dkeys d).
Proof. rewrite <- dmem_In. destruct (dmem k d); split; congruence. Qed.

Lemma dkeys_dset_in k v d : In k (dkeys d) -> dkeys (dset k v d) = dkeys d.
Proof.
  induction d as [|[k0 v0] d IH]; cbn [dkeys dset map fst]; [intros []|].
  intros H. destruct (str_eqb k0 k) eqn:E; auto.
  cbn. f_equal. apply IH. destruct H as [->|H]; auto.
  rewrite str_eqb_refl in E. discriminate.
Qed.

Lemma dset_new k v d : ~ In k (dkeys d) -> dset k v d = d ++ [(k, v)].
Proof.
  induction d as [|[k0 v0] d IH]; cbn; auto. intros H.
  destruct (str_eqb k0 k) eqn:E.
  - apply str_eqb_eq in E as ->. destruct H. now left.
  - f_equal. apply IH. tauto.
Qed.

Lemma dkeys_dset_new k v d : ~ In k (dkeys d) -> dkeys (dset k v d) = dkeys d ++ [k].
Proof. intros H. rewrite dset_new by auto. unfold dkeys. now rewrite map_app. Qed.

Lemma in_dkeys_dset k v d k' : In k' (dkeys (dset k v d)) <-> k' = k \/ In k' (dkeys d).
Proof.
  rewrite <- !dget_some_key. rewrite dget_dset.
  destruct (str_eqb k k') eqn:E.
  - apply str_eqb_eq in E as ->. split; eauto.
  - apply str_eqb_neq in E. split; [tauto|]. intros [->|H]; [congruence|auto].
Qed.

Lemma NoDup_dset k v d : NoDup (dkeys d) -> NoDup (dkeys (dset k v d)).
Proof.
  intros H. destruct (in_dec pystr_eq_dec k (dkeys d)) as [Hi|Hi].
  - now rewrite dkeys_dset_in.
  - rewrite dkeys_dset_new by auto.
    apply NoDup_rev in H. rewrite <- (rev_involutive (dkeys d ++ [k])).
    apply NoDup_rev. rewrite rev_app_distr. cbn. constructor; auto.
    intros Hr. apply in_rev in Hr. auto.
Qed.

Lemma dget_ddel k d k' :
  NoDup (dkeys d) -> dget k' (ddel k d) = if str_eqb k k' then None else dget k' d.
Proof.
  induction d as [|[k0 v0] d IH]; intros Hn; cbn [ddel dget].
  - now destruct (str_eqb k k').
  - cbn in Hn. inversion Hn as [|? ? Hk0 Hn']; subst. destruct (str_eqb k0 k) eqn:E.
    + apply str_eqb_eq in E as ->. destruct (str_eqb k k') eqn:E2; auto.
      apply str_eqb_eq in E2 as <-. now apply dget_none.
    + cbn [dget]. rewrite IH by auto. destruct (str_eqb k0 k') eqn:E2; auto.
      apply str_eqb_eq in E2 as ->. destruct (str_eqb k k') eqn:E3; auto.
      apply str_eqb_eq in E3 as ->. rewrite str_eqb_refl in E. discriminate.
Qed.

Lemma dget_ddel_other k d k' : k <> k' -> dget k' (ddel k d) = dget k' d.
Proof.
  intros H. induction d as [|[k0 v0] d IH]; cbn [ddel dget]; auto.
  destruct (str_eqb k0 k) eqn:E.
  - apply str_eqb_eq in E as ->. apply str_eqb_neq in H. now rewrite H.
  - cbn [dget]. now rewrite IH.
Qed.

Lemma dkeys_ddel_incl k d : incl (dkeys (ddel k d)) (dkeys d).
Proof.
  induction d as [|[k0 v0] d IH]; intros x H; cbn in *; auto.
  destruct (str_eqb k0 k); cbn in *; auto. destruct H; auto.
Qed.

Lemma NoDup_ddel k d : NoDup (dkeys d) -> NoDup (dkeys (ddel k d)).
Proof.
  induction d as [|[k0 v0] d IH]; intros H; cbn in *; auto.
  inversion H; subst. destruct (str_eqb k0 k); auto. cbn. constructor; auto.
  intros Hi. apply H2. now apply dkeys_ddel_incl in Hi.
Qed.

Lemma in_dkeys_ddel k d k' :
  NoDup (dkeys d) -> (In k' (dkeys (ddel k d)) <-> k' <> k /\ In k' (dkeys d)).
Proof.
  intros Hn. rewrite <- !dget_some_key, dget_ddel by auto.
  destruct (str_eqb k k') eqn:E.
  - apply str_eqb_eq in E as ->. split; [intros [v H]; discriminate|tauto].
  - apply str_eqb_neq in E. split; [split; auto|tauto].
Qed.

Lemma dkeys_ddel k d :
  NoDup (dkeys d) -> dkeys (ddel k d) = filter (fun x => negb (str_eqb x k)) (dkeys d).
Proof.
  induction d as [|[k0 v0] d IH]; intros H; cbn in *; auto.
  inversion H as [|? ? H1 H2]; subst. destruct (str_eqb k0 k) eqn:E; cbn.
  - apply str_eqb_eq in E as ->. symmetry.
    assert (G : forall l, ~ In k l -> filter (fun x => negb (str_eqb x k)) l = l).
    { induction l as [|x l IHl]; auto. intros Hx. cbn in *.
      assert (Ex : str_eqb x k = false) by (apply str_eqb_neq; tauto).
      rewrite Ex. cbn. f_equal. apply IHl. tauto. }
    now apply G.
  - f_equal. auto.
Qed.

Lemma dget_dupdate d e k :
  NoDup (dkeys e) ->
  dget k (dupdate d e) = match dget k e with Some v => Some v | None => dget k d end.
Proof.
  unfold dupdate. revert d. induction e as [|[k0 v0] e IH]; intros d Hn; cbn; auto.
  cbn in Hn. inversion Hn as [|? ? H1 H2]; subst.
  rewrite IH by auto. cbn [fst snd]. rewrite dget_dset.
  destruct (str_eqb k0 k) eqn:E.
  - apply str_eqb_eq in E as ->. apply dget_none in H1. now rewrite H1.
  - reflexivity.
Qed.

Lemma NoDup_dupdate d e : NoDup (dkeys d) -> NoDup (dkeys (dupdate d e)).
Proof.
  unfold dupdate. revert d. induction e as [|[k0 v0] e IH]; intros d Hn; cbn; auto.
  apply IH. now apply NoDup_dset.
Qed.

Lemma dget_app k d e :
  dget k (d ++ e) = match dget k d with Some v => Some v | None => dget k e end.
Proof.
  induction d as [|[k0 v0] d IH]; cbn; auto. destruct (str_eqb k0 k); auto.
Qed.

End Facts.
