(** Facts about [PyVal]: the string order, sorted dicts, json. *)

From Coq Require Import String List NArith ZArith Bool Lia Permutation Sorted.
From Verif Require Import PyStr PyStrFacts Dict DictFacts PyVal.
Import ListNotations.

Lemma str_ltb_irrefl a : str_ltb a a = false.
Proof.
  induction a as [|x a IH]; cbn; auto. rewrite N.ltb_irrefl, N.eqb_refl. exact IH.
Qed.

Lemma str_ltb_trans a : forall b c, str_ltb a b = true -> str_ltb b c = true -> str_ltb a c = true.
Proof.
  induction a as [|x a IH]; intros [|y b] [|z c]; cbn; auto; try discriminate.
  destruct (N.ltb_spec x y), (N.ltb_spec y z), (N.ltb_spec x z); auto;
    destruct (N.eqb_spec x y), (N.eqb_spec y z), (N.eqb_spec x z); subst; try lia; try discriminate; eauto.
Qed.

Lemma str_ltb_total a : forall b, str_ltb a b = true \/ a = b \/ str_ltb b a = true.
Proof.
  induction a as [|x a IH]; intros [|y b]; cbn; auto.
  destruct (N.ltb_spec x y); auto. destruct (N.ltb_spec y x); auto.
  assert (x = y) by lia. subst. rewrite N.eqb_refl.
  destruct (IH b) as [H1|[->|H1]]; auto.
Qed.

Lemma str_ltb_prefix a b : b <> [] -> str_ltb a (a ++ b) = true.
Proof.
  intros Hb. induction a as [|x a IH]; cbn.
  - destruct b; [congruence|reflexivity].
  - rewrite N.ltb_irrefl, N.eqb_refl. exact IH.
Qed.

Section Sort.
Context {V : Type}.
Implicit Types d : dict V.

Definition key_lt (a b : pystr * V) : Prop := str_ltb (fst a) (fst b) = true.

Lemma insert_perm kv d : Permutation (insert_item kv d) (kv :: d).
Proof.
  induction d as [|x t IH]; cbn; auto. destruct (str_ltb (fst x) (fst kv)); auto.
  rewrite IH. apply perm_swap.
Qed.

Lemma sort_perm d : Permutation (sort_items d) d.
Proof.
  induction d as [|kv t IH]; cbn; auto. rewrite insert_perm. now constructor.
Qed.

Lemma sort_in kv d : In kv (sort_items d) <-> In kv d.
Proof. split; apply Permutation_in; [|symmetry]; apply sort_perm. Qed.

Lemma sort_keys_perm d : Permutation (dkeys (sort_items d)) (dkeys d).
Proof. apply Permutation_map, sort_perm. Qed.

Lemma sort_keys_in k d : In k (dkeys (sort_items d)) <-> In k (dkeys d).
Proof. split; apply Permutation_in; [|symmetry]; apply sort_keys_perm. Qed.

Lemma sort_nodup d : NoDup (dkeys d) -> NoDup (dkeys (sort_items d)).
Proof. intros H. eapply Permutation_NoDup; [symmetry; apply sort_keys_perm|exact H]. Qed.

Lemma sort_dget k d : NoDup (dkeys d) -> dget k (sort_items d) = dget k d.
Proof.
  intros H. destruct (dget k d) as [v|] eqn:E.
  - apply In_dget; [now apply sort_nodup|]. apply sort_in. now apply dget_In.
  - apply dget_none. rewrite sort_keys_in. now apply dget_none.
Qed.

Lemma insert_sorted kv d :
  ~ In (fst kv) (dkeys d) -> StronglySorted key_lt d -> StronglySorted key_lt (insert_item kv d).
Proof.
  intros Hn Hs. induction Hs as [|x t Hs IH Hx]; cbn.
  - constructor; constructor.
  - destruct (str_ltb (fst x) (fst kv)) eqn:E.
    + constructor.
      * apply IH. intros H. apply Hn. now right.
      * apply Forall_forall. intros y Hy.
        apply (Permutation_in _ (insert_perm kv t)) in Hy as [<-|Hy]; [exact E|].
        rewrite Forall_forall in Hx. auto.
    + assert (Hlt : key_lt kv x).
      { unfold key_lt. destruct (str_ltb_total (fst kv) (fst x)) as [H|[H|H]]; auto.
        - exfalso. apply Hn. left. now symmetry.
        - congruence. }
      constructor; [now constructor|]. constructor; [exact Hlt|].
      rewrite Forall_forall in *. intros y Hy. eapply str_ltb_trans; [exact Hlt|]. now apply Hx.
Qed.

Lemma sort_sorted d : NoDup (dkeys d) -> StronglySorted key_lt (sort_items d).
Proof.
  induction d as [|kv t IH]; intros H; cbn; [constructor|]. inversion H as [|? ? H1 H2]; subst.
  apply insert_sorted; auto. now rewrite sort_keys_in.
Qed.

Lemma sorted_nodup d : StronglySorted key_lt d -> NoDup (dkeys d).
Proof.
  induction 1 as [|x t Hs IH Hx]; cbn; constructor; auto.
  intros H. apply in_map_iff in H as (y & E & Hy). rewrite Forall_forall in Hx. apply Hx in Hy.
  unfold key_lt in Hy. rewrite E, str_ltb_irrefl in Hy. discriminate.
Qed.

(** A sorted dict is determined by what it contains. *)
Lemma sorted_ext d : forall e,
  StronglySorted key_lt d -> StronglySorted key_lt e ->
  (forall k, dget k d = dget k e) -> d = e.
Proof.
  induction d as [|[k v] d IH]; intros [|[k' v'] e] Hd He H.
  - reflexivity.
  - specialize (H k'). cbn in H. rewrite str_eqb_refl in H. discriminate.
  - specialize (H k). cbn in H. rewrite str_eqb_refl in H. discriminate.
  - inversion Hd as [|? ? Hd1 Hd2]; subst. inversion He as [|? ? He1 He2]; subst.
    assert (Ek : k = k').
    { destruct (str_eqb_spec k k') as [|Hne]; auto. exfalso.
      destruct (str_ltb_total k k') as [Hlt|[Hlt|Hlt]]; [|congruence|].
      - specialize (H k). cbn in H. rewrite str_eqb_refl in H.
        destruct (str_eqb_spec k' k); [congruence|]. symmetry in H. apply dget_In in H.
        rewrite Forall_forall in He2. apply He2 in H. unfold key_lt in H. cbn in H.
        pose proof (str_ltb_trans _ _ _ Hlt H) as H2. rewrite str_ltb_irrefl in H2. discriminate.
      - specialize (H k'). cbn in H. rewrite str_eqb_refl in H.
        destruct (str_eqb_spec k k'); [congruence|]. apply dget_In in H.
        rewrite Forall_forall in Hd2. apply Hd2 in H. unfold key_lt in H. cbn in H.
        pose proof (str_ltb_trans _ _ _ Hlt H) as H2. rewrite str_ltb_irrefl in H2. discriminate. }
    subst k'. pose proof (H k) as Hk. cbn in Hk. rewrite str_eqb_refl in Hk. injection Hk as <-.
    f_equal. apply IH; auto. intros x. specialize (H x). cbn in H.
    destruct (str_eqb k x) eqn:Ekx; [apply str_eqb_eq in Ekx; subst x|exact H].
    pose proof (sorted_nodup _ Hd) as N1. pose proof (sorted_nodup _ He) as N2.
    apply NoDup_cons_iff in N1 as [N1 _]. apply NoDup_cons_iff in N2 as [N2 _].
    transitivity (@None V); [|symmetry]; now apply dget_none.
Qed.

Lemma sort_ext d e :
  NoDup (dkeys d) -> NoDup (dkeys e) -> (forall k, dget k d = dget k e) ->
  sort_items d = sort_items e.
Proof.
  intros Hd He H. apply sorted_ext; auto using sort_sorted.
  intros k. rewrite !sort_dget; auto.
Qed.

Lemma sort_of_sorted d : StronglySorted key_lt d -> sort_items d = d.
Proof.
  intros H. apply sorted_ext; auto.
  - apply sort_sorted. now apply sorted_nodup.
  - intros k. apply sort_dget. now apply sorted_nodup.
Qed.

Lemma sort_idem d : NoDup (dkeys d) -> sort_items (sort_items d) = sort_items d.
Proof. intros H. apply sort_of_sorted. now apply sort_sorted. Qed.

End Sort.

(** *** json *)

Section PyvalInd.
Variable P : pyval -> Prop.
Hypotheses (Hnone : P VNone) (Hbool : forall b, P (VBool b)) (Hint : forall z, P (VInt z))
  (Hstr : forall s, P (VStr s)) (Hobj : forall i, P (VObj i))
  (Hlist : forall l, Forall P l -> P (VList l))
  (Htup : forall l, Forall P l -> P (VTuple l))
  (Hdict : forall d, Forall (fun kv => P (snd kv)) d -> P (VDict d)).
Fixpoint pyval_ind2 (v : pyval) : P v :=
  match v with
  | VNone => Hnone | VBool b => Hbool b | VInt z => Hint z | VStr s => Hstr s | VObj i => Hobj i
  | VList l => Hlist l ((fix go l := match l return Forall P l with
                         | [] => Forall_nil _ | x :: t => Forall_cons _ (pyval_ind2 x) (go t) end) l)
  | VTuple l => Htup l ((fix go l := match l return Forall P l with
                         | [] => Forall_nil _ | x :: t => Forall_cons _ (pyval_ind2 x) (go t) end) l)
  | VDict d => Hdict d ((fix go l := match l return Forall (fun kv => P (snd kv)) l with
                         | [] => Forall_nil _
                         | (k, x) :: t => Forall_cons (k, x) (pyval_ind2 x) (go t) end) d)
  end.
End PyvalInd.

Lemma json_norm_truthy v : truthy (json_norm v) = truthy v.
Proof. destruct v as [| | | |l|l|l|]; cbn; auto; destruct l; auto. Qed.

Lemma json_norm_ok v : json_ok (json_norm v) = json_ok v.
Proof.
  induction v as [| | | | |l IH|l IH|d IH] using pyval_ind2; cbn; auto.
  - induction IH as [|x t H1 _ H2]; cbn; auto. now rewrite H1, H2.
  - induction IH as [|x t H1 _ H2]; cbn; auto. now rewrite H1, H2.
  - induction IH as [|[k x] t H1 _ H2]; cbn in *; auto. now rewrite H1, H2.
Qed.

Lemma json_norm_idem v : json_norm (json_norm v) = json_norm v.
Proof.
  induction v as [| | | | |l IH|l IH|d IH] using pyval_ind2; cbn; auto; f_equal.
  - induction IH as [|x t H1 _ H2]; cbn; auto. now rewrite H1, H2.
  - induction IH as [|x t H1 _ H2]; cbn; auto. now rewrite H1, H2.
  - induction IH as [|[k x] t H1 _ H2]; cbn in *; auto. now rewrite H1, H2.
Qed.
