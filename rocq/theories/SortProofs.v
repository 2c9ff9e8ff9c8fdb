(** Proofs about [SortRows]. *)

From Coq Require Import List Arith Lia Permutation Sorted Bool.
From Verif Require Import SortRows.
Import ListNotations.

Section Sort.
Context {A : Type} (key : A -> nat).

Lemma sort_pass_perm n l : Permutation (sort_pass key n l) l.
Proof.
  revert l. induction n as [|n IH]; intros [|a [|b t]]; auto.
  cbn [sort_pass]. destruct (Nat.ltb (key b) (key a)).
  - rewrite IH. apply perm_swap.
  - now rewrite IH.
Qed.

Lemma sort_pass_stable n l v :
  filter (fun x => Nat.eqb (key x) v) (sort_pass key n l)
  = filter (fun x => Nat.eqb (key x) v) l.
Proof.
  revert l. induction n as [|n IH]; intros [|a [|b t]]; auto.
  cbn [sort_pass]. destruct (Nat.ltb (key b) (key a)) eqn:E.
  - cbn [filter]. rewrite IH. cbn [filter]. apply Nat.ltb_lt in E.
    destruct (Nat.eqb_spec (key a) v), (Nat.eqb_spec (key b) v); auto. lia.
  - cbn [filter]. now rewrite IH.
Qed.

(** One full pass moves a maximum to the end of the first n+1 elements. *)
Lemma sort_pass_max n p q :
  length p = S n ->
  exists p' m, sort_pass key n (p ++ q) = p' ++ m :: q /\
               Permutation p (m :: p') /\ Forall (fun x => key x <= key m) p'.
Proof.
  revert p. induction n as [|n IH]; intros p Hp.
  - destruct p as [|a [|b p]]; try discriminate. exists [], a. cbn. auto.
  - destruct p as [|a [|b p]]; try discriminate. cbn [app sort_pass].
    destruct (Nat.ltb (key b) (key a)) eqn:E.
    + destruct (IH (a :: p)) as (p' & m & E' & Hp' & Hf); [cbn in *; lia|].
      cbn [app] in E'. rewrite E'. exists (b :: p'), m. split; auto. split.
      * rewrite perm_swap, Hp'. apply perm_swap.
      * constructor; auto. apply Nat.ltb_lt in E.
        assert (Ha : In a (m :: p')) by (eapply Permutation_in; [exact Hp'|now left]).
        destruct Ha as [->|Ha]; [lia|]. rewrite Forall_forall in Hf.
        specialize (Hf _ Ha). lia.
    + destruct (IH (b :: p)) as (p' & m & E' & Hp' & Hf); [cbn in *; lia|].
      cbn [app] in E'. rewrite E'. exists (a :: p'), m. split; auto. split.
      * rewrite Hp'. apply perm_swap.
      * constructor; auto. apply Nat.ltb_ge in E.
        assert (Ha : In b (m :: p')) by (eapply Permutation_in; [exact Hp'|now left]).
        destruct Ha as [->|Ha]; [lia|]. rewrite Forall_forall in Hf.
        specialize (Hf _ Ha). lia.
Qed.

Definition le_key (x y : A) := key x <= key y.

Lemma sort_passes_sorted fuel i p q :
  i <= length p + length q -> length p = length p + length q - i ->
  length p <= fuel ->
  StronglySorted le_key q ->
  (forall x y, In x p -> In y q -> key x <= key y) ->
  StronglySorted le_key (sort_passes key fuel i (length p + length q) (p ++ q)).
Proof.
  revert i p q. induction fuel as [|f IH]; intros i p q Hi Hlen Hf Hs Hle.
  - destruct p; [|cbn in Hf; lia]. exact Hs.
  - cbn [sort_passes].
    destruct (le_lt_dec (length p) 0) as [H0|H0].
    + destruct p; [|cbn in H0; lia]. cbn [app length Nat.add] in *.
      replace (length q - i - 1) with 0 by lia. cbn [sort_pass].
      assert (G : forall f2 j, length q <= j -> sort_passes key f2 j (length q) q = q).
      { induction f2 as [|f2 IHf]; intros j Hj; auto. cbn [sort_passes].
        replace (length q - j - 1) with 0 by lia. cbn [sort_pass]. apply IHf. lia. }
      destruct q; [cbn; rewrite G; cbn; auto; lia|].
      cbn [sort_pass]. rewrite G by lia. exact Hs.
    + destruct (sort_pass_max (length p + length q - i - 1) p q) as (p' & m & E & Hp & Hm); [lia|].
      rewrite E.
      assert (Hl : length p = S (length p')) by (apply Permutation_length in Hp; exact Hp).
      replace (length p + length q) with (length p' + length (m :: q)) by (cbn; lia).
      apply IH.
      * cbn. lia.
      * cbn. lia.
      * lia.
      * constructor; auto. rewrite Forall_forall. intros y Hy. apply Hle; auto.
        apply Permutation_sym in Hp. eapply Permutation_in; [exact Hp|now left].
      * intros x y Hx [<-|Hy].
        -- rewrite Forall_forall in Hm. auto.
        -- apply Hle; auto. apply Permutation_sym in Hp.
           eapply Permutation_in; [exact Hp|now right].
Qed.

Lemma sort_passes_perm fuel i n l : Permutation (sort_passes key fuel i n l) l.
Proof.
  revert i l. induction fuel as [|f IH]; intros i l; auto. cbn [sort_passes].
  rewrite IH. apply sort_pass_perm.
Qed.

Lemma sort_passes_stable fuel i n l v :
  filter (fun x => Nat.eqb (key x) v) (sort_passes key fuel i n l)
  = filter (fun x => Nat.eqb (key x) v) l.
Proof.
  revert i l. induction fuel as [|f IH]; intros i l; auto. cbn [sort_passes].
  rewrite IH. apply sort_pass_stable.
Qed.

Lemma sort_rows_spec l :
  Permutation (sort_multidimensional_list key l) l /\
  StronglySorted le_key (sort_multidimensional_list key l) /\
  forall v, filter (fun x => Nat.eqb (key x) v) (sort_multidimensional_list key l)
            = filter (fun x => Nat.eqb (key x) v) l.
Proof.
  unfold sort_multidimensional_list. destruct l as [|a t].
  { repeat split; constructor. }
  set (l := a :: t). split; [apply sort_passes_perm|]. split; [|intros v; apply sort_passes_stable].
  pose proof (sort_passes_sorted (S (length l)) 0 l []) as H.
  rewrite app_nil_r, Nat.add_0_r in H.
  apply H; try lia; [constructor|intros x y _ []].
Qed.

End Sort.
