(** Proofs about the command line parser. *)

From Coq Require Import String List NArith Bool Arith Lia.
From Verif Require Import PyStr PyStrFacts Dict DictFacts PyVal Cli CliSpec.
Import ListNotations.

Lemma is_key_iff k : startswith (lit "/") k = true <-> is_key k.
Proof. rewrite startswith_iff. reflexivity. Qed.

Lemma written_length ps : length (written ps) = 2 * length ps.
Proof. induction ps as [|p ps IH]; [reflexivity|]. unfold written in *. cbn in *. lia. Qed.

Lemma written_nth ps i : i < length ps ->
  nth (2 * i) (written ps) [] = fst (nth i ps ([], [])) /\ nth (2 * i + 1) (written ps) [] = snd (nth i ps ([], [])).
Proof.
  revert i. induction ps as [|p ps IH]; intros i H; cbn in H; [lia|].
  destruct i as [|i]; [split; reflexivity|].
  replace (2 * S i) with (S (S (2 * i))) by lia. cbn -[Nat.mul]. apply IH. lia.
Qed.

Lemma last_given_snoc ps k v k' v' : last_given (ps ++ [(k', v')]) k v <->
  (k' = k /\ v' = v) \/ (k' <> k /\ last_given ps k v).
Proof.
  split.
  - intros (b & a & E & H). destruct (exists_last (l := (k, v) :: a)) as (a' & x & Ea); [discriminate|].
    rewrite Ea, app_assoc in E. apply app_inj_tail in E as (E & <-).
    destruct a' as [|y a''].
    + injection Ea as -> ->. now left.
    + injection Ea as <- ->. right. rewrite map_app, in_app_iff in H. split.
      * intros ->. apply H. right. now left.
      * exists b, a''. split; [exact E|]. tauto.
  - intros [(-> & ->)|(Hne & b & a & -> & H)].
    + exists ps, []. split; [reflexivity|intros []].
    + exists b, (a ++ [(k', v')]). split; [now rewrite <- app_assoc|].
      rewrite map_app, in_app_iff. intros [F|[F|[]]]; [tauto|]. cbn in F. congruence.
Qed.

Lemma holds_exactly_snoc d ps k v : holds_exactly d ps -> holds_exactly (dset k (VStr v) d) (ps ++ [(k, v)]).
Proof.
  intros (Hn & H). split; [now apply NoDup_dset|]. intros k' w. rewrite dget_dset.
  destruct (str_eqb k k') eqn:E.
  - apply str_eqb_eq in E. subst k'. split.
    + intros F. injection F as <-. exists v. split; [reflexivity|]. apply last_given_snoc. now left.
    + intros (v' & -> & Hl). apply last_given_snoc in Hl as [(_ & ->)|(F & _)]; [reflexivity|congruence].
  - apply str_eqb_neq in E. rewrite H. split; intros (v' & -> & Hl); exists v'; split; try reflexivity.
    + apply last_given_snoc. right. split; [congruence|exact Hl].
    + apply last_given_snoc in Hl as [(F & _)|(_ & Hl)]; [congruence|exact Hl].
Qed.

(** The loop after some pairs. *)
Lemma pairs_spec ps : forall todo done acc, ps = done ++ todo -> holds_exactly acc done ->
  (forall k, In k (map fst todo) -> is_key k) ->
  exists d, pairs (length todo) (2 * length done) (written ps) acc = Given d /\ holds_exactly d ps.
Proof.
  induction todo as [|[k v] todo IH]; intros done acc E Ha Hk.
  - exists acc. rewrite app_nil_r in E. subst. split; [reflexivity|exact Ha].
  - cbn [length pairs].
    assert (Hlt : length done < length ps) by (rewrite E, app_length; cbn; lia).
    assert (Hnth : nth (length done) ps ([], []) = (k, v)).
    { rewrite E, app_nth2, Nat.sub_diag by lia. reflexivity. }
    destruct (written_nth ps _ Hlt) as (E1 & E2). rewrite E1, E2, Hnth. cbn [fst snd].
    rewrite (proj2 (is_key_iff k)) by (apply Hk; now left).
    replace (2 * length done + 2) with (2 * length (done ++ [(k, v)])) by (rewrite app_length; cbn; lia).
    apply IH.
    + rewrite E, <- app_assoc. reflexivity.
    + now apply holds_exactly_snoc.
    + intros k' Hk'. apply Hk. now right.
Qed.

Lemma pairs_bad ps k v after : forall todo done acc, ps = done ++ todo ++ (k, v) :: after ->
  (forall k, In k (map fst todo) -> is_key k) -> ~ is_key k ->
  pairs (length (todo ++ (k, v) :: after)) (2 * length done) (written ps) acc = BadKey k.
Proof.
  induction todo as [|[k' v'] todo IH]; intros done acc E Hk Hbad.
  - cbn [app] in E. cbn [app length pairs].
    assert (Hlt : length done < length ps) by (rewrite E, app_length; cbn; lia).
    destruct (written_nth ps _ Hlt) as (E1 & _). rewrite E1.
    assert (Hnth : nth (length done) ps ([], []) = (k, v)).
    { rewrite E, app_nth2, Nat.sub_diag by lia. reflexivity. }
    rewrite Hnth. cbn [fst]. destruct (startswith (lit "/") k) eqn:Es; [|reflexivity].
    apply is_key_iff in Es. contradiction.
  - cbn [app length pairs].
    assert (Hlt : length done < length ps) by (rewrite E, app_length; cbn; lia).
    assert (Hnth : nth (length done) ps ([], []) = (k', v')).
    { rewrite E, app_nth2, Nat.sub_diag by lia. reflexivity. }
    destruct (written_nth ps _ Hlt) as (E1 & E2). rewrite E1, E2, Hnth. cbn [fst snd].
    rewrite (proj2 (is_key_iff k')) by (apply Hk; now left).
    replace (2 * length done + 2) with (2 * length (done ++ [(k', v')])) by (rewrite app_length; cbn; lia).
    apply IH; [now rewrite E, <- app_assoc| |exact Hbad]. intros x Hx. apply Hk. now right.
Qed.

Lemma even_half n : (2 * n) mod 2 = 0 /\ 2 * n / 2 = n.
Proof. split; [rewrite Nat.mul_comm; apply Nat.mod_mul; lia|rewrite Nat.mul_comm; apply Nat.div_mul; lia]. Qed.

Lemma parse_pairs isfile load ps : (forall k, In k (map fst ps) -> is_key k) ->
  exists d, parse_parameters isfile load (written ps) = Given d /\ holds_exactly d ps.
Proof.
  intros H. unfold parse_parameters. rewrite written_length. destruct (even_half (length ps)) as (E1 & E2).
  destruct (2 * length ps =? 1) eqn:E; [apply Nat.eqb_eq in E; lia|].
  rewrite E1, E2. cbn [Nat.eqb negb]. apply (pairs_spec ps ps []); [reflexivity| |exact H].
  split; [constructor|]. intros k w. cbn. split; [discriminate|].
  intros (v & _ & b & a & F & _). destruct b; discriminate.
Qed.

Lemma parse_bad_key isfile load before k v after :
  (forall k, In k (map fst before) -> is_key k) -> ~ is_key k ->
  parse_parameters isfile load (written (before ++ (k, v) :: after)) = BadKey k.
Proof.
  intros H Hb. unfold parse_parameters. rewrite written_length. set (ps := before ++ (k, v) :: after).
  destruct (even_half (length ps)) as (E1 & E2).
  destruct (2 * length ps =? 1) eqn:E; [apply Nat.eqb_eq in E; lia|].
  rewrite E1, E2. cbn [Nat.eqb negb]. exact (pairs_bad ps k v after before [] [] eq_refl H Hb).
Qed.

Lemma parse_odd isfile load args n : length args = 2 * n + 1 -> n <> 0 ->
  parse_parameters isfile load args = BadCount.
Proof.
  intros E Hn. unfold parse_parameters. rewrite E.
  destruct (2 * n + 1 =? 1) eqn:E1; [apply Nat.eqb_eq in E1; lia|].
  replace ((2 * n + 1) mod 2) with 1; [reflexivity|].
  rewrite Nat.add_comm, (Nat.mul_comm 2 n), Nat.mod_add by lia. reflexivity.
Qed.

(** Every argument list is of one of the three forms. *)
Lemma forms args : (exists ps, args = written ps) \/ (exists n, length args = 2 * n + 1).
Proof.
  assert (H : forall n args, length args <= n -> (exists ps, args = written ps) \/ (exists n, length args = 2 * n + 1)).
  { induction n as [|n IH]; intros l Hl.
    - destruct l; [left; now exists []|cbn in Hl; lia].
    - destruct l as [|k [|v l]]; [left; now exists []|right; now exists 0|].
      destruct (IH l) as [(ps & ->)|(m & E)]; [cbn in Hl; lia| |].
      + left. exists ((k, v) :: ps). reflexivity.
      + right. exists (S m). cbn. lia. }
  now apply (H (length args)).
Qed.

Lemma three_forms args :
  (exists ps, args = written ps) \/ (exists f, args = [f]) \/ (exists n, length args = 2 * n + 1 /\ n <> 0).
Proof.
  destruct (forms args) as [H|(n & H)]; [now left|]. destruct n as [|n].
  - right. left. destruct args as [|f [|g args]]; cbn in H; try lia. now exists f.
  - right. right. exists (S n). split; [exact H|lia].
Qed.
