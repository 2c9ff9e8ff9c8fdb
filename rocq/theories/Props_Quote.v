(** C90: wrapping a text in quotes. *)

From Coq Require Import String List NArith ZArith Bool Arith Lia.
From Verif Require Import PyStr PyStrFacts Dict PyVal Quote.
Import ListNotations.

(** How Python reads a text literal, as far as it needs no escapes: None for
    anything else. *)
Definition BACKSLASH : N := 92%N.
Definition is_quote (c : N) : bool := N.eqb c SINGLE || N.eqb c DOUBLE.
(** Up to the closing quote, which must be the last thing there is. *)
Fixpoint read_short (q : N) (t : pystr) : option pystr :=
  match t with
  | [] => None
  | c :: t =>
      if N.eqb c q then match t with [] => Some [] | _ => None end
      else if N.eqb c BACKSLASH || N.eqb c 10 || N.eqb c 13 then None
      else option_map (cons c) (read_short q t)
  end.
Definition closes (q : N) (t : pystr) : bool := match t with a :: b :: c :: _ => N.eqb a q && N.eqb b q && N.eqb c q | _ => false end.
Fixpoint read_long (q : N) (t : pystr) : option pystr :=
  if closes q t then match t with [_; _; _] => Some [] | _ => None end
  else match t with
       | [] => None
       | c :: t => if N.eqb c BACKSLASH || N.eqb c 13 then None else option_map (cons c) (read_long q t)
       end.
Definition read (t : pystr) : option pystr :=
  match t with
  | [] => None
  | q :: rest => if is_quote q then if closes q t then read_long q (skipn 2 rest) else read_short q rest else None
  end.
Example read_sample : read (lit "'a b'") = Some (lit "a b") /\ read (lit "'a'b'") = None /\ read (lit "'a") = None /\ read (lit "''") = Some [] /\
  read (lit "'''it's'''") = Some (lit "it's") /\ read (lit "''''''") = Some [] /\ read (lit "'''a''") = None /\ read (lit "x") = None.
Proof. repeat split; reflexivity. Qed.

(** The quotes by number. *)
Inductive kind : Z -> N -> bool -> Prop :=
| kind0 : kind 0 SINGLE false | kind1 : kind 1 DOUBLE false | kind2 : kind 2 SINGLE true | kind3 : kind 3 DOUBLE true.
(** The texts that can be wrapped: on one line without the quote, or without
    three quotes in a row and not ending in one; without backslashes. *)
Definition plain (q : N) (long : bool) (s : pystr) : Prop :=
  ~ In BACKSLASH s /\ ~ In 13%N s /\
  if long then (forall a b, s <> a ++ [q; q; q] ++ b) /\ (forall a, s <> a ++ [q]) else ~ In 10%N s /\ ~ In q s.

Lemma short_reads q s : ~ In BACKSLASH s -> ~ In 13%N s -> ~ In 10%N s -> ~ In q s -> read_short q (s ++ [q]) = Some s.
Proof.
  induction s as [|c s IH]; intros B R L Q; cbn [app read_short].
  - now rewrite N.eqb_refl.
  - assert (N.eqb c q = false) as -> by (apply N.eqb_neq; intros ->; apply Q; now left).
    assert (N.eqb c BACKSLASH = false) as -> by (apply N.eqb_neq; intros ->; apply B; now left).
    assert (N.eqb c 10 = false) as -> by (apply N.eqb_neq; intros ->; apply L; now left).
    assert (N.eqb c 13 = false) as -> by (apply N.eqb_neq; intros ->; apply R; now left).
    cbn [orb]. rewrite IH; [reflexivity|intros H; apply B; now right|intros H; apply R; now right|intros H; apply L; now right|intros H; apply Q; now right].
Qed.
Lemma not_closing q c s : (forall a b, c :: s <> a ++ [q; q; q] ++ b) -> (forall a, c :: s <> a ++ [q]) -> closes q ((c :: s) ++ [q; q; q]) = false.
Proof.
  intros T E. destruct (closes q ((c :: s) ++ [q; q; q])) eqn:C; [exfalso|reflexivity]. destruct s as [|d [|e s]]; cbn [app closes] in C; repeat rewrite andb_true_iff in C.
  - destruct C as [[C _] _]. apply N.eqb_eq in C. subst c. now apply (E []).
  - destruct C as [[C D] _]. apply N.eqb_eq in C, D. subst c d. now apply (E [q]).
  - destruct C as [[C D] F]. apply N.eqb_eq in C, D, F. subst c d e. now apply (T [] s).
Qed.
Lemma long_reads q s : ~ In BACKSLASH s -> ~ In 13%N s -> (forall a b, s <> a ++ [q; q; q] ++ b) -> (forall a, s <> a ++ [q]) -> read_long q (s ++ [q; q; q]) = Some s.
Proof.
  induction s as [|c s IH]; intros B R T E.
  - cbn [app read_long closes]. now rewrite N.eqb_refl.
  - pose proof (not_closing q c s T E) as C. change ((c :: s) ++ [q; q; q]) with (c :: (s ++ [q; q; q])) in *. cbn [read_long]. rewrite C.
    assert (N.eqb c BACKSLASH = false) as -> by (apply N.eqb_neq; intros ->; apply B; now left).
    assert (N.eqb c 13 = false) as -> by (apply N.eqb_neq; intros ->; apply R; now left).
    cbn [orb]. rewrite IH; [reflexivity| | | |].
    + intros H. apply B. now right.
    + intros H. apply R. now right.
    + intros a b ->. now apply (T (c :: a) b).
    + intros a ->. now apply (E (c :: a)).
Qed.

(** Python reads a wrapped text as the text itself. *)
Theorem C90_reads_back : forall i q long s, kind i q long -> plain q long s -> exists t, w s (QInt i) = Ok t /\ read t = Some s.
Proof.
  assert (Sh : forall q s, is_quote q = true -> plain q false s -> read ([q] ++ s ++ [q]) = Some s).
  { intros q s Q (B & R & L & N). cbn [app read]. rewrite Q.
    assert (closes q (q :: s ++ [q]) = false) as ->; [|now apply short_reads].
    destruct s as [|c s]; [reflexivity|]. cbn [app closes]. assert (N.eqb c q = false) as Ec by (apply N.eqb_neq; intros ->; apply N; now left). destruct (s ++ [q]); [reflexivity|]. now rewrite Ec, andb_false_r. }
  assert (Lo : forall q s, is_quote q = true -> plain q true s -> read ([q; q; q] ++ s ++ [q; q; q]) = Some s).
  { intros q s Q (B & R & T & E). cbn [app read closes skipn]. rewrite Q, N.eqb_refl. cbn [andb]. now apply long_reads. }
  intros i q long s K P. destruct K; eexists; (split; [reflexivity|]); [now apply Sh|now apply Sh|now apply Lo|now apply Lo].
Qed.
Print Assumptions C90_reads_back.
Example C90_sample : kind 0 SINGLE false /\ plain SINGLE false (lit "say ""hi""") /\ w (lit "say ""hi""") (QInt 0) = Ok (lit "'say ""hi""'") /\
  plain SINGLE true (lit "it's") /\ w (lit "it's") (QInt 2) = Ok (lit "'''it's'''").
Proof.
  split; [constructor|]. split; [repeat split; vm_compute; intuition discriminate|]. split; [reflexivity|]. split; [|reflexivity].
  split; [vm_compute; intuition discriminate|]. split; [vm_compute; intuition discriminate|]. split.
  - intros [|a0 [|a1 [|a2 [|a3 a]]]] b H; try discriminate. apply (f_equal (@length N)) in H. cbn in H. rewrite app_length in H. cbn in H. lia.
  - intros a H. apply (f_equal (@rev N)) in H. rewrite rev_app_distr in H. discriminate.
Qed.

Lemma short_no_quote q : forall t r, read_short q t = Some r -> ~ In q r.
Proof.
  induction t as [|c t IH]; intros r H; [discriminate|]. cbn [read_short] in H. destruct (N.eqb c q) eqn:E; [destruct t; [injection H as <-; intros []|discriminate]|].
  destruct (_ || _); [discriminate|]. destruct (read_short q t) as [r'|] eqn:R; [|discriminate]. injection H as <-. intros [->|I]; [now rewrite N.eqb_refl in E|now apply (IH r')].
Qed.
(** A text with the quote in it is wrapped all the same, and then is not a
    literal of that text: neither quotes nor backslashes are escaped. *)
Theorem C90_quote_inside_refuted : forall i q s, kind i q false -> In q s -> exists t, w s (QInt i) = Ok t /\ (closes q t = false -> read t <> Some s) /\ t = [q] ++ s ++ [q].
Proof.
  assert (Sh : forall q s, is_quote q = true -> In q s -> closes q ([q] ++ s ++ [q]) = false -> read ([q] ++ s ++ [q]) <> Some s).
  { intros q s Q I C. cbn [app read] in *. rewrite Q, C. intros H. now apply (short_no_quote q (s ++ [q]) s). }
  intros i q s K I. inversion K; subst; eexists; (split; [reflexivity|]); (split; [now apply Sh|reflexivity]).
Qed.
Print Assumptions C90_quote_inside_refuted.
Example C90_inside_sample : In SINGLE (lit "it's") /\ closes SINGLE (lit "'it's'") = false /\ w (lit "it's") (QInt 0) = Ok (lit "'it's'") /\ read (lit "'it's'") = None.
Proof. split; [right; right; now left|]. repeat split; reflexivity. Qed.

(** The documented numbers are 1 to 4, and 1 is the default; but they are counted
    from 0: 1 gives the double quote, and 4 an error. *)
Theorem C90_documented_refuted : forall s, w s (QInt 1) = Ok ([DOUBLE] ++ s ++ [DOUBLE]) /\ w s (QInt 2) = Ok ([SINGLE; SINGLE; SINGLE] ++ s ++ [SINGLE; SINGLE; SINGLE]) /\ w s (QInt 4) = Raise IndexError.
Proof. intros s. repeat split; reflexivity. Qed.
Print Assumptions C90_documented_refuted.

(** The numbers accepted. *)
Theorem C90_numbers : forall s i, (exists t, w s (QInt i) = Ok t) <-> (-4 <= i <= 3)%Z.
Proof.
  intros s i. split.
  - intros (t & H). unfold w, quote_type in H. cbn [length quote_types] in H. destruct (i <? 0)%Z eqn:E; [apply Z.ltb_lt in E|apply Z.ltb_ge in E].
    + destruct (Z.of_nat 4 + i <? 0)%Z eqn:F; [discriminate|]. apply Z.ltb_ge in F. lia.
    + destruct (Z_lt_le_dec 3 i) as [G|G]; [|lia]. destruct (i <? 0)%Z; [discriminate|]. assert (nth_error quote_types (Z.to_nat i) = None) as X by (apply nth_error_None; cbn [length quote_types]; lia). rewrite X in H. discriminate.
  - intros H. assert (G : (i = -4 \/ i = -3 \/ i = -2 \/ i = -1 \/ i = 0 \/ i = 1 \/ i = 2 \/ i = 3)%Z) by lia. destruct G as [->|[->|[->|[->|[->|[->|[->| ->]]]]]]]; eexists; reflexivity.
Qed.
Print Assumptions C90_numbers.
