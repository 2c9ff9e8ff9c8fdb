(** Specification vocabulary for names. *)

From Coq Require Import String List NArith Bool.
From Verif Require Import PyStr PathSpec.
Import ListNotations.

(** A legal name: letters, digits and underscores only (the word characters),
    at least one, the first of them not a digit. *)
Definition legal (digit word : N -> bool) (s : pystr) : Prop :=
  exists c t, s = c :: t /\ digit c = false /\ Forall (fun x => word x = true) s.

(** The legal form of a non-empty wanted name: an underscore goes before a
    leading digit and replaces every other character. *)
Definition legal_form (digit word : N -> bool) (s : pystr) : pystr :=
  (match s with c :: _ => if digit c then lit "_" else [] | [] => [] end) ++
  map (fun c => if word c then c else 95%N) s.

(** The name asked for, made legal; "node" when none is given and "__name__1"
    instead of "__name__".  For attributes "attr" when none is given. *)
Definition preferred (digit word : N -> bool) (name : option pystr) : pystr :=
  match name with
  | None => lit "node"
  | Some s => let l := legal_form digit word s in
              if str_eqb l (lit "__name__") then lit "__name__1" else l
  end.
Definition preferred_attr (digit word : N -> bool) (name : option pystr) : pystr :=
  match name with None => lit "attr" | Some s => legal_form digit word s end.

(** [s] is the decimal writing of [n]: digits without a leading zero (except
    "0" itself) whose value is [n]. *)
Definition digit_value (c : N) : nat := N.to_nat (c - 48).
Definition numeral (s : pystr) (n : nat) : Prop :=
  Forall (fun c => (48 <= c <= 57)%N) s /\ s <> [] /\
  (s = [48%N] \/ hd 0%N s <> 48%N) /\
  n = fold_left (fun a c => 10 * a + digit_value c) s 0.

(** [nm] is [stem] followed by the first number after [start] that makes it
    free. *)
Definition first_free (free : pystr -> Prop) (stem : pystr) (start : nat) (nm : pystr) : Prop :=
  exists k d, start < k /\ numeral d k /\ nm = stem ++ d /\ free nm /\
    forall j e, start < j < k -> numeral e j -> ~ free (stem ++ e).
