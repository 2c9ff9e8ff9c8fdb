(** Independent reading of a history of enter / exit events. *)

From Coq Require Import List NArith ZArith Bool Arith.
From Verif Require Import PyStr CacheTimes.
Import ListNotations.

(** Times at which [p] was entered, in order. *)
Fixpoint enters (p : pystr) (es : list event) : list Z :=
  match es with
  | [] => []
  | Enter q t :: r => if str_eqb q p then t :: enters p r else enters p r
  | Exit _ _ :: r => enters p r
  end.

(** Times of the exits of [p] that close something: an exit counts only if
    fewer exits than enters of [p] happened before it.  [open] is the number
    of runs of [p] still open. *)
Fixpoint exits_from (open : nat) (p : pystr) (es : list event) : list Z :=
  match es with
  | [] => []
  | Enter q _ :: r => exits_from (if str_eqb q p then S open else open) p r
  | Exit q t :: r =>
      if str_eqb q p then
        match open with
        | O => exits_from 0 p r
        | S o => t :: exits_from o p r
        end
      else exits_from open p r
  end.
Definition exits (p : pystr) (es : list event) : list Z := exits_from 0 p es.

(** The n-th enter is paired with the n-th exit. *)
Fixpoint pair_runs (en ex : list Z) : list (Z * option Z) :=
  match en, ex with
  | [], _ => []
  | t :: en', [] => (t, None) :: pair_runs en' []
  | t :: en', x :: ex' => (t, Some x) :: pair_runs en' ex'
  end.

(** The runs of [p], oldest first. *)
Definition runs (p : pystr) (es : list event) : list (Z * option Z) :=
  pair_runs (enters p es) (exits p es).

(** [t] lies in a run: after its start and not after its end, if it ended. *)
Definition in_run (t : Z) (r : Z * option Z) : Prop :=
  (fst r <= t)%Z /\ match snd r with None => True | Some x => (t <= x)%Z end.
