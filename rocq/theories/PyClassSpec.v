(** What a method resolution order is, independent of the algorithm. *)

From Coq Require Import List Bool Arith.
Import ListNotations.

Section Orders.
Context {A : Type}.

(** [sub a b]: the elements of [a] stand in [b] in the same order. *)
Inductive sub : list A -> list A -> Prop :=
| sub_nil : sub [] []
| sub_skip x a b : sub a b -> sub a (x :: b)
| sub_take x a b : sub a b -> sub (x :: a) (x :: b).

(** [b] is above [c]: it is [c], or one of its bases or above one. *)
Inductive above (bases : A -> list A) : A -> A -> Prop :=
| above_self c : above bases c c
| above_base c b d : In b (bases c) -> above bases b d -> above bases c d.
End Orders.
