(** What a text stands for, independent of the code. *)

From Coq Require Import String List.
From Verif Require Import PyStr Dict PyVal AttrReal.
Import ListNotations.

(** A text that is a Python literal, but not a string in quotes, stands for the
    literal's value; any other text for itself. *)
Inductive stands_for (literal_eval : pystr -> reading) (t : pystr) : pyval -> Prop :=
| AsLiteral ty v : literal_eval t = Reads ty v -> ty <> lit "str" -> stands_for literal_eval t v
| AsQuoted v : literal_eval t = Reads (lit "str") v -> stands_for literal_eval t (VStr t)
| AsText : literal_eval t = NotLiteral -> stands_for literal_eval t (VStr t).

(** Python agrees with itself: "raw" is the name of no type, and eval gives a
    literal its value whatever the globals are. *)
Definition python {G} (literal_eval : pystr -> reading) (eval : G -> pystr -> res pyval) : Prop :=
  forall t ty v, literal_eval t = Reads ty v -> ty <> lit "raw" /\ forall g, eval g t = Ok v.
