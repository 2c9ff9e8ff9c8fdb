(** Small specification vocabulary for ordered name lists. *)

From Coq Require Import List NArith Bool.
From Verif Require Import PyStr.
Import ListNotations.

(** Names of [overlay] that are not in [base], in order. *)
Definition new_names (base overlay : list pystr) : list pystr :=
  filter (fun x => negb (str_in x base)) overlay.

(** [sub] is a subsequence of [l]. *)
Inductive subseq : list pystr -> list pystr -> Prop :=
| subseq_nil l : subseq [] l
| subseq_take x a l : subseq a l -> subseq (x :: a) (x :: l)
| subseq_skip x a l : subseq a l -> subseq a (x :: l).

