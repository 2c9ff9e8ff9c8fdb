(** Vocabulary for child orders. *)

From Coq Require Import List NArith Bool.
From Verif Require Import PyStr.
Import ListNotations.

(** The names of [m] that are names of [l] stand in [m] in the order of [l]. *)
Definition in_the_order_of (l m : list pystr) : Prop := filter (fun x => str_in x l) m = l.
Definition same_names (l m : list pystr) : Prop := forall x, In x l <-> In x m.
