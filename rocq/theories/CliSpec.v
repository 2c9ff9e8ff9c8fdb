(** What the command line parameters mean, independent of the parser. *)

From Coq Require Import String List NArith Bool Arith.
From Verif Require Import PyStr Dict PyVal.
Import ListNotations.

(** The arguments written as key value key value ... *)
Definition written (ps : list (pystr * pystr)) : list pystr := concat (map (fun p => [fst p; snd p]) ps).

(** The last pair for a key counts. *)
Definition last_given (ps : list (pystr * pystr)) (k v : pystr) : Prop :=
  exists before after, ps = before ++ (k, v) :: after /\ ~ In k (map fst after).

(** A key names an attribute of a node by its full path. *)
Definition is_key (k : pystr) : Prop := exists rest, k = lit "/" ++ rest.

Definition holds_exactly (d : dict pyval) (ps : list (pystr * pystr)) : Prop :=
  NoDup (dkeys d) /\ forall k w, dget k d = Some w <-> exists v, w = VStr v /\ last_given ps k v.
