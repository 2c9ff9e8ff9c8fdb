(** Model of [w], which wraps a text in quotes for the code of nodes
    (nxt/stage.py 4153-4170, given to the code at 4000). *)

From Coq Require Import String List NArith ZArith Bool.
From Verif Require Import PyStr Dict PyVal.
Import ListNotations.

Definition SINGLE : N := 39%N.
Definition DOUBLE : N := 34%N.

(** The argument quote_type: a number, or anything else as its text. *)
Inductive quote := QInt (i : Z) | QText (t : pystr).

(** stage.py 4164 *)
Definition quote_types : list pystr := [[SINGLE]; [DOUBLE]; [SINGLE; SINGLE; SINGLE]; [DOUBLE; DOUBLE; DOUBLE]].

(** [quote_types[i]] *)
Definition quote_type (i : Z) : res pystr :=
  let j := if (i <? 0)%Z then (Z.of_nat (length quote_types) + i)%Z else i in
  if (j <? 0)%Z then Raise IndexError else match nth_error quote_types (Z.to_nat j) with Some q => Ok q | None => Raise IndexError end.

(** stage.py 4165-4170; [string] is the text of what is given. *)
Definition w (string : pystr) (q : quote) : res pystr :=
  bind (match q with QInt i => quote_type i | QText t => Ok t end) (fun char => Ok (char ++ string ++ char)).
