(** Model of the parameter parsing of the command line: execute (nxt/cli.py
    98-138). *)

From Coq Require Import String List NArith Bool Arith.
From Verif Require Import PyStr Dict PyVal.
Import ListNotations.

(** What the function hands to execute_graph, or how it refuses.  [BadCount] and
    [BadKey] are the two Exceptions, [NoFile] the IOError. *)
Inductive parsed :=
| Given (d : dict pyval)
| FromFile (v : pyval)
| NoFile
| Unreadable (e : exn)
| BadCount
| BadKey (k : pystr).

Section Files.
(** os.path.isfile, and json.load of an open file. *)
Variables (isfile : pystr -> bool) (load : pystr -> res pyval).

(** cli.py 126-134: takes i, i + 1; i += 2, count / 2 times. *)
Fixpoint pairs (n i : nat) (args : list pystr) (acc : dict pyval) : parsed :=
  match n with
  | 0 => Given acc
  | S n' =>
      let key := nth i args [] in
      if startswith (lit "/") key then
        pairs n' (i + 2) args (dset key (VStr (nth (i + 1) args [])) acc)
      else BadKey key
  end.

(** cli.py 112-134 *)
Definition parse_parameters (args : list pystr) : parsed :=
  let n := length args in
  if n =? 1 then
    let path := nth 0 args [] in
    if isfile path then match load path with Ok v => FromFile v | Raise e => Unreadable e end else NoFile
  else if negb (n mod 2 =? 0) then BadCount
  else pairs (n / 2) 0 args [].
End Files.
