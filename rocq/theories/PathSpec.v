(** Independent specification of node paths: a node path is the rendering of a
    list of node names.  Nothing here refers to the model of nxt_path.py. *)

From Coq Require Import String List NArith Bool Arith.
From Verif Require Import PyStr.
Import ListNotations.

Definition SLASH : N := 47%N.
Definition PERIOD : N := 46%N.

(** A path component: a non-empty string without '/'. *)
Definition component (n : pystr) : Prop := n <> [] /\ ~ In SLASH n.

(** "/a/b/c" for [a; b; c] and "" for []. *)
Fixpoint slashed (ns : list pystr) : pystr :=
  match ns with
  | [] => []
  | n :: r => SLASH :: n ++ slashed r
  end.

(** The absolute node path of a list of names: "/a/b/c", and "/" (the world)
    for the empty list. *)
Definition abs_path (ns : list pystr) : pystr :=
  match ns with
  | [] => [SLASH]
  | _ => slashed ns
  end.

(** [a] is a strict prefix of [b]. *)
Definition strict_prefix (a b : list pystr) : Prop :=
  exists r, r <> [] /\ b = a ++ r.

(** The proper ancestors of a node below the world, nearest first. *)
Definition proper_ancestors (ns : list pystr) : list (list pystr) :=
  map (fun k => firstn k ns) (rev (seq 1 (length ns - 1))).

(** Meaning of one directive of a relative path on the list of names of the
    current location. *)
Definition walk_step (cur : list pystr) (d : pystr) : list pystr :=
  if str_eqb d (lit "..") then removelast cur
  else if str_eqb d (lit ".") then cur
  else if str_eqb d [] then cur
  else cur ++ [d].

(** Meaning of a relative path. *)
Definition walk (cur : list pystr) (dirs : list pystr) : list pystr :=
  fold_left walk_step dirs cur.
