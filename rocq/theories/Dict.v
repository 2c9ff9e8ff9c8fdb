(** Python dicts with string keys, in insertion order (association lists).
    The empty dict has no duplicate keys and every operation keeps it so
    ([DictFacts]).  This file models the Python runtime, not nxt itself. *)

From Coq Require Import List NArith Bool.
From Verif Require Import PyStr.
Import ListNotations.

Definition dict (V : Type) := list (pystr * V).

Section Dict.
Context {V : Type}.

(** [d.get(k)]; [None] when absent. *)
Fixpoint dget (k : pystr) (d : dict V) : option V :=
  match d with
  | [] => None
  | (k', v) :: t => if str_eqb k' k then Some v else dget k t
  end.

(** [d.get(k, default)]. *)
Definition dget_def (k : pystr) (dflt : V) (d : dict V) : V :=
  match dget k d with Some v => v | None => dflt end.

(** [k in d]. *)
Definition dmem (k : pystr) (d : dict V) : bool :=
  match dget k d with Some _ => true | None => false end.

(** [d[k] = v]: keeps the position of an existing key, appends a new one. *)
Fixpoint dset (k : pystr) (v : V) (d : dict V) : dict V :=
  match d with
  | [] => [(k, v)]
  | (k', v') :: t => if str_eqb k' k then (k', v) :: t else (k', v') :: dset k v t
  end.

(** [d.pop(k)] / [del d[k]] on a present key (no change when absent; callers
    model the KeyError). *)
Fixpoint ddel (k : pystr) (d : dict V) : dict V :=
  match d with
  | [] => []
  | (k', v') :: t => if str_eqb k' k then t else (k', v') :: ddel k t
  end.

(** [d.keys()]. *)
Definition dkeys (d : dict V) : list pystr := map fst d.

(** [d.update(e)]. *)
Definition dupdate (d e : dict V) : dict V :=
  fold_left (fun acc kv => dset (fst kv) (snd kv) acc) e d.

End Dict.
