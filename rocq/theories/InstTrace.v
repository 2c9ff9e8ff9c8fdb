(** Model of the two functions that follow instances: get_instance_sources
    (nxt/stage.py 3456-3473) and get_instance_targets (3475-3487).

    A composed layer is the list of its nodes below the world, as [descendants]
    gives them, each with its path and what it has as instance path.  Nodes are
    compared by their paths, and for the spec of a target (3484) the path of the
    target is kept.  The recursion limit of Python is the end of the fuel: None is
    a RecursionError. *)

From Coq Require Import String List NArith Bool.
From Verif Require Import PyStr.
Import ListNotations.

Definition node : Type := pystr * option pystr.

(** CompLayer.lookup, below the world. *)
Definition lookup (nodes : list node) (p : pystr) : option node := find (fun n => str_eqb (fst n) p) nodes.
Definition mem (p : pystr) (l : list pystr) : bool := existsb (str_eqb p) l.

(** stage.py 3465-3473 *)
Fixpoint get_instance_sources (fuel : nat) (nodes : list node) (n : node) (trace_list : list pystr) : option (list pystr) :=
  match fuel with
  | 0 => None
  | S f =>
      match snd n with
      | None => Some trace_list
      | Some inst_path =>
          match lookup nodes inst_path with
          | Some m => if mem (fst m) trace_list then Some trace_list else get_instance_sources f nodes m (trace_list ++ [fst m])
          | None => Some trace_list
          end
      end
  end.

(** stage.py 3476-3487; the list passed along only grows at its end. *)
Fixpoint get_instance_targets (fuel : nat) (nodes : list node) (inst_source_path : pystr) (target_list : list pystr) : option (list pystr) :=
  match fuel with
  | 0 => None
  | S f =>
      (fix each (l : list node) (target_list : list pystr) : option (list pystr) :=
         match l with
         | [] => Some target_list
         | (p, Some i) :: t =>
             if str_eqb i inst_source_path
             then match get_instance_targets f nodes p (target_list ++ [p]) with Some r => each t r | None => None end
             else each t target_list
         | (_, None) :: t => each t target_list
         end) nodes target_list
  end.
