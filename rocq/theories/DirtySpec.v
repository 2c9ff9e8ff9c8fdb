(** Specification vocabulary for the dirty map. *)

From Coq Require Import List NArith Bool.
From Verif Require Import PyStr Dict DirtyMap.
Import ListNotations.

(** [depends m p c]: the map says that [c] is directly concerned by [p]. *)
Definition depends (m : dict (list pystr)) (p c : pystr) : Prop :=
  exists l, dget p m = Some l /\ In c l.

(** A history of registrations and removals. *)
Inductive dirty_op :=
| Concern (same : bool) (p c : pystr)   (* extend_dirty_map(p, c) *)
| Forget (p : pystr).                   (* remove_from_dirty_map(p) *)

(** The dependencies that should be known after a history. *)
Fixpoint known (is_world : pystr -> bool) (ops : list dirty_op)
         (a b : pystr) : Prop :=
  match ops with
  | [] => False
  | Concern same p c :: older =>
      known is_world older a b \/
      (a = p /\ b = c /\ same = false /\ is_world p = false /\ is_world c = false)
  | Forget p :: older =>
      known is_world older a b /\ (is_world p = true \/ (a <> p /\ b <> p))
  end.

(** The map after a history; the head of the list is the newest operation. *)
Fixpoint dirty_history (is_world : pystr -> bool) (ops : list dirty_op)
  : dict (list pystr) :=
  match ops with
  | [] => []
  | Concern same p c :: older =>
      extend_dirty_map is_world same p c (dirty_history is_world older)
  | Forget p :: older =>
      remove_from_dirty_map is_world p (dirty_history is_world older)
  end.

(** An identity test only holds between equal strings. *)
Definition honest (o : dirty_op) : Prop :=
  match o with
  | Concern same p c => same = true -> p = c
  | Forget _ => True
  end.
