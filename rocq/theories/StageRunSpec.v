(** What it means to execute a graph, independent of the code. *)

From Coq Require Import String List NArith ZArith Bool Arith.
From Verif Require Import PyStr Dict NxtPath PathSpec PyVal Runtime RuntimeSpec.
From Verif Require Import StageRun.
Import ListNotations.

Section Layer.
Variable node_of : pystr -> option (nat * list nat).

(** The start point flag of a node, by what its class and the classes it derives
    from say. *)
Definition start_flag (o : list (dict pyval)) (p : pystr) (b : bool) : Prop :=
  exists c mro v, node_of p = Some (c, mro) /\ attr_of o mro (lit "_start_point") = Some v /\ truthy v = b.

(** Where execution begins: at the given node, which must exist; when no path is
    given, at the first start point in the order the layer lists its nodes. *)
Definition begins (listed : list pystr) (o : list (dict pyval)) (s : start) (p : pystr) : Prop :=
  match s with
  | From q => p = q /\ node_of p <> None
  | _ => exists before after, listed = before ++ p :: after /\ start_flag o p true /\
           Forall (fun q => start_flag o q false) before
  end.
End Layer.

(** The log of setting parameters. *)
Definition assignments (evs : list event) : Prop := Forall (fun e => exists p a, e = Assign p a) evs.

(** Code that neither binds nor deletes the name. *)
Inductive spares (k : pystr) : prog -> Prop :=
| PStop r : spares k (Stop r)
| PSetGlobal x v p : x <> k -> spares k p -> spares k (SetGlobal x v p)
| PDelGlobal x p : x <> k -> spares k p -> spares k (DelGlobal x p)
| PGetGlobal x q : (forall v, spares k (q v)) -> spares k (GetGlobal x q)
| PSetAttr a v p : spares k p -> spares k (SetAttr a v p)
| PDelAttr a p : spares k p -> spares k (DelAttr a p)
| PGetAttr a q : (forall v, spares k (q v)) -> spares k (GetAttr a q)
| PExecute t ps q : (forall r, spares k (q r)) -> spares k (Execute t ps q).

(** What code that executes no other node does when it is the world's: to the
    globals and to the attributes of the world's node, where [base] is what that
    node inherits. *)
Fixpoint world_eval (base : pystr -> option pyval) (p : prog) (g : dict gval) (f : dict pyval) : dict gval * dict pyval * option raised :=
  match p with
  | Stop r => (g, f, r)
  | SetGlobal k v q => world_eval base q (dset k v g) f
  | DelGlobal k q => if dmem k g then world_eval base q (ddel k g) f else (g, f, Some (Failure KeyError))
  | GetGlobal k q => world_eval base (q (dget k g)) g f
  | SetAttr a v q => world_eval base q g (dset a v f)
  | DelAttr a q => if dmem a f then world_eval base q g (ddel a f) else (g, f, Some (Failure AttributeError))
  | GetAttr a q => world_eval base (q (match dget a f with Some v => Some v | None => base a end)) g f
  | Execute _ _ _ => (g, f, None)
  end.

(** How the end of the world's code shows outside. *)
Definition world_end (r : option raised) : ended :=
  match r with
  | None => Normal
  | Some ExitNode => Exc ExitNode
  | Some ExitGraph => Exc ExitGraph
  | Some Interrupt => Exc Interrupt
  | Some (GraphError | InvalidNode _ | Failure _) => Exc GraphError
  end.
