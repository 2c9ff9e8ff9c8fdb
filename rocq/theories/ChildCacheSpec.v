(** Which histories of a layer keep its child caches right. *)

From Coq Require Import String List NArith ZArith Bool.
From Verif Require Import PyStr Dict PathSpec Layer LayerSpec ChildCache.
Import ListNotations.

(** The same layer, as if it had never been asked anything. *)
Definition cold (L : layer) : layer :=
  {| nodes := nodes L; kids := []; implied := [] |}.

(** String comparison that never takes equal strings for different. *)
Definition by_value (a b : pystr) : bool := true.

(** A comp layer gains a node at a path it does not have; it loses a node that
    has no children left. *)
Definition comp_allowed (d : dict cnode) (o : comp_op) : Prop :=
  match o with
  | CAdd path n => placed path n /\ ~ In path (dkeys d)
  | CRemove path => In path (dkeys d) /\ path <> abs_path [] /\ real d path = []
  | CAsk _ _ _ | CBelow _ _ _ => True
  end.

(** A spec layer gains (or replaces) a node whose parent it has (the world
    need not be there); it loses a node that comes after its parent in the
    table. *)
Definition spec_allowed (d : dict cnode) (o : spec_op) : Prop :=
  match o with
  | SPut path n => placed path n /\
      (n_parent n = [] \/ n_parent n = abs_path [] \/ In (n_parent n) (dkeys d))
  | SDrop path => exists a n b, d = a ++ (path, n) :: b /\
      (n_parent n = [] \/ n_parent n = abs_path [] \/ In (n_parent n) (dkeys a))
  | SAsk _ _ _ _ | SBelow _ _ _ _ => True
  end.

(** Every step of the history is allowed where it happens. *)
Fixpoint comp_history (same same_name : pystr -> pystr -> bool) (L : layer)
         (ops : list comp_op) : Prop :=
  match ops with
  | [] => True
  | o :: t => comp_allowed (nodes L) o /\
              comp_history same same_name (comp_step same same_name L o) t
  end.
Fixpoint spec_history (same same_name : pystr -> pystr -> bool) (L : layer)
         (ops : list spec_op) : Prop :=
  match ops with
  | [] => True
  | o :: t => spec_allowed (nodes L) o /\
              spec_history same same_name (spec_step same same_name L o) t
  end.
