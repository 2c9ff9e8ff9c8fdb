(** Model of asking a layer for the ancestors of a node: SpecLayer.ancestors
    (nxt/nxt_layer.py 216-265), SpecLayer.get_exec_in (203-211) and
    Stage.get_top_node (nxt/stage.py 3681-3686).  A node object is represented by
    its path, as in Layer.v; an object that is in no layer is a path that is not
    in the table.  The return type PathDict, for which None is returned, is not
    modelled. *)

From Coq Require Import String List NArith ZArith Bool.
From Verif Require Import PyStr NxtPath Dict ListMerger Layer.
Import ListNotations.

(** nxt_layer.py 235-253: the loop.  It starts at the node with the name [name]
    and the parent path [parent]; a step gives the name of the node below and
    the ancestor's path.  [None]: the loop does not end within the fuel. *)
Fixpoint climb (fuel : nat) (d : dict cnode) (name parent : pystr) : option (list (pystr * pystr)) :=
  match fuel with
  | O => None
  | S f =>
      if str_eqb parent WORLD then Some []
      else match dget parent d with
           | None => climb f d name (get_parent_path parent)
           | Some n => option_map (cons (name, parent)) (climb f d (n_name n) (n_parent n))
           end
  end.
(** nxt_layer.py 240-241: the first ancestor found answers. *)
Fixpoint climb_any (fuel : nat) (d : dict cnode) (parent : pystr) : option bool :=
  match fuel with
  | O => None
  | S f =>
      if str_eqb parent WORLD then Some false
      else match dget parent d with
           | None => climb_any f d (get_parent_path parent)
           | Some _ => Some true
           end
  end.

(** nxt_layer.py 216-265.  Line 234 raises for a node that is not there. *)
Definition ancestors (fuel : nat) (L : layer) (node_path : pystr) (rt : rtype) (include_implied : bool) : answer :=
  if include_implied then
    if rtype_eqb rt RPath then AList (all_ancestor_paths node_path) else AErr TypeError
  else
    match dget node_path (nodes L) with
    | None => AErr AttributeError
    | Some n =>
        match rt with
        | RBool => match climb_any fuel (nodes L) (n_parent n) with Some b => ABool b | None => AErr Endless end
        | _ =>
            match climb fuel (nodes L) (n_name n) (n_parent n) with
            | None => AErr Endless
            | Some found =>
                match rt with
                | RDict => ADict (fold_left (fun d kn => dset (fst kn) (snd kn) d) found [])
                | _ => AList (map snd found)
                end
            end
        end
    end.

(** stage.py 3681-3686; the outer [None] is an exception or no end. *)
Definition get_top_node (fuel : nat) (L : layer) (node_path : pystr) : option (option pystr) :=
  match ancestors fuel L node_path RNode false with
  | AList l => Some (hd_error l)
  | _ => None
  end.

(** nxt_layer.py 203-211; [None]: line 205 raises. *)
Definition get_exec_in (L : layer) (node_path : pystr) : option (option pystr) :=
  match dget node_path (nodes L) with
  | None => None
  | Some n => Some (if str_eqb (n_parent n) WORLD then n_exec_in n else None)
  end.
