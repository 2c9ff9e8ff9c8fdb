(** Model of deleting from one layer a node that other layers have too:
    Stage.delete_node with a comp layer (nxt/stage.py 790-955) for one node
    without descendants in its layer, the branch 895-909.  Nodes that are also
    children of an instance (883-887 and 935-947) are not modelled, nor are child
    caches, positions and collapse data (C28 has those of the layer).  DelNode.v
    has the branch for a node of one layer. *)

From Coq Require Import String List NArith ZArith Bool Arith.
From Verif Require Import PyStr NxtPath Dict ListMerger SortRows Layer PyVal NodeIO PyClass NodeEdit Comp Live LiveOrder Arcs AddNode DelNode.
Import ListNotations.

(** stage.py 895: the bases without the spec node number [i]. *)
Definition without (i : nat) (bases : list ref) : list ref := filter (fun b => negb (ref_eqb b (Sp i))) bases.
(** stage.py 897-903; the parent gives no names.  get_node_child_order is at
    3652-3658. *)
Definition merged_orders (H : heap) (p : pystr) (bases : list ref) : list pystr :=
  fold_left (fun acc b => match get_arc H p b with
                          | Some Parent => acc
                          | _ => merged (as_strs (ref_attr H b CHILD_ORDER)) acc
                          end) bases [].
(** stage.py 895-908; _replace_base_classes is at 3372-3381, and the composed
    node has a base left. *)
Definition drop_layer (H : heap) (i : nat) (p : pystr) : res heap :=
  let bases := without i (bases_in (comps H) (Co p)) in
  let old := order_of H p in
  let new := merged_orders H p bases in
  bind (set_bases H p bases) (fun H =>
  if list_eqb old new then Ok H
  else let '(H, r) := propagate (set_order H p new) old new (dirties H p) in
       bind r (fun _ => Ok H)).

(** stage.py 790-955 for the path [p]: [i] is the number of the deleted spec
    node, [real] the real path of its layer, [home] the spec node of its parent
    in that layer.  The answer has the dirty nodes; [None]: a case that is not
    modelled. *)
Definition delete_opinion (H : heap) (home : option nat) (i : nat) (real p : pystr) : option (res (heap * list pystr)) :=
  let H := name_out_of_layer H home (name_of H p) in
  if negb (here H p) then Some (Raise AttributeError)
  else
    let kept := negb (truthy (attr H p PROXY)) && has_kid_named H (inst_of H (get_parent_path p)) (name_of H p) in
    match other_specs H real (bases_in (comps H) (Co p)), kept with
    | _ :: _, false =>
        Some (bind (drop_layer H i p) (fun H' =>
          Ok (update_inherited [Reference; Parent; Instance] H' p, dirties H p ++ [p])))
    | _, _ => None
    end.
