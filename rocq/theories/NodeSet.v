(** Model of setting the comment and the execute input of a layer's node, of
    reading them, and of finding the layer a composed node is from (nxt/stage.py
    1587-1606, 3719-3746, 3872-3884). *)

From Coq Require Import String List NArith Bool.
From Verif Require Import PyStr NxtPath Dict PyVal NodeIO PyClass Comp.
Import ListNotations.

(** stage.py 3742-3746 and 3881-3884: [a] is COMMENT or EXECUTE_IN; [path] is
    layer.get_node_path(node), the path the layer has the node at. *)
Definition set_with_source (a : pystr) (real_path : pyval) (path : pystr) (v : pyval) (n : node) : node :=
  dset (a ++ META_SOURCE) (VTuple [real_path; VStr path]) (dset a v n).
Definition set_node_comment (real_path : pyval) (path : pystr) (v : pyval) (n : node) : node := set_with_source COMMENT real_path path v n.
Definition set_node_exec_in (real_path : pyval) (path : pystr) (v : pyval) (n : node) : node := set_with_source EXECUTE_IN real_path path v n.

(** stage.py 3719-3733 and 3872-3877, for the composed node at [p]. *)
Definition get_or_none (H : heap) (p a : pystr) : pyval :=
  match getattr H (Co p) a with Some (_, v) => v | None => VNone end.
Definition get_node_comment (H : heap) (p : pystr) : pyval := get_or_none H p COMMENT.
Definition get_node_exec_in (H : heap) (p : pystr) : pyval := get_or_none H p EXECUTE_IN.

(** stage.py 1587-1598 lookup_layer: the first layer with the real path, by
    number; real paths are strings; the warning is left out. *)
Fixpoint lookup_layer (real_paths : list pystr) (path : pyval) : option nat :=
  match real_paths with
  | [] => None
  | r :: t => if (match path with VStr s => str_eqb r s | _ => false end) then Some 0 else option_map S (lookup_layer t path)
  end.
(** stage.py 1600-1606; every node has a source layer, so an AttributeError is
    not modelled. *)
Definition get_node_source_layer (real_paths : list pystr) (H : heap) (p : pystr) : option nat :=
  lookup_layer real_paths (get_or_none H p SOURCE_LAYER).
