(** What the ancestors of a node are. *)

From Coq Require Import String List NArith Bool.
From Verif Require Import PyStr Dict PathSpec Layer LayerSpec.
Import ListNotations.

Definition present (d : dict cnode) (ns : list pystr) : bool := dmem (abs_path ns) d.
(** The nodes above [ns] that the layer has, without the world, nearest first. *)
Definition above (d : dict cnode) (ns : list pystr) : list (list pystr) := filter (present d) (proper_ancestors ns).
Definition leaf_name (ns : list pystr) : pystr := last ns [].
(** Each node of the chain beginning at [ns] with the one after it. *)
Definition steps (d : dict cnode) (ns : list pystr) : list (list pystr * list pystr) := combine (ns :: above d ns) (above d ns).
