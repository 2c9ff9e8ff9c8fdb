(** Model of the check for diverging instances before a node is rolled back to
    the layers below: Stage._check_if_inst_diverges (nxt/stage.py 2150-2192). *)

From Coq Require Import String List NArith ZArith Bool Arith.
From Verif Require Runtime.
From Verif Require Import PyStr NxtPath Dict Resolve Layer LayerOver PyVal NodeIO PyClass Comp.
Import ListNotations.

(** layer.lookup(p). *)
Definition lookup_row (p : pystr) (table : list (list pystr * node)) : option node :=
  option_map snd (List.find (fun r => str_eqb (node_namespace_to_str_path (fst r)) p) table).

(** stage.py 2163-2170: the entry for one ancestor, None when there is none.
    (A node that is not there has no such attribute.) *)
Definition current_instance (H : heap) (ap : pystr) : pyval :=
  let v := attr H ap INSTANCE_PATH in if truthy v then v else VNone.

(** stage.py 2174-2191: one ancestor in one layer. *)
Definition differs_in (H : heap) (ap : pystr) (table : list (list pystr * node)) : bool :=
  match lookup_row ap table with
  | None => false
  | Some ancestor =>
      let ancestor_inst_path := attr_or_none ancestor INSTANCE_PATH in
      let comp_inst_path := current_instance H ap in
      let has_op := has_opinion comp_inst_path && has_opinion ancestor_inst_path in
      negb (Runtime.py_eqb comp_inst_path ancestor_inst_path) && has_op
  end.

(** stage.py 2150-2192; [active] the node tables of the active layers. *)
Definition check_if_inst_diverges (H : heap) (active : list (list (list pystr * node))) (path : pystr) : bool :=
  let ancestor_paths := all_ancestor_paths path ++ [WORLD] in
  existsb (fun ap => existsb (differs_in H ap) active) (rev ancestor_paths).
