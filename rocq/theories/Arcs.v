(** Model of the composition arcs: CompArc.get_arc and get_bases_arc_dict,
    nxt/stage.py 33-124. *)

From Coq Require Import String List NArith ZArith Bool Arith.
From Verif Require Import PyStr NxtPath Dict Layer PyVal NodeIO PyClass NodeEdit Comp Live.
Import ListNotations.

(** stage.py 35-37. *)
Inductive arc := Reference | Parent | Instance.
Definition arc_eqb (a b : arc) : bool :=
  match a, b with Reference, Reference | Parent, Parent | Instance, Instance => true | _, _ => false end.

(** stage.py 72-78: the path of the node to check. *)
Definition check_path (H : heap) (r : ref) : pystr :=
  let parent := str_of (ref_attr H r PARENT_PATH) in
  let name := str_of (ref_attr H r NAME) in
  if str_eqb name WORLD then WORLD
  else join_node_paths (if is_empty parent then WORLD else parent) name.
(** stage.py 59-96.  Line 91 compares the objects of two strings; where it holds
    for a base of the node, the base is the first of its instance sources, and
    line 93 holds too. *)
Definition get_arc (H : heap) (p : pystr) (r : ref) : option arc :=
  let parent_path := str_of (attr H p PARENT_PATH) in
  let inst_path := str_of (attr H p INSTANCE_PATH) in
  let comp_path := path_of H (Co p) in
  let check := check_path H r in
  if str_eqb comp_path check then Some Reference
  else if str_eqb parent_path check && is_ancestor comp_path check then Some Parent
  else if is_ancestor check inst_path || match r with Co q => str_in q (trace H p) | Sp _ => false end
  then Some Instance
  else None.

(** stage.py 98-120: the dictionary as a record; [no_arc] is what the key None
    has. *)
Record arcs := { references : list ref; parent_base : option ref; instance_base : option ref; no_arc : option ref }.
Definition bases_arcs (H : heap) (p : pystr) : arcs :=
  fold_left (fun d b =>
    match get_arc H p b with
    | Some Reference => {| references := references d ++ [b]; parent_base := parent_base d; instance_base := instance_base d; no_arc := no_arc d |}
    | Some Parent => {| references := references d; parent_base := Some b; instance_base := instance_base d; no_arc := no_arc d |}
    | Some Instance => {| references := references d; parent_base := parent_base d; instance_base := Some b; no_arc := no_arc d |}
    | None => {| references := references d; parent_base := parent_base d; instance_base := instance_base d; no_arc := Some b |}
    end) (bases_in (comps H) (Co p)) {| references := []; parent_base := None; instance_base := None; no_arc := None |}.
