(** Model of the edits of a child order on a composed stage:
    Stage.set_node_child_order, propagate_child_order, get_node_child_order and
    get_reverted_child_order, nxt/stage.py 3565-3640 and 3652-3680. *)

From Coq Require Import String List NArith ZArith Bool Arith.
From Verif Require Import PyStr NxtPath Dict ListMerger Layer PyVal NodeIO PyClass NodeEdit Comp Live Arcs.
Import ListNotations.

(** stage.py 3652-3658, for a spec node or a composed node. *)
Definition order_at (H : heap) (r : ref) : list pystr := as_strs (ref_attr H r CHILD_ORDER).

(** stage.py 3580-3589: the order was taken away. *)
Definition remerge (H : heap) (p : pystr) : list pystr :=
  let d := bases_arcs H p in
  let co := fold_left (fun co r => merged co (order_at H r)) (references d) [] in
  match instance_base d with
  | Some r => merged co (order_at H r)
  | None => co
  end.
(** stage.py 3578-3600: the composed node's new order.  [lower] are the child
    orders that the nodes at the path have in the target layer and the layers
    below it, muted ones too (3592-3596). *)
Definition composed_order (H : heap) (p : pystr) (old new : list pystr) (lower : list (list pystr)) : list pystr :=
  match old, new with
  | _ :: _, [] => remerge H p
  | _, _ => merged (fold_left merged lower new) (order_of H p)
  end.

(** stage.py 3624-3629: the first place of [l] where the old order is found gets
    the new one; [before] is what has been passed. *)
Fixpoint splice (old new before l : list pystr) : option (list pystr) :=
  match l with
  | [] => None
  | x :: t => if list_eqb (firstn (length old) l) old then Some (before ++ new ++ skipn (length old) l)
              else splice old new (before ++ [x]) t
  end.
(** stage.py 3618-3636: the new order of an instance.  The test of line 3630 is
    never true: updated_child_order is a copy or another list. *)
Definition updated_order (old new inst_old : list pystr) : list pystr :=
  let valid := negb (match old with [] => true | _ => false end) && negb (match inst_old with [] => true | _ => false end) in
  if forallb (fun x => str_in x inst_old) old && valid then
    match splice old new [] inst_old with Some u => u | None => new end
  else if existsb (fun x => str_in x inst_old) old then inst_old
  else inst_old ++ new.
(** stage.py 3611-3615.  The caches of the comp layer are left out, as in
    Comp.v; [None]: the node is missing. *)
Definition names_below (H : heap) (p : pystr) : option (list pystr) :=
  match fst (children same_string same_string (view H) p RPath true false) with
  | AList l => Some (map node_name_from_node_path l)
  | _ => None
  end.
(** stage.py 3607-3640. *)
Fixpoint propagate (H : heap) (old new : list pystr) (ds : list pystr) : heap * res unit :=
  match ds with
  | [] => (H, Ok tt)
  | d :: rest =>
      if here H d then
        match names_below H d with
        | Some inst_old => propagate (set_order H d (updated_order old new inst_old)) old new rest
        | None => (H, Raise AttributeError)
        end
      else (H, Raise AttributeError)
  end.

(** stage.py 3565-3605 for the spec node number [i] of the stage and a list of
    strings.  The answer is the stage and the list of dirty nodes or the
    exception; [None] = no such node. *)
Definition set_node_child_order (H : heap) (i : nat) (new : list pystr) (lower : list (list pystr))
  : option (heap * res (list pystr)) :=
  match nth_error (specs H) i with
  | None => None
  | Some n =>
      let node_path := path_of H (Sp i) in
      let old := as_strs (attr_or_none n CHILD_ORDER) in
      let H := with_spec H i (dset CHILD_ORDER (VStrs new) n) in
      if negb (here H node_path) then Some (H, Raise AttributeError)
      else
        let co := composed_order H node_path old new lower in
        let ds := dirties H node_path in
        let '(H, r) := propagate (set_order H node_path co) old co ds in
        Some (H, bind r (fun _ => Ok ds))
  end.

(** stage.py 3660-3680.  [target] is the node table of the target layer. *)
Definition reverted_order (order : list pystr) (target : layer) (p : pystr) : list pystr :=
  let kept := filter (fun nm => dmem (join_node_paths p nm) (nodes target)) order in
  match fst (children same_string same_string target p RDict false false) with
  | ADict d => fold_left (fun acc nm => if str_in nm acc then acc else acc ++ [nm]) (dkeys d) kept
  | _ => kept
  end.
