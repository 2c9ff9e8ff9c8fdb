(** Model of the questions for a composed node's attribute names
    (nxt/stage.py 1626-1674 and 3688-3722, nxt/nxt_layer.py 1115-1143). *)

From Coq Require Import String List NArith ZArith Bool Arith.
From Verif Require Import PyStr NxtPath Dict Layer PyVal NodeIO LayerIO PyClass Comp Opinions.
Import ListNotations.

Section Names.
(** nxt_node.py 42: what Python puts on every class. *)
Variable builtins : list pystr.

(** The loop that all four functions end in (for one: stage.py 1628-1635): names
    already listed, names in [bad] and names with the meta suffix are skipped. *)
Definition add_names (bad names acc : list pystr) : list pystr :=
  fold_left (fun acc a => if str_in a acc then acc else if str_in a bad then acc
                          else if endswith META_SUFFIX a then acc else acc ++ [a]) names acc.

(** nxt_layer.py 1129-1143.  [layers] are the active ones, as tables of nodes by
    path. *)
Definition local_names (layers : list (dict node)) (p : pystr) : list pystr :=
  fold_left (fun acc t => match dget p t with
                          | Some n => add_names (PROTECTED builtins) (dkeys n) acc
                          | None => acc
                          end) layers [].

(** dir(comp node at p), unsorted and with repetitions; what Node and object have
    is in PROTECTED and left out. *)
Definition own_keys (H : heap) (r : ref) : list pystr :=
  match r with
  | Sp i => match nth_error (specs H) i with Some n => dkeys n | None => [] end
  | Co p => match dget p (comps H) with Some c => dkeys (own c) | None => [] end
  end.
Definition dir (H : heap) (p : pystr) : list pystr :=
  match mro_of H (Co p) with Some l => flat_map (own_keys H) l | None => [] end.

(** stage.py 1626-1636. *)
Definition get_node_attr_names (H : heap) (p : pystr) : list pystr := add_names (PROTECTED builtins) (dir H p) [].

(** getattr(node, PARENT_PATH), which composed nodes have as a string. *)
Definition parent_path (H : heap) (p : pystr) : pystr :=
  match get H (Co p) PARENT_PATH with VStr q => q | _ => [] end.
(** stage.py 1659-1665: the node instanced, if it is there. *)
Definition instance_of (H : heap) (p : pystr) : option pystr :=
  match get H (Co p) INSTANCE_PATH with
  | VStr q => if negb (is_empty q) && here H q then Some q else None
  | _ => None
  end.
(** stage.py 3698-3704: the parent, else the first of its ancestors that is there.
    [None] stands for no result within the fuel. *)
Fixpoint climb (H : heap) (fuel : nat) (q : pystr) : option (option pystr) :=
  match fuel with
  | O => None
  | S f => if here H q then Some (Some q)
           else if str_eqb q WORLD then Some None
           else climb H f (get_parent_path q)
  end.

(** stage.py 3688-3720, given the instanced names (3708). *)
Definition inherited_with (layers : list (dict node)) (H : heap) (p : pystr) (inst : list pystr) : option (list pystr) :=
  match climb H (S (S (length (parent_path H p)))) (parent_path H p) with
  | None => None
  | Some None => Some []
  | Some (Some q) => Some (add_names (PROTECTED builtins ++ inst ++ local_names layers p) (dir H q) [])
  end.
(** stage.py 1638-1674; the call at 1651 and the one at 1653 ask for the same
    instanced names of the parent. *)
Fixpoint instanced (layers : list (dict node)) (H : heap) (fuel : nat) (p : pystr) : option (list pystr) :=
  match fuel with
  | O => None
  | S f =>
      let pp := parent_path H p in
      match (if here H pp
             then match instanced layers H f pp with
                  | None => None
                  | Some p_inst =>
                      match inherited_with layers H pp p_inst with
                      | None => None
                      | Some p_inherits =>
                          let inherited := local_names layers pp ++ p_inherits in
                          Some (filter (fun a => negb (str_in a inherited)) p_inst, inherited)
                      end
                  end
             else Some ([], [])) with
      | None => None
      | Some (attrs, inherited) =>
          match instance_of H p with
          | None => Some attrs
          | Some q => Some (add_names (PROTECTED builtins ++ inherited ++ local_names layers p) (dir H q) attrs)
          end
      end
  end.
(** The recursion goes up the parent paths, so the length of the path is enough
    fuel. *)
Definition get_node_instanced_attr_names (layers : list (dict node)) (H : heap) (p : pystr) : option (list pystr) :=
  instanced layers H (S (S (length p))) p.
(** stage.py 3688-3722. *)
Definition get_node_inherited_attr_names (layers : list (dict node)) (H : heap) (p : pystr) : option (list pystr) :=
  match get_node_instanced_attr_names layers H p with
  | None => None
  | Some inst => inherited_with layers H p inst
  end.
End Names.
