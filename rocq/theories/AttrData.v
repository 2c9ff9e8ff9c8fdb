(** Model of the questions about one attribute with everything kept about it:
    Stage.get_node_attr_data, get_node_attr_source and node_attr_exists
    (nxt/stage.py 1708-1747 and 3749-3756).

    [getattr] is the attribute lookup of the node's class: that of a spec node,
    or that of a composed node (Comp.v). *)

From Coq Require Import String List NArith Bool.
From Verif Require Import PyStr Dict PyVal NodeIO.
Import ListNotations.

(** stage.py 1725-1728. *)
Definition plain_name (attr_name : pystr) : pystr :=
  match List.find (fun m => endswith m attr_name) META_ALL with
  | Some meta_attr => let '(b, _, _) := partition meta_attr attr_name in b
  | None => attr_name
  end.

(** stage.py 1740: [suffix.split('_')[1]]. *)
Definition pretty_name (suffix : pystr) : pystr :=
  match split 95%N suffix with _ :: x :: _ => x | _ => [] end.

(** stage.py 1724-1747.  The keys are in lower case already.  The logged error
    is left out. *)
Definition get_node_attr_data (getattr : pystr -> option pyval) (attr_name : pystr) : dict pyval :=
  let attr_name := plain_name attr_name in
  match getattr attr_name with
  | None => []
  | Some value =>
      let meta_attrs := [(META_VALUE, value)] in
      let meta_attrs := fold_left (fun d suffix =>
        match getattr (attr_name ++ suffix) with
        | Some v => dset (pretty_name suffix) v d
        | None => d
        end) META_ALL meta_attrs in
      sort_items meta_attrs
  end.

(** stage.py 1708-1722; unpacking anything but a pair raises. *)
Definition get_node_attr_source (getattr : pystr -> option pyval) (attr_name : pystr) : res (pyval * pyval) :=
  match getattr (attr_name ++ META_SOURCE) with
  | None => Ok (VStr [], VStr [])
  | Some (VTuple [l; p]) | Some (VList [l; p]) => Ok (l, p)
  | Some (VTuple _) | Some (VList _) => Raise ValueError
  | Some _ => Raise TypeError
  end.

(** getattr of a spec node: its own attributes, then those of its base class
    and of object (nxt_node.py 93-98). *)
Definition spec_getattr (base : pystr -> option pyval) (n : node) (a : pystr) : option pyval :=
  match dget a n with Some v => Some v | None => base a end.
