(** Model of how a spec node is built from file data and turned back into it:
    nxt/nxt_node.py 20-162 and 187-307.

    A spec node is a class whose own attributes are an ordered dict; here it is
    that dict.  The entries Python itself puts in a class dict are among the
    BUILTINS names and are left out. *)

From Coq Require Import String List NArith ZArith Bool.
From Verif Require Import PyStr NxtPath Dict PyVal ListMerger.
Import ListNotations.

Definition node := dict pyval.

(** nxt_node.py 28-39. *)
Definition CHILD_ORDER := lit "_child_order".
Definition COMMENT := lit "_comment".
Definition COMPUTE := lit "_code".
Definition ENABLED := lit "_enabled".
Definition EXECUTE_IN := lit "_execute_in".
Definition INSTANCE_PATH := lit "_instance".
Definition NODE_PATH := lit "_node_path".
Definition NAME := lit "_name".
Definition PARENT_PATH := lit "_parent_path".
Definition PROXY := lit "_proxy".
Definition SOURCE_LAYER := lit "_source_layer".
Definition START_POINT := lit "_start_point".
Definition CACHED_CODE := lit "_cached_code".

(** nxt_node.py 45-62. *)
Definition TRACKED : list pystr :=
  [COMPUTE; EXECUTE_IN; COMMENT; START_POINT; ENABLED; INSTANCE_PATH].
Definition UNTRACKED : list pystr :=
  [CHILD_ORDER; NAME; SOURCE_LAYER; PROXY; PARENT_PATH; NODE_PATH].
Definition NO_COMP : list pystr := [CACHED_CODE].
Definition ALL_INTERNAL : list pystr := TRACKED ++ UNTRACKED.
Definition SAVED : list pystr :=
  [START_POINT; INSTANCE_PATH; EXECUTE_IN; CHILD_ORDER; ENABLED; COMMENT; COMPUTE].
Definition WORLD_NODE_SAVED : list pystr := [COMMENT; COMPUTE].
Definition ALLOW_NO_OPINION : list pystr := [ENABLED].

(** nxt_node.py 62 DEFAULTS (a missing default reads as None). *)
Definition default_of (attr : pystr) : pyval :=
  if str_eqb attr COMPUTE then VList []
  else if str_eqb attr PARENT_PATH then VStr WORLD
  else VNone.

(** nxt_node.py 69-74. *)
Definition as_save_key (attr : pystr) : pystr :=
  if str_eqb attr NAME then lit "name"
  else let '(_, _, k) := partition (lit "_") attr in k.

(** nxt_node.py 77-90 META_ATTRS. *)
Definition META_SUFFIX := lit "__nxt".
Definition META_COMMENT := lit "_comment__nxt".
Definition META_TYPE := lit "_type__nxt".
Definition META_SOURCE := lit "_source__nxt".
Definition META_VALUE := lit "value".
Definition META_ALL : list pystr := [META_COMMENT; META_TYPE; META_SOURCE].
Definition meta_save_key (key : pystr) : pystr :=
  if str_eqb key META_VALUE then key
  else let '(_, _, r) := partition (lit "_") key in
       let '(k, _, _) := partition META_SUFFIX r in k.

(** nxt_layer.py 30-45: nxt_io.SAVE_KEY.ATTRS has the same value. *)
Definition K_ATTRS := lit "attrs".

(** nxt_node.py 208-209. *)
Definition has_opinion (v : pyval) : bool :=
  match v with VNone => false | VList [] => false | _ => true end.

(** [getattr(node, attr, None)] for attributes the base class does not
    define (nxt_node.py 183-184). *)
Definition attr_or_none (n : node) (a : pystr) : pyval :=
  match dget a n with Some v => v | None => VNone end.

(** *** Loading *)

(** nxt_node.py 111-121: one sub-attribute. *)
Definition load_sub (attr_name : pystr) (attrs : node) (kv : pystr * pyval) : node :=
  let '(sub_attr, value) := kv in
  if str_eqb sub_attr META_VALUE then dset attr_name value attrs
  else
    let meta_attr := lit "_" ++ sub_attr ++ META_SUFFIX in
    if str_in meta_attr META_ALL then dset (attr_name ++ meta_attr) value attrs
    else attrs.

(** nxt_node.py 108-121: one user attribute. *)
Definition load_user (src : pyval) (attrs : node) (kv : pystr * pyval) : res node :=
  let '(attr_name, data) := kv in
  let attrs := dset attr_name VNone attrs in
  let attrs := dset (attr_name ++ META_SOURCE) src attrs in
  match data with
  | VDict data => Ok (fold_left (load_sub attr_name) data attrs)
  | _ => Raise AttributeError
  end.

(** nxt_node.py 122-130: one internal attribute. *)
Definition load_internal (data : dict pyval) (attrs : node) (attr : pystr) : node :=
  let val := match dget (as_save_key attr) data with Some v => v | None => VNone end in
  let val := if negb (has_opinion val) && negb (str_in attr ALLOW_NO_OPINION)
             then default_of attr else val in
  dset attr val attrs.

(** A list of strings as a Python value, and back. *)
Definition VStrs (l : list pystr) : pyval := VList (map VStr l).
Fixpoint strings (l : list pyval) : option (list pystr) :=
  match l with
  | [] => Some []
  | VStr s :: t => option_map (cons s) (strings t)
  | _ => None
  end.

(** nxt_node.py 131-135.  Only a list of strings is modelled; anything else
    reads as an error here. *)
Definition dedup (l : list pystr) : list pystr :=
  fold_left (fun acc c => if str_in c acc then acc else acc ++ [c]) l [].
Definition load_child_order (data : dict pyval) : res (list pystr) :=
  match dget (lit "child_order") data with
  | None => Ok []
  | Some (VList l) => match strings l with Some l => Ok (dedup l) | None => Raise TypeError end
  | Some _ => Raise TypeError
  end.

(** nxt_node.py 101-148 and 159-161: the node itself; [real_path] is the
    layer's real_path (None or a string). *)
Definition create_node (data : dict pyval) (real_path : pyval) (parent_path : pystr)
           (is_proxy : bool) : res node :=
  match dget (lit "name") data with
  | Some (VStr node_name) =>
      let path := join_node_paths parent_path node_name in
      let src := VTuple [real_path; VStr path] in
      bind (match dget K_ATTRS data with
            | None => Ok []
            | Some (VDict user_attrs) => fold_res (load_user src) user_attrs []
            | Some _ => Raise AttributeError
            end) (fun attrs =>
      let attrs := fold_left (load_internal data) ALL_INTERNAL attrs in
      bind (load_child_order data) (fun child_order =>
      let attrs := dset NAME (VStr node_name) attrs in
      let attrs := dset PROXY (VBool is_proxy) attrs in
      let attrs := dset CHILD_ORDER (VStrs child_order) attrs in
      let attrs := dset SOURCE_LAYER real_path attrs in
      let pp := if is_proxy then
                  match dget (as_save_key PARENT_PATH) data with
                  | Some v => if truthy v then v else VStr parent_path
                  | None => VStr parent_path
                  end
                else VStr parent_path in
      let attrs := dset PARENT_PATH pp attrs in
      Ok (fold_left (fun n attr => dset (attr ++ META_SOURCE) src n) TRACKED attrs)))
  | Some _ => Raise TypeError
  | None => Raise KeyError
  end.

(** *** Saving *)

Section Save.
(** nxt_node.py 43: the names [dir] reports on a plain class; they depend on
    the Python version. *)
Variable builtins : list pystr.

(** nxt_node.py 56. *)
Definition PROTECTED : list pystr := builtins ++ TRACKED ++ UNTRACKED ++ NO_COMP.

(** nxt_node.py 248-249. *)
Definition is_user (key : pystr) : bool :=
  negb (str_in key PROTECTED || existsb (fun s => endswith s key) META_ALL).

(** nxt_node.py 251-269: the saved form of one user attribute. *)
Definition save_user (n : node) (key : pystr) : pyval :=
  let comment := attr_or_none n (key ++ META_COMMENT) in
  let typ := attr_or_none n (key ++ META_TYPE) in
  let value := attr_or_none n key in
  let sub := [] in
  let sub := if truthy comment then dset (meta_save_key META_COMMENT) comment sub else sub in
  let sub := if truthy typ then dset (meta_save_key META_TYPE) typ sub else sub in
  let sub := if truthy value
             then if json_ok value then dset (meta_save_key META_VALUE) value sub else sub
             else sub in
  VDict (sort_items sub).

(** nxt_node.py 247-269. *)
Definition save_users (n : node) : dict pyval :=
  fold_left (fun acc key => if is_user key then dset key (save_user n key) acc else acc)
            (dkeys n) [].

(** nxt_node.py 274-283. *)
Definition save_internal (n : node) (spec : dict pyval) (attr : pystr) : dict pyval :=
  let value := attr_or_none n attr in
  if has_opinion value then dset (as_save_key attr) value spec else spec.

(** nxt_node.py 287-307 _order_node_dict. *)
Definition remove_first (x : pystr) (l : list pystr) : list pystr :=
  match py_remove x l with Some l' => l' | None => l end.
Definition order_step (d : dict pyval) (acc : dict pyval * list pystr) (internal_attr : pystr)
  : dict pyval * list pystr :=
  let '(result, remaining) := acc in
  let result := match dget K_ATTRS d with
                | Some ua => if str_eqb internal_attr COMPUTE && truthy ua
                             then dset K_ATTRS ua result else result
                | None => result
                end in
  match dget (as_save_key internal_attr) d with
  | Some v => (dset (as_save_key internal_attr) v result,
               remove_first (as_save_key internal_attr) remaining)
  | None => (result, remaining)
  end.
Definition order_node_dict (d : dict pyval) : dict pyval :=
  let '(result, remaining) := fold_left (order_step d) SAVED ([], dkeys d) in
  fold_left (fun acc k => match dget k d with Some v => dset k v acc | None => acc end)
            remaining result.

(** nxt_node.py 239-284 get_node_as_dict. *)
Definition get_node_as_dict (n : node) : dict pyval :=
  let user_attrs := save_users n in
  let spec := match user_attrs with
              | [] => []
              | _ => [(K_ATTRS, VDict (sort_items user_attrs))]
              end in
  let save_attrs := match dget NAME n with
                    | Some (VStr nm) => if str_eqb nm WORLD then WORLD_NODE_SAVED else SAVED
                    | _ => SAVED
                    end in
  order_node_dict (fold_left (save_internal n) save_attrs spec).

End Save.
