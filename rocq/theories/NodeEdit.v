(** Model of the edits of one node's attributes: Stage.add_node_attr,
    delete_node_attr, rename_node_attr, node_setattr_data, get_node_data,
    set_node_data and transfer_node_data (nxt/stage.py 1229-1280, 1363-1488,
    1676-1705, 1749-1785), get_node_local_attr_names for one layer
    (nxt/nxt_layer.py 1115-1143) and determine_nxt_type (stage.py 4145-4150).

    A spec node is the dict of its own class attributes, as in NodeIO.  The
    layer is taken to hold the node under the path it answers for it
    (SpecOpsProofs), so that looking the path up gives the node back. *)

From Coq Require Import String List NArith ZArith Bool.
From Verif Require Import PyStr NxtPath Dict PyVal NodeIO Names.
Import ListNotations.

(** What ast.literal_eval does with a text: it gives a value of a type, raises
    one of the exceptions determine_nxt_type expects (ValueError, NameError,
    SyntaxError), or raises another one. *)
Inductive literal := Literal (type_name : pystr) | NotLiteral | Breaks (e : exn).

(** Where a node lives: its layer's real_path, the layer's answer to
    get_node_path, and whether get_active_layers keeps the layer
    (nxt_layer.py 1071-1090; a single layer is kept unless it is muted). *)
Record place := { real : pyval; at_path : pystr; active : bool }.

Section Edit.
Variables uni_digit uni_word : N -> bool.
Variable builtins : list pystr.
Variable literal_eval : pystr -> literal.
(** [str(v)] of a value. *)
Variable to_str : pyval -> pystr.

(** nxt_layer.py 1115-1143 for one layer and the node it looks up.  The keys of
    a dict are distinct, so the test for repeated names never fires. *)
Definition local_names (pl : place) (n : node) : list pystr :=
  if active pl then
    filter (fun a => negb (str_in a (PROTECTED builtins)) && negb (endswith META_SUFFIX a))
           (dkeys n)
  else [].

(** stage.py 469-510 with a spec layer; [None] = out of fuel (never, C26). *)
Definition unique_attr (pl : place) (n : node) (attr : pystr) : option (res pystr) :=
  get_unique_attr_name uni_digit uni_word (local_names pl n) (PROTECTED builtins)
    (S (length (local_names pl n ++ PROTECTED builtins))) (Some attr).

Definition source_here (pl : place) : pyval := VTuple [real pl; VStr (at_path pl)].

(** stage.py 1234-1248: one entry of attr_data. *)
Definition add_sub (attr : pystr) (n : node) (kv : pystr * pyval) : node :=
  let '(sub_attr, value) := kv in
  if str_eqb sub_attr (lit "source") then n
  else if str_eqb sub_attr META_VALUE then dset attr value n
  else
    let meta_attr := lit "_" ++ sub_attr ++ META_SUFFIX in
    if str_in meta_attr META_ALL then dset (attr ++ meta_attr) value n else n.

(** stage.py 1229-1252.  The answer is the name given, or the exception; [None]
    = out of fuel. *)
Definition add_node_attr (pl : place) (n : node) (attr : pystr) (attr_data : dict pyval)
           (tracked : bool) : option (node * res pystr) :=
  match unique_attr pl n attr with
  | None => None
  | Some (Raise e) => Some (n, Raise e)
  | Some (Ok attr) =>
      let n := fold_left (add_sub attr) attr_data n in
      let n := if tracked then dset (attr ++ META_SOURCE) (source_here pl) n else n in
      Some (n, Ok attr)
  end.

(** nxt_node.py 93-98 and [object]: what [hasattr] finds beyond the node's own
    attributes. *)
Definition BASE : list pystr := [NAME; PARENT_PATH; CHILD_ORDER; PROXY; ENABLED] ++ builtins.

(** stage.py 1258-1261 and 1275-1280 go over META_ATTRS.ALL; no attribute of a
    base class ends in a meta suffix, so [hasattr] is [in __dict__] there. *)
Definition drop_metas (attr : pystr) (n : node) : node :=
  fold_left (fun n m => if dmem (attr ++ m) n then ddel (attr ++ m) n else n) META_ALL n.

(** stage.py 1254-1263.  [delattr] of an attribute the class does not own
    raises. *)
Definition delete_node_attr (n : node) (attr : pystr) : node * res bool :=
  if negb (dmem attr n || str_in attr BASE) then (n, Ok false)
  else
    let n := drop_metas attr n in
    if dmem attr n then (ddel attr n, Ok true) else (n, Raise AttributeError).

(** stage.py 1275-1280. *)
Definition move_meta (attr new : pystr) (n : node) (m : pystr) : node :=
  match dget (attr ++ m) n with
  | Some v => ddel (attr ++ m) (dset (new ++ m) v n)
  | None => n
  end.

(** stage.py 1265-1280. *)
Definition rename_node_attr (pl : place) (n : node) (attr new_attr : pystr)
  : option (node * res unit) :=
  match unique_attr pl n new_attr with
  | None => None
  | Some (Raise e) => Some (n, Raise e)
  | Some (Ok new) =>
      if str_in attr (local_names pl n) then
        let n := ddel attr (dset new (attr_or_none n attr) n) in
        Some (fold_left (move_meta attr new) META_ALL n, Ok tt)
      else Some (n, Ok tt)
  end.

(** stage.py 4145-4150; literal_eval raises ValueError for a value that is not
    a text. *)
Definition determine_nxt_type (v : pyval) : res pystr :=
  match v with
  | VStr s => match literal_eval s with
              | Literal t => Ok t
              | NotLiteral => Ok (lit "raw")
              | Breaks e => Raise e
              end
  | _ => Ok (lit "raw")
  end.

(** stage.py 1427-1437. *)
Definition clean_value (v : pyval) : pyval := match v with VStr [] => VNone | _ => v end.

(** The attributes node_setattr_data hands to other functions: the name to
    set_node_name (SpecOps), the child order, instance path, code and enabled
    state to functions that update the composed stage. *)
Definition HANDED_OVER : list pystr := [NAME; CHILD_ORDER; INSTANCE_PATH; COMPUTE; ENABLED].

(** stage.py 1426-1472 for the attributes that are not handed over: the loop
    over the keywords.  The answer is the node and the exception, if one is
    raised. *)
Fixpoint set_subs (pl : place) (attr : pystr) (create : bool) (all_values : dict pyval)
         (local : list pystr) (values : dict pyval) (n : node) : option (node * res unit) :=
  match values with
  | [] => Some (n, Ok tt)
  | (sub_attr, value) :: rest =>
      let value := clean_value value in
      let meta_attr := lit "_" ++ sub_attr ++ META_SUFFIX in
      if negb (str_eqb sub_attr META_VALUE) && negb (str_in meta_attr META_ALL)
      then set_subs pl attr create all_values local rest n
      else
        let full := if str_eqb sub_attr META_VALUE then attr else attr ++ meta_attr in
        if str_in attr (local ++ ALL_INTERNAL) then
          let n := dset full value n in
          if str_eqb sub_attr META_VALUE
             && (negb (str_in attr (PROTECTED builtins)) || str_in attr TRACKED)
          then match determine_nxt_type value with
               | Raise e => Some (n, Raise e)
               | Ok t =>
                   let n := dset (attr ++ META_TYPE) (VStr t) n in
                   let n := dset (attr ++ META_SOURCE) (source_here pl) n in
                   set_subs pl attr create all_values local rest n
               end
          else set_subs pl attr create all_values local rest n
        else if create then
          match add_node_attr pl n attr all_values true with
          | None => None
          | Some (n, Raise e) => Some (n, Raise e)
          | Some (n, Ok _) => set_subs pl attr create all_values (local ++ [attr]) rest n
          end
        else set_subs pl attr create all_values local rest n
  end.

(** stage.py 1406-1488 without a comp layer; the answer is the node and whether
    an exception was raised (the value returned is the name asked for, or None,
    and is left out).  [None] = handed over, or out of fuel. *)
Definition node_setattr_data (pl : place) (n : node) (attr : pystr) (create : bool)
           (values : dict pyval) : option (node * res unit) :=
  if str_in attr HANDED_OVER then None
  else set_subs pl attr create values (local_names pl n) values n.

(** *** Copying a node's data *)

(** [getattr(node, attr)] for an internal attribute, None when missing
    (stage.py 1755-1758); nxt_node.py 93-98 gives the base class's values. *)
Definition base_value (a : pystr) : pyval :=
  if str_eqb a NAME then VStr (lit "node")
  else if str_eqb a PARENT_PATH then VStr WORLD
  else if str_eqb a CHILD_ORDER then VList []
  else if str_eqb a PROXY then VBool false
  else if str_eqb a ENABLED then VBool true
  else VNone.
Definition internal_value (n : node) (a : pystr) : pyval :=
  match dget a n with Some v => v | None => base_value a end.

(** stage.py 1752-1765. *)
Definition get_internals (n : node) : dict pyval :=
  fold_left (fun d a =>
    if str_in a builtins then d
    else let val := internal_value n a in
         if has_opinion val || str_in a ALLOW_NO_OPINION then dset (as_save_key a) val d else d)
    (PROTECTED builtins) [].

(** stage.py 1676-1705 with resolved=False, for a user attribute. *)
Definition raw_value (n : node) (a : pystr) : pyval :=
  match dget a n with
  | None => VStr []
  | Some v => match v with VNone => VStr [] | _ => if truthy v then v else VStr (to_str v) end
  end.

(** stage.py 1619-1624 and 1774-1784: the data of one user attribute. *)
Definition attr_entry (n : node) (a : pystr) : pyval :=
  VDict [(META_VALUE, raw_value n a); (lit "comment", attr_or_none n (a ++ META_COMMENT))].

(** stage.py 1749-1785 for a spec layer and include_inherit=False.  The loop is
    over a set; here over the names in the order of the node. *)
Definition get_node_data (pl : place) (n : node) : dict pyval :=
  dset (lit "attributes")
       (VDict (fold_left (fun d a => dset a (attr_entry n a) d) (local_names pl n) []))
       (get_internals n).

(** stage.py 1385-1401. *)
Definition set_internal (pl : place) (data : dict pyval) (tracked : bool) (n : node) (a : pystr)
  : node :=
  let val := match dget (as_save_key a) data with Some v => v | None => VNone end in
  if has_opinion val || str_in a ALLOW_NO_OPINION then
    let n := dset a val n in
    if tracked then dset (a ++ META_SOURCE) (source_here pl) n else n
  else n.

(** stage.py 1402-1404: the user attributes one by one.  A malformed entry is a
    TypeError ([**attr_data] needs a mapping). *)
Fixpoint set_users (pl : place) (attrs : dict pyval) (n : node) : option (node * res unit) :=
  match attrs with
  | [] => Some (n, Ok tt)
  | (a, VDict values) :: rest =>
      match node_setattr_data pl n a true values with
      | Some (n, Ok _) => set_users pl rest n
      | r => r
      end
  | _ => Some (n, Raise TypeError)
  end.

(** stage.py 1382-1404. *)
Definition set_node_data (pl : place) (n : node) (data : dict pyval) : option (node * res unit) :=
  let n := fold_left (set_internal pl data true) TRACKED n in
  let n := fold_left (set_internal pl data false) UNTRACKED n in
  match dget (lit "attributes") data with
  | None => Some (n, Ok tt)
  | Some (VDict attrs) => set_users pl attrs n
  | Some _ => Some (n, Raise AttributeError)
  end.

(** stage.py 1363-1380 from a node of a spec layer. *)
Definition transfer_node_data (target : place) (tn : node) (from : place) (sn : node)
  : option (node * res unit) :=
  set_node_data target tn (get_node_data from sn).

End Edit.
