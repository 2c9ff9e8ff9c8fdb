(** Model of how a layer is built from file data and turned back into it:
    nxt/nxt_layer.py 99-186, 692-696, 820-926, 1115-1143 and 1165-1179, and the
    layer side of nxt/nxt_node.py 149-158.

    A layer's fields are values here; where Python shares one dict between the
    layer's [positions] (etc.) and [_input_metadata], [l_input_meta] is what
    the shared dict holds when the layer is saved. *)

From Coq Require Import String List NArith ZArith Bool.
From Verif Require Import PyStr NxtPath Dict PyVal ListMerger NodeIO NodeIOSpec.
Import ListNotations.

(** nxt_layer.py 99-145: the fields that file data reaches.  [l_nodes] is the
    path table; spec_list holds the same nodes in the same order. *)
Record layer := {
  l_alias : pyval;
  l_color : pyval;
  l_mute : pyval;
  l_solo : pyval;
  l_lock : pyval;
  l_filepath : pyval;
  l_real_path : pyval;
  l_refs : list pystr;
  l_overrides : dict pyval;
  l_positions : dict pyval;
  l_collapse : dict pyval;
  l_aliases : dict pyval;
  l_colors : dict pyval;
  l_locks : dict pyval;
  l_input_meta : dict pyval;
  l_nodes : dict node }.

(** nxt_layer.py 30-53, constants.py UNTITLED, version.json GRAPH. *)
Definition K_VERSION := lit "version".
Definition K_ALIAS := lit "alias".
Definition K_MUTE := lit "mute".
Definition K_SOLO := lit "solo".
Definition K_REFERENCES := lit "references".
Definition K_OVERRIDES := lit "comp_overrides".
Definition K_COLOR := lit "color".
Definition K_META := lit "meta_data".
Definition K_NODES := lit "nodes".
Definition K_FILEPATH := lit "filepath".
Definition K_REAL_PATH := lit "real_path".
Definition K_LOCK := lit "lock".
Definition K_POSITIONS := lit "positions".
Definition K_COLLAPSE := lit "collapse".
Definition K_COLORS := lit "colors".
Definition K_ALIASES := lit "aliases".
Definition K_LOCKS := lit "locks".
Definition UNTITLED := lit "untitled".
Definition VERSION_STR := lit "1.17".

(** *** Loading *)

(** nxt_node.py 149-158: a new node's name is put in its parent's child
    order. *)
Definition add_to_parent (tbl : dict node) (parent_path node_name : pystr) (n : node)
  : res (dict node) :=
  match dget parent_path tbl with
  | None => Ok tbl
  | Some parent =>
      let proxies := truthy (attr_or_none n PROXY) || truthy (attr_or_none parent PROXY) in
      match dget CHILD_ORDER parent with
      | Some (VList co) =>
          match strings co with
          | Some co =>
              if negb (str_in node_name co) && negb proxies then
                match list_merger co [node_name] with
                | Some new_co => Ok (dset parent_path (dset CHILD_ORDER (VStrs new_co) parent) tbl)
                | None => Raise IndexError
                end
              else Ok tbl
          | None => Raise TypeError
          end
      | Some _ => Raise TypeError
      | None => Raise AttributeError
      end
  end.

(** nxt_layer.py 161-175: one node of the file. *)
Definition load_node (real_path : pyval) (tbl : dict node) (kv : pystr * pyval)
  : res (dict node) :=
  let '(node_path, node_data) := kv in
  match node_data with
  | VDict data =>
      let parent_path := get_parent_path node_path in
      let root_name := node_name_from_node_path node_path in
      let data := dset (lit "name") (VStr root_name) data in
      let data := dset SOURCE_LAYER real_path data in
      bind (create_node data real_path parent_path false) (fun n =>
      bind (add_to_parent tbl parent_path root_name n) (fun tbl =>
      match dget PARENT_PATH n with
      | Some (VStr pp) => Ok (dset (join_node_paths pp root_name) n tbl)
      | _ => Raise TypeError
      end))
  | _ => Raise TypeError
  end.

(** nxt_layer.py 156-175; order_nodes_dict (1165-1179) sorts by path. *)
Definition construct_node_specs (real_path : pyval) (nodes : dict pyval) : res (dict node) :=
  fold_res (load_node real_path) (sort_items nodes) [].

(** [d.get(k, {})] and [d.get(k, [])] where a dict, and a list of strings, is
    expected. *)
Definition get_dict (k : pystr) (d : dict pyval) : res (dict pyval) :=
  match dget k d with
  | None => Ok []
  | Some (VDict v) => Ok v
  | Some _ => Raise TypeError
  end.
Definition get_strs (k : pystr) (d : dict pyval) : res (list pystr) :=
  match dget k d with
  | None => Ok []
  | Some (VList l) => match strings l with Some l => Ok l | None => Raise TypeError end
  | Some _ => Raise TypeError
  end.
Definition get_or (k : pystr) (dflt : pyval) (d : dict pyval) : pyval :=
  match dget k d with Some v => v | None => dflt end.

(** [os.path.basename] for '/' separated paths. *)
Definition basename (s : pystr) : pystr := let '(_, _, b) := rpartition NODE_SEP s in b.

(** nxt_layer.py 1115-1143 for one active layer. *)
Definition local_attr_names (builtins : list pystr) (n : node) : list pystr :=
  fold_left (fun acc a => if str_in a acc then acc
                          else if str_in a (PROTECTED builtins) then acc
                          else if endswith META_SUFFIX a then acc
                          else acc ++ [a]) (dkeys n) [].

(** nxt_layer.py 177-183; [active] says whether get_active_layers keeps this
    layer. *)
Definition refresh_node (builtins : list pystr) (real_path : pyval) (active : bool)
           (kv : pystr * node) : pystr * node :=
  let '(path, n) := kv in
  (path, fold_left (fun n a => dset (a ++ META_SOURCE) (VTuple [real_path; VStr path]) n)
                   (if active then local_attr_names builtins n else []) n).

(** nxt_layer.py 99-145 and 177-183.  The current directory, the parent layer
    and the caches are not part of this model. *)
Definition load_layer (builtins : list pystr) (active : bool) (data : dict pyval) : res layer :=
  let filepath := get_or K_FILEPATH VNone data in
  let real_path := get_or K_REAL_PATH VNone data in
  let file_name := match filepath with
                   | VStr s => if truthy filepath then basename s else UNTITLED
                   | _ => UNTITLED
                   end in
  bind (get_dict K_OVERRIDES data) (fun overrides =>
  bind (get_strs K_REFERENCES data) (fun refs =>
  bind (get_dict K_META data) (fun meta =>
  bind (get_dict K_POSITIONS meta) (fun positions =>
  bind (get_dict K_COLLAPSE meta) (fun collapse =>
  bind (get_dict K_ALIASES meta) (fun aliases =>
  bind (get_dict K_COLORS meta) (fun colors =>
  bind (get_dict K_LOCKS meta) (fun locks =>
  bind (get_dict K_NODES data) (fun nodes =>
  bind (construct_node_specs real_path nodes) (fun tbl =>
  Ok {| l_alias := get_or K_ALIAS (VStr file_name) data;
        l_color := get_or K_COLOR VNone data;
        l_mute := VBool false;
        l_solo := VBool false;
        l_lock := get_or K_LOCK (VBool false) data;
        l_filepath := filepath;
        l_real_path := real_path;
        l_refs := filter (fun r => negb (is_empty r)) refs;
        l_overrides := overrides;
        l_positions := positions;
        l_collapse := collapse;
        l_aliases := aliases;
        l_colors := colors;
        l_locks := locks;
        l_input_meta := meta;
        l_nodes := map (refresh_node builtins real_path active) tbl |})))))))))).

(** *** Saving *)

(** nxt_layer.py 846-865. *)
Definition put_if {V} (k : pystr) (v : dict V) (w : pyval) (d : dict pyval) : dict pyval :=
  match v with [] => d | _ => dset k w d end.
Definition get_meta_data (L : layer) : dict pyval :=
  let positions := sort_items (l_positions L) in
  let collapsed := sort_items (l_collapse L) in
  let aliases := sort_items (l_aliases L) in
  let colors := sort_items (l_colors L) in
  let locks := sort_items (l_locks L) in
  let m := l_input_meta L in
  let m := put_if K_ALIASES aliases (VDict aliases) m in
  let m := put_if K_COLORS colors (VDict colors) m in
  let m := put_if K_LOCKS locks (VDict locks) m in
  let m := put_if K_POSITIONS positions (VDict positions) m in
  put_if K_COLLAPSE collapsed (VDict collapsed) m.

(** nxt_layer.py 917-926; 867-869. *)
Definition get_nodes_save_data (builtins : list pystr) (L : layer) : dict pyval :=
  sort_items (fold_left (fun acc kv => dset (fst kv) (VDict (get_node_as_dict builtins (snd kv))) acc)
                        (l_nodes L) []).

(** [v in ((), [], {})] (nxt_layer.py 885). *)
Definition empty_container (v : pyval) : bool :=
  match v with VTuple [] | VList [] | VDict [] => true | _ => false end.

(** nxt_layer.py 892-915. *)
Definition keys_order : list pystr :=
  [K_VERSION; K_ALIAS; K_COLOR; K_MUTE; K_SOLO; K_REFERENCES; K_OVERRIDES; K_META; K_NODES;
   K_REAL_PATH].
Definition order_save_dict (d : dict pyval) : dict pyval :=
  let '(result, leftovers) :=
    fold_left (fun (acc : dict pyval * list pystr) key =>
                 let '(result, data_keys) := acc in
                 if str_in key data_keys then
                   match dget key d with
                   | Some v => (dset key v result, remove_first key data_keys)
                   | None => acc
                   end
                 else acc) keys_order ([], dkeys d) in
  fold_left (fun result key => match dget key d with Some v => dset key v result | None => result end)
            leftovers result.

(** nxt_layer.py 871-890. *)
Definition get_save_data (builtins : list pystr) (L : layer) : dict pyval :=
  let save_dict :=
    [ (K_VERSION, VStr VERSION_STR);
      (K_ALIAS, l_alias L);
      (K_MUTE, l_mute L);
      (K_SOLO, l_solo L);
      (K_REFERENCES, VStrs (l_refs L));
      (K_OVERRIDES, VDict (sort_items (l_overrides L)));
      (K_COLOR, l_color L);
      (K_META, VDict (get_meta_data L));
      (K_NODES, VDict (get_nodes_save_data builtins L)) ] in
  order_save_dict (filter (fun kv => negb (empty_container (snd kv))) save_dict).

(** nxt_layer.py 820-839 save: what is written to the file, [None] when the
    data cannot be written and nothing is; [graph_name] is the file's name
    without folder and extension.  The layer's alias is set even when nothing
    is written. *)
Definition save_layer (builtins : list pystr) (graph_name : pystr) (L : layer)
  : layer * option (dict pyval) :=
  let untitled := match l_alias L with VStr a => str_eqb a UNTITLED | _ => false end in
  let L := if untitled
           then {| l_alias := VStr graph_name; l_color := l_color L; l_mute := l_mute L;
                   l_solo := l_solo L; l_lock := l_lock L; l_filepath := l_filepath L;
                   l_real_path := l_real_path L; l_refs := l_refs L; l_overrides := l_overrides L;
                   l_positions := l_positions L; l_collapse := l_collapse L;
                   l_aliases := l_aliases L; l_colors := l_colors L; l_locks := l_locks L;
                   l_input_meta := l_input_meta L; l_nodes := l_nodes L |}
           else L in
  let data := get_save_data builtins L in
  (L, if json_ok (VDict data) then Some data else None).

(** A layer whose every value went through JSON (tuples became lists). *)
Definition layer_json (L : layer) : layer :=
  {| l_alias := json_norm (l_alias L); l_color := json_norm (l_color L); l_mute := json_norm (l_mute L);
     l_solo := json_norm (l_solo L); l_lock := json_norm (l_lock L); l_filepath := l_filepath L;
     l_real_path := l_real_path L; l_refs := l_refs L; l_overrides := through_json (l_overrides L);
     l_positions := through_json (l_positions L); l_collapse := through_json (l_collapse L);
     l_aliases := through_json (l_aliases L); l_colors := through_json (l_colors L);
     l_locks := through_json (l_locks L); l_input_meta := through_json (l_input_meta L);
     l_nodes := map (fun kv => (fst kv, through_json (snd kv))) (l_nodes L) |}.
