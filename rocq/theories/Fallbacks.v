(** Model of the file tokens of the plugin nxt/plugins/file_fallbacks.py
    (lines 18-284): file::, filelist:: and path:: with fallbacks through the
    layers and the directories of NXT_FILE_ROOTS.

    What the plugin reads from the outside is a record.  A node with the
    opinions of lower layers only (Stage.infer_lower_comp, nxt/stage.py
    2004-2147, given the active layers) is a parameter.  Logging is left out.
    Only the plugin's own tokens are registered. *)

From Coq Require Import String List NArith Bool.
From Verif Require Import PyStr Dict NxtPath Tokens PyVal Resolve LayerOver.
Import ListNotations.

(** A layer of the stage: get_cwd() (nxt/nxt_layer.py 147-154), get_muted() and
    get_soloed(). *)
Record sub_layer := { sl_dir : pystr; sl_muted : bool; sl_soloed : bool }.

Record files (node : Type) := {
  sub_layers : list sub_layer;                              (* stage._sub_layers *)
  env_roots : option pystr;                                 (* os.environ.get('NXT_FILE_ROOTS') *)
  path_sep : N;                                             (* os.pathsep *)
  on_disk : pystr -> bool;                                  (* os.path.exists *)
  expand_at : pystr -> pystr -> res pystr;                  (* nxt_path.full_file_expand(path, start=start), C60 *)
  node_at : pystr -> option node;                           (* comp_layer.lookup *)
  where_is : node -> pystr;                                 (* nxt_node.get_node_path, nxt_node.py 310-316 *)
  value_at : node -> pystr -> option pyval;                 (* getattr(node, name); [None]: no such attribute *)
  lower_comp : list sub_layer -> node -> option node;       (* infer_lower_comp(node, comp_layer, active_layers, depth) for depth > 0 *)
  set_order : list pystr -> list pystr                      (* list(set(l)) *)
}.
Arguments sub_layers {node}.
Arguments env_roots {node}.
Arguments path_sep {node}.
Arguments on_disk {node}.
Arguments expand_at {node}.
Arguments node_at {node}.
Arguments where_is {node}.
Arguments value_at {node}.
Arguments lower_comp {node}.
Arguments set_order {node}.

(** file_fallbacks.py 19-24 *)
Definition FILE_LIST_PREFIX : pystr := lit "filelist::".
Definition INVALID_PATH : pystr := lit "<invalid>".

(** stage.py 1842-1858 determine_token_type with the three tokens of this plugin
    (file_fallbacks.py 259-263, 283-284), as far as lines 210-216 tell types
    apart. *)
Inductive kind := KFile | KRef | KOther.
Definition kind_of (content : pystr) : kind :=
  if is_empty content then KOther
  else if startswith FILE_PREFIX content then KFile
  else if startswith FILE_LIST_PREFIX content || startswith FILEPATH_PREFIX content || startswith CONTENTS_PREFIX content
          || str_eqb content PATH_PREFIX || str_eqb content COLOR_PREFIX then KOther
  else KRef.

Section Fallbacks.
Context {node : Type}.
Variable w : files node.

(** file_fallbacks.py 227-234 iter_env_roots, with only_exsiting. *)
Definition iter_env_roots : list pystr :=
  match env_roots w with
  | None => []
  | Some s => filter (on_disk w) (split (path_sep w) s)
  end.

(** file_fallbacks.py 237-253 file_root_fallback. *)
Fixpoint try_roots (filepath : pystr) (roots : list pystr) : res (option pystr) :=
  match roots with
  | [] => Ok None
  | root :: rest =>
      bind (expand_at w filepath root) (fun full_path =>
      if on_disk w full_path then Ok (Some full_path) else try_roots filepath rest)
  end.
Definition file_root_fallback (filepath layer_dir : pystr) : res pystr :=
  bind (try_roots filepath iter_env_roots) (fun found =>
  match found with
  | Some full_path => Ok full_path
  | None =>
      if negb (is_empty layer_dir) && on_disk w layer_dir
      then bind (expand_at w filepath layer_dir) (fun full_path => Ok (if on_disk w full_path then full_path else []))
      else Ok []
  end).

(** nxt/stage.py 2036-2037 and 2040: the node itself at depth 0; otherwise the
    path of None fails. *)
Definition infer (active : list sub_layer) (depth : nat) (n : option node) : res (option node) :=
  match depth, n with
  | O, _ => Ok n
  | S _, None => Raise AttributeError
  | S _, Some m => Ok (lower_comp w active m)
  end.

Section Depth.
Variables (active : list sub_layer) (depth : nat).
(** file_fallbacks.py 150-151 *)
Definition layer_dir : pystr := match active with l :: _ => sl_dir l | [] => [] end.

(** file_fallbacks.py 133-167 historical_resolve_file_ref; [attrs] is
    historical_resolve_attr_ref. *)
Definition file_ref (attrs : option node -> pystr -> option (res pystr)) (prefix : pystr) (n : option node) (value : pystr)
  : option (res pystr) :=
  match get_standalone_tokens value [prefix] with
  | [] => if is_empty value then Some (Ok value) else Some (file_root_fallback value layer_dir)
  | all_tokens =>
      fold_out (fun resolved full_token =>
          let '(_, _, raw) := partition prefix (get_token_content full_token) in
          obind (attrs n raw) (fun resolved_token =>
          let resolved_token := if is_empty resolved_token && negb (is_empty raw) then INVALID_PATH else resolved_token in
          obind (Some (file_root_fallback resolved_token layer_dir)) (fun resolved_fp =>
          Some (Ok (replace full_token resolved_fp resolved)))))
        all_tokens value
  end.

(** file_fallbacks.py 188-201: the node and the attribute a reference names. *)
Definition source (m : node) (attr_ref : pystr) : option node * pystr :=
  let '(attr_name, source_path) :=
    match path_attr_partition attr_ref with
    | (p, Some a) => if negb (is_empty p) && negb (is_empty a) then (a, p) else (attr_ref, where_is w m)
    | (_, None) => (attr_ref, where_is w m)
    end in
  (match (if is_empty source_path then Some source_path else expand_relative_node_path source_path (where_is w m)) with
   | Some q => node_at w q
   | None => None
   end, attr_name).

(** file_fallbacks.py 206: getattr(node, name, None) or ''. *)
Definition read (n : option node) (attr_name : pystr) : pyval :=
  match n with
  | Some m => match value_at w m attr_name with
              | Some v => if truthy v then v else VStr []
              | None => VStr []
              end
  | None => VStr []
  end.

(** file_fallbacks.py 207-221; the value is a string. *)
Definition deeper (rec : option node -> pystr -> option (res pystr)) (n : option node) (value : pystr) : option (res pystr) :=
  fold_out (fun value token_content =>
      match kind_of (get_token_content token_content) with
      | KRef => rec n value
      | KFile => file_ref rec FILE_PREFIX n token_content
      | KOther => Some (Ok value)
      end)
    (get_standalone_tokens value [ATTR_PREFIX; FILE_PREFIX]) value.

(** file_fallbacks.py 170-224 historical_resolve_attr_ref.  get_tokens_from
    gives all innermost tokens, in the order of a set: it compares whole tokens,
    not their contents (C44).  A value that is no string makes str.replace raise
    TypeError (223). *)
Definition attr_step (rec : option node -> pystr -> option (res pystr)) (n : option node) (string : pystr) : option (res pystr) :=
  match get_atomic_tokens_fuel (S (length string)) string with
  | None => None           (* unreachable, C12_terminates *)
  | Some toks =>
      fold_out (fun resolved_token attr_token =>
          match n with
          | None => Some (Raise AttributeError)
          | Some m =>
              let attr_ref := get_token_content attr_token in
              let '(source_node, attr_name) := source m attr_ref in
              obind (Some (infer active depth source_node)) (fun historical_node =>
              match read historical_node attr_name with
              | VStr value =>
                  obind (deeper rec n value) (fun value =>
                  Some (Ok (replace (make_token_str attr_ref) value resolved_token)))
              | _ => Some (Raise TypeError)
              end)
          end)
        (set_order w toks) string
  end.
Fixpoint attr_refs (fuel : nat) (n : option node) (string : pystr) : option (res pystr) :=
  match fuel with
  | O => None
  | S f => attr_step (attr_refs f) n string
  end.
End Depth.

(** A Python slice of a list. *)
Definition between {A} (i j : nat) (l : list A) : list A := firstn (j - i) (skipn i l).

(** file_fallbacks.py 115-127: what one depth gives; [Ok None]: no active layers. *)
Definition at_depth (fuel last : nat) (prefix : pystr) (n : node) (value : pystr) (depth : nat) : option (res (option pystr)) :=
  let active_layers := get_active_layers sl_muted sl_soloed (between depth last (sub_layers w)) in
  match active_layers with
  | [] => Some (Ok None)
  | _ => obind (Some (infer active_layers depth (Some n))) (fun historical_node =>
         omap Some (file_ref active_layers (attr_refs active_layers depth fuel) prefix historical_node value))
  end.

(** file_fallbacks.py 111-130 generate_historical_values, up to the first value
    (103-106). *)
Fixpoint first_value (one : nat -> option (res (option pystr))) (depths : list nat) : option (res pystr) :=
  match depths with
  | [] => Some (Ok [])
  | d :: rest =>
      obind (one d) (fun resolved =>
      match resolved with
      | Some (c :: r) => Some (Ok (c :: r))
      | _ => first_value one rest
      end)
  end.
(** The same, all values. *)
Fixpoint all_values (one : nat -> option (res (option pystr))) (seen : list pystr) (depths : list nat) : option (res (list pystr)) :=
  match depths with
  | [] => Some (Ok seen)
  | d :: rest =>
      obind (one d) (fun resolved =>
      match resolved with
      | Some (c :: r) => all_values one (if str_in (c :: r) seen then seen else seen ++ [c :: r]) rest
      | _ => all_values one seen rest
      end)
  end.

(** file_fallbacks.py 35-60 and 85-108: the token file::, with the layer range
    of the comp layer; [cleaned] is the text after the prefix. *)
Definition resolve_filepath_token (fuel first last : nat) (n : node) (cleaned : pystr) : option (res pystr) :=
  first_value (at_depth fuel last FILE_PREFIX n (make_token_str (FILE_PREFIX ++ cleaned))) (seq first (last - first)).
(** file_fallbacks.py 63-82: the token filelist::, without as_string. *)
Definition resolve_filelist_token (fuel first last : nat) (n : node) (cleaned : pystr) : option (res (list pystr)) :=
  all_values (at_depth fuel last FILE_LIST_PREFIX n (make_token_str (FILE_LIST_PREFIX ++ cleaned))) [] (seq first (last - first)).

(** file_fallbacks.py 270-280: the token path::; [value] is the resolved text,
    [layer_cwd] the comp layer's directory, [cwd] the current one. *)
Definition resolve_path_token (layer_cwd cwd value : pystr) : res pystr :=
  expand_at w value
    (match iter_env_roots with
     | root :: _ => root
     | [] => if on_disk w layer_cwd then layer_cwd else cwd
     end).
End Fallbacks.
