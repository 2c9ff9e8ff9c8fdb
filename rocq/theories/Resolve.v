(** Model of resolving tokens: get_node_attr_value, get_tokens_from,
    determine_token_type, resolve and the resolve_*_token methods,
    get_node_attr_external_sources, get_node_code_lines, get_node_code_string
    (nxt/stage.py 1676-1705, 1788-2002, 2262-2321, 2361-2383).

    What resolve reads from the outside is a record: the attributes of node
    objects, the tables of the layer it works in, str(), the file system and
    the registered plugin tokens.  Python's None in place of a node is [None].
    Logging is left out. *)

From Coq Require Import String List NArith Bool.
From Verif Require Import PyStr Dict NxtPath Tokens PyVal NodeIO.
Import ListNotations.

(** tokens.py 13-37: a registered token.  [pl_resolve] is [None] when it is not
    callable.  A plugin may use the stage; its answer is a function of the node
    and the text it gets. *)
Record plugin (node : Type) := {
  pl_prefix : pystr;
  pl_detect : pystr -> bool;
  pl_resolve : option (option node -> pystr -> res pyval)
}.
Arguments pl_prefix {node}.
Arguments pl_detect {node}.
Arguments pl_resolve {node}.

Record surroundings (node : Type) := {
  get_attr : option node -> pystr -> option pyval;  (* getattr(node, name); [None]: AttributeError *)
  path_of : option node -> option pystr;            (* layer.get_node_path, nxt_layer.py 213 *)
  find : pystr -> option node;                      (* layer.lookup, nxt_layer.py 197 *)
  to_str : pyval -> pystr;                          (* str() *)
  expand_file : pystr -> res pystr;                 (* nxt_path.full_file_expand(p, start=layer cwd) *)
  file_exists : pystr -> bool;                      (* os.path.exists *)
  file_text : pystr -> option pystr;                (* open(p).read(); [None]: IOError *)
  color_of : option node -> res pyval;              (* get_node_source_layer(node).color *)
  plugins : list (plugin node);                     (* tokens.plugin_tokens *)
  builtin_names : list pystr                        (* INTERNAL_ATTRS.BUILTINS *)
}.
Arguments get_attr {node}.
Arguments path_of {node}.
Arguments find {node}.
Arguments to_str {node}.
Arguments expand_file {node}.
Arguments file_exists {node}.
Arguments file_text {node}.
Arguments color_of {node}.
Arguments plugins {node}.
Arguments builtin_names {node}.

(** A call that may raise and may not end ([None]: not ended yet). *)
Definition obind {A B} (x : option (res A)) (f : A -> option (res B)) : option (res B) :=
  match x with
  | None => None
  | Some (Raise e) => Some (Raise e)
  | Some (Ok a) => f a
  end.
Definition omap {A B} (f : A -> B) (x : option (res A)) : option (res B) :=
  obind x (fun a => Some (Ok (f a))).
Fixpoint fold_out {A B} (f : A -> B -> option (res A)) (l : list B) (a : A) : option (res A) :=
  match l with
  | [] => Some (Ok a)
  | x :: t => obind (f a x) (fold_out f t)
  end.

Inductive toktype (node : Type) :=
| TPlugin (p : plugin node) | TFile | TFilePath | TContents | TPath | TColor | TAttr.
Arguments TPlugin {node}.
Arguments TFile {node}.
Arguments TFilePath {node}.
Arguments TContents {node}.
Arguments TPath {node}.
Arguments TColor {node}.
Arguments TAttr {node}.

Section Resolve.
Context {node : Type}.
Variable w : surroundings node.

(** The prefix field of a token, tokens.py 42-47. *)
Definition type_prefix (t : toktype node) : pystr :=
  match t with
  | TPlugin p => pl_prefix p
  | TFile => FILE_PREFIX
  | TFilePath => FILEPATH_PREFIX
  | TContents => CONTENTS_PREFIX
  | TPath => PATH_PREFIX
  | TColor => COLOR_PREFIX
  | TAttr => ATTR_PREFIX
  end.

(** stage.py 1842-1858 determine_token_type. *)
Definition determine_token_type (token_str : pystr) : option (toktype node) :=
  if is_empty token_str then None
  else match List.find (fun p => pl_detect p token_str) (plugins w) with
       | Some p => Some (TPlugin p)
       | None =>
           if startswith FILE_PREFIX token_str then Some TFile
           else if startswith FILEPATH_PREFIX token_str then Some TFilePath
           else if startswith CONTENTS_PREFIX token_str then Some TContents
           else if str_eqb token_str PATH_PREFIX then Some TPath
           else if str_eqb token_str COLOR_PREFIX then Some TColor
           else Some TAttr
       end.

(** expand_relative_node_path (nxt_path.py 108-139) where the start may be
    None: a relative path then fails on None.rpartition or None += str, or is
    None again if it only has '.' and empty steps. *)
Fixpoint expand_from_none (dirs : list pystr) : res (option pystr) :=
  match dirs with
  | [] => Ok None
  | d :: rest =>
      if str_eqb d DOTDOT then Raise AttributeError
      else if str_eqb d DOT || is_empty d then expand_from_none rest
      else Raise TypeError
  end.
Definition expand_from (rel : pystr) (start : option pystr) : res (option pystr) :=
  match start with
  | Some s => Ok (expand_relative_node_path rel s)
  | None =>
      if is_empty rel then Ok None
      else if str_eqb rel WORLD || startswith NODE_SEP rel then Ok (Some rel)
      else expand_from_none (split NODE_SEP_C rel)
  end.

Section Step.
(** [self.resolve], one level down. *)
Variable rec : option node -> pystr -> option (res pystr).

(** stage.py 1676-1705 get_node_attr_value with resolved=True. *)
Definition get_node_attr_value (n : option node) (attr_name : pystr) : option (res pyval) :=
  let attr_val := match get_attr w n attr_name with Some v => v | None => VStr [] end in
  if truthy attr_val then omap VStr (rec n (to_str w attr_val))
  else if str_in attr_name (PROTECTED (builtin_names w)) then Some (Ok attr_val)
  else match attr_val with
       | VNone => Some (Ok (VStr []))
       | _ => Some (Ok (VStr (to_str w attr_val)))
       end.

(** stage.py 1894-1937 resolve_attr_ref_token. *)
Definition resolve_attr_ref_token (n : option node) (text : pystr) : option (res pyval) :=
  obind (rec n text) (fun attr_ref =>
  let '(attr_name, source_path) :=
    match path_attr_partition attr_ref with
    | (p, Some a) =>
        if negb (is_empty p) && negb (is_empty a) then (a, Some p) else (attr_ref, path_of w n)
    | (_, None) => (attr_ref, path_of w n)
    end in
  let loose :=
    obind match get_attr w n attr_name with
          | Some v => Some (Ok v)
          | None => get_node_attr_value n attr_name
          end (fun local_val =>
    if truthy local_val then Some (Ok local_val)
    else Some (Ok (VStr (lit """${" ++ attr_ref ++ lit "}""")))) in
  match source_path with
  | Some sp =>
      if is_empty sp then loose
      else match expand_from sp (path_of w n) with
           | Raise e => Some (Raise e)
           | Ok q => get_node_attr_value (match q with Some q => find w q | None => None end) attr_name
           end
  | None => loose
  end).

(** stage.py 1939-1961 resolve_file_path_token. *)
Definition resolve_file_path_token (n : option node) (text : pystr) : option (res pystr) :=
  obind (rec n text) (fun token_str => Some (expand_file w token_str)).

(** stage.py 1963-1981 resolve_file_token. *)
Definition resolve_file_token (n : option node) (text : pystr) : option (res pystr) :=
  obind (rec n text) (fun resolved =>
  obind (resolve_file_path_token n resolved) (fun full_path =>
  Some (Ok (if file_exists w full_path then full_path else [])))).

(** stage.py 1983-2002 resolve_contents_token. *)
Definition resolve_contents_token (n : option node) (text : pystr) : option (res pystr) :=
  obind (rec n text) (fun file_path =>
  match file_text w file_path with
  | None => Some (Ok [])
  | Some contents => rec n contents
  end).

(** stage.py 1864-1888: what one token is replaced by. *)
Definition replacement (n : option node) (token : pystr) : option (res pyval) :=
  let token_content := get_token_content token in
  let token_type := determine_token_type token_content in
  let cleaned :=
    match token_type with
    | Some t => skipn (length (type_prefix t)) token_content
    | None => token_content
    end in
  match token_type with
  | Some (TPlugin p) =>
      match pl_resolve p with
      | Some f => Some (f n cleaned)
      | None => Some (Ok (VStr (lit "BADRESOLVE")))
      end
  | Some TFile => omap VStr (resolve_file_token n cleaned)
  | Some TFilePath => omap VStr (resolve_file_path_token n cleaned)
  | Some TContents => omap VStr (resolve_contents_token n cleaned)
  | Some TAttr => resolve_attr_ref_token n token_content
  | Some TPath => Some (Ok (match path_of w n with Some p => VStr p | None => VNone end))
  | Some TColor => Some (color_of w n)
  | None => Some (Ok (VStr (lit "BADRESOLVE")))
  end.

(** stage.py 1887-1891: None becomes the empty string; any other value that is
    no string makes str.replace raise TypeError. *)
Definition as_replacement (rep : pyval) : res pystr :=
  match rep with
  | VNone => Ok []
  | VStr s => Ok s
  | _ => Raise TypeError
  end.

(** stage.py 1860-1892 resolve, on a string. *)
Definition resolve_step (n : option node) (text : pystr) : option (res pystr) :=
  fold_out (fun resolved token =>
      obind (replacement n token) (fun rep =>
      obind (Some (as_replacement rep)) (fun rep =>
      Some (Ok (replace token rep resolved)))))
    (get_standalone_tokens text ALL_PREFIXES) text.
End Step.

(** The recursion of resolve, bounded by fuel. *)
Fixpoint resolve (fuel : nat) (n : option node) (text : pystr) : option (res pystr) :=
  match fuel with
  | O => None
  | S f => resolve_step (resolve f) n text
  end.

(** stage.py 1860-1861: any value goes through str() first. *)
Definition resolve_value (fuel : nat) (n : option node) (v : pyval) : option (res pystr) :=
  resolve fuel n (to_str w v).

(** The public get_node_attr_value, stage.py 1676-1705; [resolved]. *)
Definition attr_value (fuel : nat) (resolved : bool) (n : option node) (attr_name : pystr) : option (res pyval) :=
  if resolved then get_node_attr_value (resolve fuel) n attr_name
  else
    let attr_val := match get_attr w n attr_name with Some v => v | None => VStr [] end in
    if str_in attr_name (PROTECTED (builtin_names w)) then Some (Ok attr_val)
    else match attr_val with
         | VNone => Some (Ok (VStr []))
         | _ => Some (Ok (if truthy attr_val then attr_val else VStr (to_str w attr_val)))
         end.

(** stage.py 2361-2383 get_node_code_lines with the resolved state; the code
    attribute is a list of lines. *)
Definition code_lines_resolved (fuel : nat) (n : option node) (code_lines : list pystr) : option (res (list pystr)) :=
  fold_out (fun result_lines line =>
      obind (resolve fuel n line) (fun r => Some (Ok (result_lines ++ split 10%N r))))
    code_lines [].

(** stage.py 1788-1816 get_tokens_from; the type filter compares with [ty]. *)
Definition is_type (want : option (toktype node)) (got : option (toktype node)) : bool :=
  match want, got with
  | None, _ => true        (* TOKENTYPE.ALL *)
  | Some TFile, Some TFile | Some TFilePath, Some TFilePath | Some TContents, Some TContents
  | Some TPath, Some TPath | Some TColor, Some TColor | Some TAttr, Some TAttr => true
  | _, _ => false
  end.
Definition get_tokens_from (s : pystr) (ty : option (toktype node)) : option (list pystr) :=
  option_map (filter (fun t => is_type ty (determine_token_type t)))
    (get_atomic_tokens_fuel (S (length s)) s).

(** stage.py 2271-2285, 2291-2304: the attribute paths outside a node that text
    refers to. *)
Definition external_sources (n : option node) (text : pystr) : res (list (option pystr)) :=
  match get_tokens_from text (Some TAttr) with
  | None => Ok []          (* unreachable, C12_terminates *)
  | Some toks =>
      fold_res (fun out t =>
          let ref := get_token_content t in
          if negb (is_attr_path ref) then Ok out
          else bind (expand_from ref (path_of w n)) (fun e => Ok (out ++ [e])))
        toks []
  end.
End Resolve.
