(** Model of opening and naming graph files, nxt/nxt_io.py 36-149.

    The disk and the path expansion are parameters: [full_expand] is
    nxt_path.full_file_expand, [expanders] the registered plugin expanders in
    order, [isfile] os.path.isfile and [read] json.load of the file (its
    byteify hook is the identity on JSON values in Python 3). *)

From Coq Require Import String List NArith ZArith Bool.
From Verif Require Import PyStr Dict PyVal Legacy.
Import ListNotations.

(** [os.path.splitext] and [os.path.basename] for '/' separated paths. *)
Definition base_name (p : pystr) : pystr := let '(_, _, b) := rpartition (lit "/") p in b.
Fixpoint only_dots (s : pystr) : bool :=
  match s with [] => true | c :: t => N.eqb c DOT && only_dots t end.
Definition splitext (p : pystr) : pystr * pystr :=
  let b := base_name p in
  match rpartition_opt [DOT] b with
  | Some (stem, ext) =>
      if only_dots stem then (p, [])
      else (firstn (length p - length ext - 1) p, DOT :: ext)
  | None => (p, [])
  end.

(** constants.py 71-74 FILE_FORMAT. *)
Definition ASCII_EXT := lit ".nxt".
Definition BINARY_EXT := lit ".nxtb".
Definition known_ext (e : pystr) : bool := str_in e [ASCII_EXT; BINARY_EXT].

(** What the version of a file leads to (nxt_io.py 80-104). *)
Inductive verdict := Refuse (e : exn) | AsIs | Convert.

(** nxt_io.py 80-104.  A version that is not a string has no [split]; a list
    has a [count]. *)
Definition version_gate (file_data : dict pyval) : verdict :=
  let file_version := dget_def (lit "version") VNone file_data in
  let file_version := if truthy file_version then file_version else VStr (lit "1.17") in
  match file_version with
  | VStr s =>
      if Nat.eqb (count_char DOT s) 0 then Refuse IOError
      else match two_ints s with
           | Raise e => Refuse e
           | Ok (major, minor) =>
               if Z.ltb GRAPH_MAJOR major || (Z.eqb major GRAPH_MAJOR && Z.ltb GRAPH_MINOR minor)
               then Refuse IOError
               else if Z.eqb major 0 || Z.ltb minor GRAPH_MINOR then Convert else AsIs
           end
  | VList l | VTuple l =>
      if existsb (fun v => match v with VStr s => str_eqb s (lit ".") | _ => false end) l
      then Refuse AttributeError else Refuse IOError
  | _ => Refuse AttributeError
  end.

(** nxt_io.py 108-111. *)
Definition stamp (filepath real_path : pystr) (d : dict pyval) : dict pyval :=
  let d := dset (lit "filepath") (VStr filepath) d in
  let d := dset (lit "real_path") (VStr real_path) d in
  let name_from_file := fst (splitext (base_name filepath)) in
  dset (lit "name") (dget_def (lit "name") (VStr name_from_file) d) d.

Section Load.
Variable full_expand : pystr -> pystr.
Variable expanders : list (pystr -> pystr).
Variable isfile : pystr -> bool.
Variable read : pystr -> res (dict pyval).

(** nxt_io.py 62-68. *)
Definition find_real_path (filepath : pystr) : pystr :=
  match find isfile (map (fun e => e filepath) expanders) with
  | Some found_path => found_path
  | None => full_expand filepath
  end.

(** nxt_io.py 53-112; [None] is a conversion still running after [fuel]
    steps. *)
Definition load_file_data (fuel : nat) (filepath : pystr) : option (res (dict pyval)) :=
  let real_path := find_real_path filepath in
  if negb (known_ext (snd (splitext real_path))) then Some (Raise IOError) else
  match read real_path with
  | Raise e => Some (Raise e)
  | Ok file_data =>
      match version_gate file_data with
      | Refuse e => Some (Raise e)
      | AsIs => Some (Ok (stamp filepath real_path file_data))
      | Convert =>
          match convert_file fuel file_data with
          | None => None
          | Some (Raise e) => Some (Raise e)
          | Some (Ok d) => Some (Ok (stamp filepath real_path d))
          end
      end
  end.

End Load.

(** nxt_io.py 115-149, given a file path: the path written to.  ([filepath]
    None fails in splitext; os.sep is '/'.) *)
Definition save_path (filepath : pystr) : res pystr :=
  let ext := snd (splitext filepath) in
  if known_ext ext
  then Ok (if endswith ext filepath then filepath else filepath ++ ext)
  else Raise TypeError.
