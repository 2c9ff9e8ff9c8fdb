(** Model of converting a file from the command line, nxt/legacy.py 581-604
    and nxt/cli.py 141-147.

    The disk is a function from absolute file paths to what the file holds;
    [real] is [os.path.realpath(os.path.expanduser(path))], which gives an
    absolute path without a '/' at its end (except for "/" itself). *)

From Coq Require Import String List NArith ZArith Bool.
From Verif Require Import PyStr Dict PyVal Legacy FileIO.
Import ListNotations.

(** A file holds a JSON object, or something json.load or the converter's
    first access does not take. *)
Inductive content := Json (d : dict pyval) | Other.
Definition disk := pystr -> option content.

(** [open(path, 'w')] and [json.dump]: data read from JSON can always be
    written, so the file then holds exactly the data. *)
Definition put (p : pystr) (d : dict pyval) (D : disk) : disk :=
  fun q => if str_eqb q p then Some (Json d) else D q.

(** [open] and [json.load] (legacy.py 585-587; clean_json is the identity on
    JSON values in Python 3). *)
Definition read_json (D : disk) (p : pystr) : res (dict pyval) :=
  match D p with
  | None => Raise IOError
  | Some (Json d) => Ok d
  | Some Other => Raise ValueError
  end.
(** [os.path.isfile]. *)
Definition is_file (D : disk) (p : pystr) : bool := match D p with Some _ => true | None => false end.

(** legacy.py 589-597.  [os.path.join(os.path.dirname(p), name)] is [p] with
    what follows its last '/' replaced by [name]. *)
Definition out_path (replace : bool) (p : pystr) : pystr :=
  let '(out_file_name, _, ext) := rpartition [DOT] (base_name p) in
  let ending := if replace then lit "." else lit "_CONVERTED." in
  let '(out_file_dir, sep, _) := rpartition (lit "/") p in
  out_file_dir ++ sep ++ out_file_name ++ ending ++ ext.

(** legacy.py 581-601 cli_file_convert: the disk afterwards and whether an
    exception was raised; [None] is a conversion still running after [fuel]
    steps (the file is written after it, so the disk is as it was). *)
Definition cli_file_convert (fuel : nat) (real : pystr -> pystr) (D : disk) (file_path : pystr) (replace : bool)
  : option (disk * res unit) :=
  let p := real file_path in
  match read_json D p with
  | Raise e => Some (D, Raise e)
  | Ok old_file_data =>
      match convert_file fuel old_file_data with
      | None => None
      | Some (Raise e) => Some (D, Raise e)
      | Some (Ok file_data) => Some (put (out_path replace p) file_data D, Ok tt)
      end
  end.
