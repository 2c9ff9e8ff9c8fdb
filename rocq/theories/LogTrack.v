(** Model of keeping track of log files: track_log_file (nxt/nxt_log.py 101-148).

    Simplifications: time stands still during a call and nobody else changes the
    disk during it; ages are whole seconds; the list of logs is read without
    translating carriage returns; a file that cannot be opened for writing keeps
    its content; nothing is said about what is logged. *)

From Coq Require Import String List NArith ZArith Bool.
From Verif Require Import PyStr Dict PyVal.
Import ListNotations.

Definition NEWLINE : N := 10%N.

(** What the disk says about a path: a file whose age is known, a file whose
    time cannot be read, something else that exists, nothing. *)
Inductive entry := File (age : Z) | Unreadable | Other | Missing.
Definition disk := pystr -> entry.

Section Track.
(** White space as str.rstrip sees it, and whether os.remove succeeds. *)
Variables (space : N -> bool) (can_remove : pystr -> bool).

(** str.rstrip *)
Fixpoint rstrip (s : pystr) : pystr :=
  match s with
  | [] => []
  | c :: t => match rstrip t with
              | [] => if space c then [] else [c]
              | t' => c :: t'
              end
  end.

(** nxt_log.py 112-115: readlines, each line without trailing white space. *)
Fixpoint lines_of (pieces : list pystr) : list pystr :=
  match pieces with
  | [] => []
  | [last] => match last with [] => [] | _ => [last] end
  | l :: t => l :: lines_of t
  end.
Definition read_logs (meta : option pystr) : list pystr :=
  match meta with
  | None => []
  | Some text => map rstrip (lines_of (split NEWLINE text))
  end.

(** nxt_log.py 109 *)
Definition remove_age : Z := (60 * 60 * 48)%Z.

Definition is_file (e : entry) : bool := match e with File _ | Unreadable => true | _ => false end.
(** nxt_log.py 122-133; [None] is infinite.  A path that is no file is never
    compared, so its age does not matter. *)
Definition age_of (e : entry) : option Z :=
  match e with File a => Some a | Unreadable | Other => Some 0%Z | Missing => None end.
Definition too_old (e : entry) : bool :=
  match age_of e with Some a => Z.ltb remove_age a | None => true end.

(** list.remove *)
Fixpoint remove_first (x : pystr) (l : list pystr) : list pystr :=
  match l with
  | [] => []
  | y :: t => if str_eqb y x then t else y :: remove_first x t
  end.
Definition erase (p : pystr) (d : disk) : disk := fun q => if str_eqb q p then Missing else d q.

(** nxt_log.py 120-142: one turn of the loop. *)
Definition check (acc : disk * list pystr) (log_path : pystr) : disk * list pystr :=
  let '(d, existing_logs) := acc in
  let e := d log_path in
  if is_file e && too_old e then
    (if can_remove log_path then erase log_path d else d, existing_logs)
  else if negb (is_file e) || too_old e then (d, remove_first log_path existing_logs)
  else (d, existing_logs).

(** nxt_log.py 101-148; [writable]: the list of logs can be opened for writing. *)
Definition track (writable : bool) (path : pystr) (d : disk) (meta : option pystr) : disk * option pystr :=
  let existing_logs := read_logs meta in
  let '(d, existing_logs) := fold_left check existing_logs (d, existing_logs) in
  let existing_logs := existing_logs ++ [path] in
  (d, if writable then Some (concat (map (fun l => l ++ [NEWLINE]) existing_logs)) else meta).
End Track.
