(** Model of environment variables in file paths and of expanding file paths
    (nxt/nxt_path.py 12-99). *)

From Coq Require Import String List NArith Bool.
From Verif Require Import PyStr Dict PyVal.
Import ListNotations.

Definition DOLLAR : N := 36.
Definition PERCENT : N := 37.

(** nxt_path.py 39-63: the two styles; linux, linux2 and darwin share one. *)
Inductive style := Dollar | Percent.
Definition style_eqb (a b : style) : bool :=
  match a, b with Dollar, Dollar | Percent, Percent => true | _, _ => false end.
Definition PLATFORMS : dict style :=
  [(lit "linux", Dollar); (lit "win32", Percent); (lit "linux2", Dollar); (lit "darwin", Dollar)].

(** [a-zA-Z_] (nxt_path.py 42-43) *)
Definition var_char (c : N) : bool :=
  ((65 <=? c) && (c <=? 90) || (97 <=? c) && (c <=? 122) || (c =? 95))%N.
(** The longest run of such characters, and what follows. *)
Fixpoint run (s : pystr) : pystr * pystr :=
  match s with
  | c :: t => if var_char c then let '(v, r) := run t in (c :: v, r) else ([], s)
  | [] => ([], [])
  end.

(** re.findall of the two patterns (nxt_path.py 42-43, 93): the names, left to
    right, without overlaps.  [skip] counts the characters of the last match
    still to pass. *)
Fixpoint find_vars (st : style) (skip : nat) (s : pystr) : list pystr :=
  match s with
  | [] => []
  | c :: t =>
      match skip with
      | S k => find_vars st k t
      | O =>
          match st with
          | Dollar =>
              if (c =? DOLLAR)%N
              then let v := fst (run t) in v :: find_vars st (length v) t
              else find_vars st O t
          | Percent =>
              if (c =? PERCENT)%N
              then match run t with
                   | (v, d :: _) => if (d =? PERCENT)%N then v :: find_vars st (S (length v)) t else find_vars st O t
                   | (_, []) => find_vars st O t
                   end
              else find_vars st O t
          end
      end
  end.

(** nxt_path.py 49-54: the name as a variable. *)
Definition spell (st : style) (v : pystr) : pystr :=
  match st with Dollar => DOLLAR :: v | Percent => PERCENT :: v ++ [PERCENT] end.

(** nxt_path.py 80-99 unify_env_vars; KeyError for a platform not in the map.
    A pattern is an object of its own for each style. *)
Definition unify_loop (target : style) (path : pystr) : list (pystr * style) -> list style -> pystr -> pystr :=
  fix go l done result :=
    match l with
    | [] => result
    | (_, st) :: l =>
        if style_eqb st target then go l done result
        else if existsb (style_eqb st) done then go l done result
        else go l (done ++ [st])
                (fold_left (fun result v => replace (spell st v) (spell target v) result) (find_vars st O path) result)
    end.
Definition unify_env_vars (path platform : pystr) : res pystr :=
  match dget platform PLATFORMS with
  | None => Raise KeyError
  | Some target => Ok (unify_loop target path PLATFORMS [] path)
  end.

(** nxt_path.py 12-36 full_file_expand.  The functions of os.path are
    parameters; realpath looks at the current directory.  The answer comes with
    the current directory afterwards.  os.chdir fails for a directory that is
    not there. *)
Section Expand.
Variable dir_exists : pystr -> bool.
Variables (expandvars expanduser : pystr -> pystr) (realpath : pystr -> pystr -> pystr) (sep : pystr).
Definition full_file_expand (platform cwd path : pystr) (start : option pystr) : pystr * res pystr :=
  let enter := match start with
               | Some (c :: d) => if dir_exists (c :: d) then Ok (realpath cwd (c :: d)) else Raise IOError
               | _ => Ok cwd
               end in
  match enter with
  | Raise e => (cwd, Raise e)
  | Ok inside =>
      match unify_env_vars path platform with
      | Raise e => (inside, Raise e)
      | Ok p => (cwd, Ok (replace sep (lit "/") (realpath inside (expanduser (expandvars p)))))
      end
  end.
End Expand.
