(** Python strings and the [str] methods used by nxt, as executable functions.

    A Python [str] is a finite sequence of Unicode code points; it is modelled
    as [list N].  (Surrogates and the upper bound 0x10FFFF are not enforced:
    every theorem therefore holds for more sequences than Python has.)
    This file models the Python runtime, not nxt itself: each definition cites
    the lines of nxt that use the operation.  No proofs here. *)

From Coq Require Import Ascii String List NArith Bool ZArith.
Import ListNotations.

Definition pystr := list N.

(** ASCII literal, e.g. [lit "${"]. *)
Definition lit (s : string) : pystr :=
  map N_of_ascii (list_ascii_of_string s).

(** [a == b] on strings. *)
Fixpoint str_eqb (a b : pystr) : bool :=
  match a, b with
  | [], [] => true
  | x :: a', y :: b' => N.eqb x y && str_eqb a' b'
  | _, _ => false
  end.

(** [s in l] for a list of strings. *)
Definition str_in (s : pystr) (l : list pystr) : bool :=
  existsb (str_eqb s) l.

(** [s.startswith(pre)] (nxt_path.py 125, 174, 330; tokens.py 130). *)
Fixpoint startswith (pre s : pystr) : bool :=
  match pre, s with
  | [], _ => true
  | x :: pre', y :: s' => N.eqb x y && startswith pre' s'
  | _ :: _, [] => false
  end.

(** [s.endswith(suf)] (nxt_node.py 249; legacy.py 245). *)
Definition endswith (suf s : pystr) : bool :=
  startswith (rev suf) (rev s).

(** [sub in s] (nxt_path.py 260; stage.py substring tests). *)
Fixpoint contains (sub s : pystr) : bool :=
  startswith sub s ||
  match s with
  | [] => false
  | _ :: t => contains sub t
  end.

(** [s.partition(sep)]: split at the first occurrence; if there is none the
    result is (s, '', '') (tokens.py 60, 152; nxt_path.py 248;
    nxt_node.py 71, 90). *)
Fixpoint partition (sep s : pystr) : pystr * pystr * pystr :=
  if startswith sep s then ([], sep, skipn (length sep) s)
  else
    match s with
    | [] => ([], [], [])
    | c :: t => let '(b, m, a) := partition sep t in (c :: b, m, a)
    end.

(** Position-of-last-occurrence split used by [rpartition]. *)
Fixpoint rpartition_opt (sep s : pystr) : option (pystr * pystr) :=
  match s with
  | [] => if startswith sep [] then Some ([], []) else None
  | c :: t =>
      match rpartition_opt sep t with
      | Some (b, a) => Some (c :: b, a)
      | None =>
          if startswith sep s then Some ([], skipn (length sep) s) else None
      end
  end.

(** [s.rpartition(sep)]: split at the last occurrence; if there is none the
    result is ('', '', s) (nxt_path.py 130, 163, 219, 233; tokens.py 61, 149). *)
Definition rpartition (sep s : pystr) : pystr * pystr * pystr :=
  match rpartition_opt sep s with
  | Some (b, a) => (b, sep, a)
  | None => ([], [], s)
  end.

(** [s.split(c)] for a one-character separator (nxt_path.py 127, 175, 176;
    nxt_io.py 92). *)
Fixpoint split (c : N) (s : pystr) : list pystr :=
  match s with
  | [] => [[]]
  | x :: t =>
      if N.eqb x c then [] :: split c t
      else match split c t with
           | h :: r => (x :: h) :: r
           | [] => [[x]]          (* unreachable: split is never empty *)
           end
  end.

(** [s.rsplit(c, n)]: at most [n] splits, from the right (nxt_path.py 389). *)
Fixpoint rsplit_aux (c : N) (n : nat) (s : pystr) (acc : list pystr)
  : list pystr :=
  match n with
  | O => s :: acc
  | S n' =>
      match rpartition_opt [c] s with
      | None => s :: acc
      | Some (b, a) => rsplit_aux c n' b (a :: acc)
      end
  end.
Definition rsplit (c : N) (n : nat) (s : pystr) : list pystr :=
  rsplit_aux c n s [].

(** [sep.join(l)] (nxt_path.py 182, 290). *)
Fixpoint join (sep : pystr) (l : list pystr) : pystr :=
  match l with
  | [] => []
  | [x] => x
  | x :: r => x ++ sep ++ join sep r
  end.

(** [s.replace(old, new, count)] for a non-empty [old]: non-overlapping
    occurrences, left to right, at most [cnt] of them ([None] = all).
    [skip] counts the characters of a just-replaced occurrence that are still
    to be dropped. *)
Fixpoint replace_aux (old new : pystr) (cnt : option nat) (skip : nat)
         (s : pystr) : pystr :=
  match s with
  | [] => []
  | c :: t =>
      match skip with
      | S k => replace_aux old new cnt k t
      | O =>
          let hit := startswith old s &&
                     match cnt with Some O => false | _ => true end in
          if hit
          then new ++ replace_aux old new (option_map pred cnt)
                                  (pred (length old)) t
          else c :: replace_aux old new cnt O t
      end
  end.

(** [s.replace('', new)] puts [new] before every character and at the end. *)
Definition replace_empty (new : pystr) (s : pystr) : pystr :=
  flat_map (fun c => new ++ [c]) s ++ new.

(** [s.replace(old, new)] (nxt_path.py 290, 315; stage.py resolve). *)
Definition replace (old new s : pystr) : pystr :=
  match old with
  | [] => replace_empty new s
  | _ => replace_aux old new None O s
  end.

(** [s.replace(old, new, 1)] for non-empty [old] (nxt_path.py 313). *)
Definition replace_once (old new s : pystr) : pystr :=
  replace_aux old new (Some 1) O s.

(** [s.count(c)] for one character (nxt_path.py 367; nxt_io.py 86). *)
Fixpoint count_char (c : N) (s : pystr) : nat :=
  match s with
  | [] => 0
  | x :: t => (if N.eqb x c then 1 else 0) + count_char c t
  end.

(** [s[:-1]]. *)
Definition drop_last (s : pystr) : pystr := removelast s.

(** [s[-1]] of a non-empty string. *)
Definition last_char (s : pystr) : option N :=
  match rev s with [] => None | c :: _ => Some c end.

(** [s[i:j]] for 0 <= i <= j <= len(s). *)
Definition slice (i j : nat) (s : pystr) : pystr := firstn (j - i) (skipn i s).
