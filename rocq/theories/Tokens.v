(** Model of nxt/tokens.py. *)

From Coq Require Import String List NArith Bool.
From Verif Require Import PyStr.
Import ListNotations.

Definition DOLLAR : N := 36%N.
Definition LBRACE : N := 123%N.
Definition RBRACE : N := 125%N.
(** tokens.py 10: TOKEN_PREFIX = '${'. *)
Definition TOKEN_PREFIX : pystr := [DOLLAR; LBRACE].
(** tokens.py 11: TOKEN_SUFFIX = '}'. *)
Definition TOKEN_SUFFIX : pystr := [RBRACE].

(** tokens.py 52-62 get_token_content. *)
Definition get_token_content (token_str : pystr) : pystr :=
  let '(_, _, no_prefix) := partition TOKEN_PREFIX token_str in
  let '(content, _, _) := rpartition TOKEN_SUFFIX no_prefix in
  content.

(** tokens.py 65-74 make_token_str. *)
Definition make_token_str (content : pystr) : pystr :=
  TOKEN_PREFIX ++ content ++ TOKEN_SUFFIX.

(** tokens.py 101-121: the scanning loop of get_standalone_tokens.
    [i] is the index of the first character of the remaining suffix; the
    look-ahead raw_value[i+1] is the head of the rest. [outer] is
    outer_start_idx; its initial -1 is never used as a bound, 0 stands for it.
    Returns (starts, ends, bounds). *)
Fixpoint scan (s : pystr) (i starts ends outer : nat)
         (bounds : list (nat * nat)) : nat * nat * list (nat * nat) :=
  match s with
  | [] => (starts, ends, bounds)
  | c :: rest =>
      let opens := N.eqb c DOLLAR &&
                   match rest with
                   | c2 :: _ => N.eqb c2 LBRACE
                   | [] => false
                   end in
      let '(starts1, ends1, outer1) :=
        if opens then
          (S starts, ends, if Nat.eqb starts 0 then i else outer)
        else if negb (Nat.eqb starts 0) && N.eqb c RBRACE then
          (starts, S ends, outer)
        else (starts, ends, outer) in
      if Nat.ltb 0 starts1 && Nat.eqb starts1 ends1 then
        scan rest (S i) 0 0 0 (bounds ++ [(outer1, S i)])
      else
        scan rest (S i) starts1 ends1 outer1 bounds
  end.

(** tokens.py 126-133: keep a token iff it starts with '${' + one of the
    given type prefixes. *)
Definition keep_token (prefixes : list pystr) (tok : pystr) : bool :=
  existsb (fun p => startswith (TOKEN_PREFIX ++ p) tok) prefixes.

(** tokens.py 77-135 get_standalone_tokens on a str value with the list of
    token type prefixes (lines 97-98: an empty string gives []; non-string
    values give [] and are handled by the callers of the model). *)
Definition get_standalone_tokens (raw : pystr) (prefixes : list pystr)
  : list pystr :=
  match raw with
  | [] => []
  | _ =>
      let '(starts, ends, bounds) := scan raw 0 0 0 0 [] in
      if negb (Nat.eqb starts ends) then []
      else
        filter (keep_token prefixes)
               (map (fun b => slice (fst b) (snd b) raw) bounds)
  end.

(** tokens.py 42-49: the prefixes of TOKENTYPE.ALL, in order. *)
Definition ATTR_PREFIX : pystr := [].
Definition FILE_PREFIX : pystr := lit "file::".
Definition FILEPATH_PREFIX : pystr := lit "path::".
Definition PATH_PREFIX : pystr := lit "_nxtpath".
Definition CONTENTS_PREFIX : pystr := lit "contents::".
Definition COLOR_PREFIX : pystr := lit "_nxtcolor".
Definition ALL_PREFIXES : list pystr :=
  [FILE_PREFIX; FILEPATH_PREFIX; PATH_PREFIX; CONTENTS_PREFIX; COLOR_PREFIX;
   ATTR_PREFIX].

(** tokens.py 138-158 atomic_token_partition; [None] is (None, None, None). *)
Definition atomic_token_partition (value : pystr)
  : option (pystr * pystr * pystr) :=
  let '(before, sep, after_bef) := rpartition TOKEN_PREFIX value in
  match sep with
  | [] => None
  | _ =>
      let '(token, sep2, after) := partition TOKEN_SUFFIX after_bef in
      match sep2 with
      | [] => None
      | _ => Some (before, make_token_str token, after)
      end
  end.

(** tokens.py 161-179 get_atomic_tokens with fuel; [None] = out of fuel.  The
    Python result is a set (or the empty list); the model gives the list of
    found tokens before [set(...)], so only membership is meaningful. *)
Fixpoint get_atomic_tokens_fuel (fuel : nat) (value : pystr)
  : option (list pystr) :=
  match fuel with
  | O => None
  | S f =>
      match atomic_token_partition value with
      | None => Some []
      | Some (before, tok, after) =>
          let l := match before with
                   | [] => Some []
                   | _ => get_atomic_tokens_fuel f before end in
          let r := match after with
                   | [] => Some []
                   | _ => get_atomic_tokens_fuel f after end in
          match l, r with
          | Some l', Some r' => Some (tok :: l' ++ r')
          | _, _ => None
          end
      end
  end.
