(** Independent specification of token syntax: '${' body '}' with nested
    tokens allowed in the body. *)

From Coq Require Import String List NArith Bool.
From Verif Require Import PyStr.
Import ListNotations.

(** "${" ++ c ++ "}". *)
Definition tok (c : pystr) : pystr := lit "${" ++ c ++ lit "}".

(** A character [c] in front of [s] does not open a token. *)
Definition not_opening (c : N) (s : pystr) : Prop :=
  ~ (exists r, c :: s = lit "${" ++ r).

(** Balanced token contents: plain characters (no '}' and no token start) and
    complete nested tokens. *)
Inductive body : pystr -> Prop :=
| body_nil : body []
| body_char c s : [c] <> lit "}" -> not_opening c s -> body s -> body (c :: s)
| body_tok b s : body b -> body s -> body (tok b ++ s).

(** [parse s toks]: [s] is plain text with the complete outermost tokens
    [toks], in order.  Plain text may contain '}' but no token start. *)
Inductive parse : pystr -> list pystr -> Prop :=
| parse_nil : parse [] []
| parse_char c s ts : not_opening c s -> parse s ts -> parse (c :: s) ts
| parse_tok b s ts : body b -> parse s ts -> parse (tok b ++ s) (tok b :: ts).

(** Contents of a token that is never closed: balanced text, possibly followed
    by further token starts that are never closed either. *)
Inductive open_body : pystr -> Prop :=
| open_end b : body b -> open_body b
| open_nest b s : body b -> open_body s -> open_body (b ++ lit "${" ++ s).

(** Some token of [s] is never closed. *)
Definition unclosed (s : pystr) : Prop :=
  exists p ts b, parse p ts /\ open_body b /\ s = p ++ lit "${" ++ b.

(** An innermost ("atomic") token: nothing inside opens or closes a token. *)
Definition atomic (t : pystr) : Prop :=
  exists c, t = tok c /\ contains (lit "${") c = false /\
            contains (lit "}") c = false.

(** Being a substring. *)
Definition substring (t s : pystr) : Prop := exists a b, s = a ++ t ++ b.
