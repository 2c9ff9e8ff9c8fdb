(** Independent specification of what a text resolves to: plain text stays,
    every outermost token is replaced by what it means, and a token means what
    the thing it names holds, resolved in its turn. *)

From Coq Require Import String List NArith Bool.
From Verif Require Import PyStr NxtPath PyVal NodeIO Resolve TokenSpec.
Import ListNotations.

(** No outermost token of the text occurs inside another one. *)
Definition apart (ts : list pystr) : Prop :=
  forall t c, In t ts -> In (tok c) ts -> ~ substring t c.

(** The text has one token, or its tokens are apart and the result has no token
    start in it. *)
Definition settled (s o : pystr) : Prop :=
  exists ts, parse s ts /\
  (length ts = 1 \/ (apart ts /\ contains (lit "${") o = false)).

Section Meaning.
Context {node : Type}.
Variable w : surroundings node.

Definition no_plugin (b : pystr) : Prop := forall p, In p (plugins w) -> pl_detect p b = false.

(** The token's contents [b] are a reference to an attribute. *)
Definition reference (b : pystr) : Prop :=
  b <> [] /\ no_plugin b /\
  (forall r, b <> lit "file::" ++ r) /\ (forall r, b <> lit "path::" ++ r) /\
  (forall r, b <> lit "contents::" ++ r) /\ b <> lit "_nxtpath" /\ b <> lit "_nxtcolor".

(** [ref] is a path, a period and the name of an attribute. *)
Definition splits (ref p a : pystr) : Prop :=
  ref = p ++ lit "." ++ a /\ p <> [] /\ a <> [] /\ contains (lit ".") a = false.

(** At node [n], [ref] names attribute [a] of the node found as [m]: a path is
    taken from where [n] is; without a path the attribute is [n]'s own. *)
Inductive names (n : option node) (ref : pystr) : option node -> pystr -> Prop :=
| names_there p a here q :
    splits ref p a -> path_of w n = Some here ->
    expand_relative_node_path p here = Some q ->
    names n ref (find w q) a
| names_absolute p a r :
    splits ref p a -> p = lit "/" ++ r -> names n ref (find w p) a
| names_here here :
    (forall p a, ~ splits ref p a) -> path_of w n = Some here ->
    (exists r, here = lit "/" ++ r) ->
    names n ref (find w here) ref.

(** Names nxt and Python keep for themselves. *)
Definition reserved (a : pystr) : Prop := In a (PROTECTED (builtin_names w)).

Inductive gives : option node -> pystr -> pystr -> Prop :=
| gives_unclosed n s : unclosed s -> gives n s s
| gives_filled n s o : filled n s o -> settled s o -> gives n s o

with filled : option node -> pystr -> pystr -> Prop :=
| filled_nil n : filled n [] []
| filled_char n c s o : not_opening c s -> filled n s o -> filled n (c :: s) (c :: o)
| filled_tok n b s r o : body b -> means n b r -> filled n s o -> filled n (tok b ++ s) (r ++ o)

(** What the token with these contents means at a node. *)
with means : option node -> pystr -> pystr -> Prop :=
| means_reference n b ref m a r :
    reference b -> gives n b ref -> names n ref m a -> holds m a r -> means n b r
| means_node_path n p : no_plugin (lit "_nxtpath") -> path_of w n = Some p -> means n (lit "_nxtpath") p
| means_color n c : no_plugin (lit "_nxtcolor") -> color_of w n = Ok (VStr c) -> means n (lit "_nxtcolor") c
| means_path n c t f :
    no_plugin (lit "path::" ++ c) -> gives n c t -> expand_file w t = Ok f ->
    means n (lit "path::" ++ c) f
| means_file n c t t' f :
    no_plugin (lit "file::" ++ c) -> gives n c t -> gives n t t' -> expand_file w t' = Ok f ->
    means n (lit "file::" ++ c) (if file_exists w f then f else [])
| means_contents n c p text r :
    no_plugin (lit "contents::" ++ c) -> gives n c p -> file_text w p = Some text -> gives n text r ->
    means n (lit "contents::" ++ c) r
| means_no_contents n c p :
    no_plugin (lit "contents::" ++ c) -> gives n c p -> file_text w p = None ->
    means n (lit "contents::" ++ c) []
| means_plugin n b before p after f r :
    b <> [] -> plugins w = before ++ p :: after -> pl_detect p b = true ->
    (forall p', In p' before -> pl_detect p' b = false) ->
    pl_resolve p = Some f -> f n (skipn (length (pl_prefix p)) b) = Ok (VStr r) ->
    means n b r

(** What reading an attribute gives as text. *)
with holds : option node -> pystr -> pystr -> Prop :=
| holds_value m a v r : get_attr w m a = Some v -> truthy v = true -> gives m (to_str w v) r -> holds m a r
| holds_none m a : get_attr w m a = Some VNone -> holds m a []
| holds_falsy m a v : get_attr w m a = Some v -> truthy v = false -> v <> VNone -> ~ reserved a -> holds m a (to_str w v)
| holds_empty m a : get_attr w m a = Some (VStr []) -> holds m a []
| holds_absent m a : get_attr w m a = None -> holds m a [].

Scheme gives_mut := Minimality for gives Sort Prop
with filled_mut := Minimality for filled Sort Prop
with means_mut := Minimality for means Sort Prop
with holds_mut := Minimality for holds Sort Prop.
Combined Scheme meaning_ind from gives_mut, filled_mut, means_mut, holds_mut.

(** Whatever the bound on the recursion, from some bound on the answer is [r]. *)
Definition ends_in {A} (run : nat -> option A) (r : A) : Prop :=
  exists f0, forall f, f0 <= f -> run f = Some r.

(** Resolving [s] at [n] needs the other text resolved at the other node: the
    contents of its tokens, the values of attributes these name, and the text of
    files they name.  (The last case is about the attributes of Python's None,
    which a reference without a node ends at.) *)
Inductive needs : option node * pystr -> option node * pystr -> Prop :=
| needs_contents n s ts b c : parse s ts -> In (tok b) ts -> no_plugin b ->
    (reference b /\ c = b \/ b = lit "path::" ++ c \/ b = lit "file::" ++ c \/ b = lit "contents::" ++ c) ->
    needs (n, s) (n, c)
| needs_file n s ts c t : parse s ts -> In (tok (lit "file::" ++ c)) ts -> no_plugin (lit "file::" ++ c) ->
    ends_in (fun f => resolve w f n c) (Ok t) ->
    needs (n, s) (n, t)
| needs_text n s ts c p text : parse s ts -> In (tok (lit "contents::" ++ c)) ts -> no_plugin (lit "contents::" ++ c) ->
    ends_in (fun f => resolve w f n c) (Ok p) -> file_text w p = Some text ->
    needs (n, s) (n, text)
| needs_value n s ts b ref m a v : parse s ts -> In (tok b) ts -> reference b ->
    ends_in (fun f => resolve w f n b) (Ok ref) -> names n ref m a ->
    get_attr w m a = Some v -> truthy v = true ->
    needs (n, s) (m, to_str w v)
| needs_none n s ts b ref a v : parse s ts -> In (tok b) ts -> reference b ->
    ends_in (fun f => resolve w f n b) (Ok ref) ->
    get_attr w None a = Some v -> truthy v = true ->
    needs (n, s) (None, to_str w v).
End Meaning.
