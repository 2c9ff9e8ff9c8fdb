(** Property theorems C09-C12: token syntax. *)

From Coq Require Import String List NArith Bool Lia.
From Verif Require Import PyStr PyStrFacts Tokens TokenSpec TokenProofs.
Import ListNotations.

(** *** C09 *)
Theorem C09_token_content_round_trip :
  forall content, get_token_content (make_token_str content) = content.
Proof. exact token_content_round_trip. Qed.
Print Assumptions C09_token_content_round_trip.

Theorem C09_token_shape :
  forall content, make_token_str content = lit "${" ++ content ++ lit "}".
Proof. reflexivity. Qed.
Print Assumptions C09_token_shape.
Example C09_ex :
  get_token_content (make_token_str (lit "a ${b} } ${")) = lit "a ${b} } ${".
Proof. vm_compute. reflexivity. Qed.

(** *** C10 *)
Theorem C10_atomic_partition :
  forall v before t after,
  atomic_token_partition v = Some (before, t, after) ->
  v = before ++ t ++ after /\ atomic t /\
  exists c, t = tok c /\ contains (lit "${") (c ++ lit "}" ++ after) = false.
Proof. exact atomic_partition_spec. Qed.
Print Assumptions C10_atomic_partition.
Example C10_ex :
  atomic_token_partition (lit "x ${a ${b} c} y")
  = Some (lit "x ${a ", lit "${b}", lit " c} y").
Proof. vm_compute. reflexivity. Qed.

Theorem C10_nothing_found :
  forall v,
  atomic_token_partition v = None <->
  (contains (lit "${") v = false \/
   exists b c, v = b ++ lit "${" ++ c /\ contains (lit "}") c = false).
Proof. exact atomic_partition_none. Qed.
Print Assumptions C10_nothing_found.
Example C10_nothing_found_ex :
  atomic_token_partition (lit "${a} ${b") = None /\
  atomic_token_partition (lit "plain } text") = None.
Proof. split; vm_compute; reflexivity. Qed.

(** *** C11 *)

(** Every string either is plain text with complete outermost tokens (in
    exactly one way) or has a token that is never closed. *)
Theorem C11_every_text_is_classified :
  forall s, (exists ts, parse s ts) \/ unclosed s.
Proof. exact token_text_classified. Qed.
Print Assumptions C11_every_text_is_classified.

Theorem C11_reading_is_unique :
  forall s ts1 ts2, parse s ts1 -> parse s ts2 -> ts1 = ts2.
Proof. exact parse_function. Qed.
Print Assumptions C11_reading_is_unique.

Theorem C11_standalone_tokens :
  forall s ts, parse s ts -> get_standalone_tokens s ALL_PREFIXES = ts.
Proof. exact standalone_all. Qed.
Print Assumptions C11_standalone_tokens.

(** With a list of token types: the outermost tokens of these types. *)
Theorem C11_standalone_tokens_of_types :
  forall s ts prefixes, parse s ts ->
  get_standalone_tokens s prefixes
  = filter (fun t => existsb (fun p => startswith (lit "${" ++ p) t) prefixes) ts.
Proof. exact standalone_of_parse. Qed.
Print Assumptions C11_standalone_tokens_of_types.

Theorem C11_unclosed :
  forall s prefixes, unclosed s -> get_standalone_tokens s prefixes = [].
Proof. exact standalone_unclosed. Qed.
Print Assumptions C11_unclosed.

(** The tokens appear in the text in order and do not overlap. *)
Theorem C11_in_order :
  forall s ts, parse s ts ->
  exists texts, length texts = S (length ts) /\
  s = hd [] texts ++ concat (map (fun p => fst p ++ snd p) (combine ts (tl texts))).
Proof. exact parse_concat. Qed.
Print Assumptions C11_in_order.

Example C11_ex :
  get_standalone_tokens (lit "x} ${a ${b} c} y ${file::d}") ALL_PREFIXES
  = [lit "${a ${b} c}"; lit "${file::d}"] /\
  get_standalone_tokens (lit "x} ${a ${b} c} y ${file::d}") [FILE_PREFIX]
  = [lit "${file::d}"] /\
  get_standalone_tokens (lit "${a} ${b ${c}") ALL_PREFIXES = [].
Proof. repeat split; vm_compute; reflexivity. Qed.

Ltac plain := match goal with |- not_opening _ _ => intros (?r & ?E); discriminate E end.
Example C11_parse_ex :
  parse (lit "x${a${b}}}") [lit "${a${b}}"] /\ unclosed (lit "x${a${b}").
Proof.
  split.
  - apply parse_char; [plain|].
    apply (parse_tok (lit "a${b}") (lit "}") []).
    + apply body_char; [discriminate|plain|].
      apply (body_tok (lit "b") []); [|constructor].
      apply body_char; [discriminate|plain|constructor].
    + apply parse_char; [plain|constructor].
  - exists (lit "x"), [], (lit "a${b}"). split; [|split; [|reflexivity]].
    + apply parse_char; [plain|constructor].
    + apply open_end. apply body_char; [discriminate|plain|].
      apply (body_tok (lit "b") []); [|constructor].
      apply body_char; [discriminate|plain|constructor].
Qed.

(** The docstring promises [] also for extra closing braces; they are ignored. *)
Theorem C11_extra_end_refuted :
  get_standalone_tokens (lit "${a}}") ALL_PREFIXES <> [].
Proof. vm_compute. discriminate. Qed.
Print Assumptions C11_extra_end_refuted.

(** *** C12 *)
Theorem C12_terminates :
  forall v f, length v < f ->
  exists l, get_atomic_tokens_fuel f v = Some l /\
            get_atomic_tokens_fuel (S (length v)) v = Some l.
Proof.
  intros v f H. destruct (atomic_tokens_terminate (S (length v)) v (Lt.le_lt_n_Sm _ _ (le_n _))) as [l E].
  exists l. split; auto. now apply (atomic_tokens_mono _ _ _ _ E).
Qed.
Print Assumptions C12_terminates.

Theorem C12_sound :
  forall f v l t, get_atomic_tokens_fuel f v = Some l -> In t l ->
  atomic t /\ substring t v.
Proof. intros f v l t H. exact (atomic_tokens_sound f v l H t). Qed.
Print Assumptions C12_sound.

(** Complete on text without nesting: text pieces without a token start,
    separated by innermost tokens. *)
Theorem C12_complete_without_nesting :
  forall t0 (segs : list (pystr * pystr)),
  contains (lit "${") t0 = false ->
  Forall (fun p => contains (lit "${") (fst p) = false /\
                   contains (lit "}") (fst p) = false /\
                   contains (lit "${") (snd p) = false) segs ->
  let s := t0 ++ concat (map (fun p => tok (fst p) ++ snd p) segs) in
  get_atomic_tokens_fuel (S (length s)) s
  = Some (rev (map (fun p => tok (fst p)) segs)).
Proof.
  intros t0 segs H0 Hs s.
  exact (atomic_tokens_flat t0 segs (S (length s)) H0 Hs (le_n _)).
Qed.
Print Assumptions C12_complete_without_nesting.
Example C12_ex :
  get_atomic_tokens_fuel 100 (lit "p ${a} q${b}$") = Some [lit "${b}"; lit "${a}"].
Proof. vm_compute. reflexivity. Qed.

(** It may miss innermost tokens of nested or partly malformed text: an
    innermost token before a nested one, and every token before an unclosed
    start, are lost. *)
Theorem C12_complete_refuted :
  exists v t l, get_atomic_tokens_fuel (S (length v)) v = Some l /\
  atomic t /\ substring t v /\ ~ In t l /\ exists ts, parse v ts.
Proof.
  exists (lit "${c}${a ${b}}"), (lit "${c}"), [lit "${b}"].
  split; [vm_compute; reflexivity|]. split.
  { exists (lit "c"). repeat split. }
  split; [exists [], (lit "${a ${b}}"); reflexivity|].
  split; [intros [H|[]]; discriminate H|].
  exists [lit "${c}"; lit "${a ${b}}"].
  apply (parse_tok (lit "c") (lit "${a ${b}}") [lit "${a ${b}}"]); [apply body_char; [discriminate|plain|constructor]|].
  apply (parse_tok (lit "a ${b}") [] []); [|constructor].
  apply body_char; [discriminate|plain|]. apply body_char; [discriminate|plain|].
  apply (body_tok (lit "b") []); [|constructor].
  apply body_char; [discriminate|plain|constructor].
Qed.
Print Assumptions C12_complete_refuted.
