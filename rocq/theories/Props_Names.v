(** Property theorem C26: names given to nodes and attributes. *)

From Coq Require Import String List NArith Bool Lia.
From Verif Require Import PyStr PyStrFacts PathSpec PyVal Names NamesSpec NamesProofs.
Import ListNotations.

(** What counts as a digit and as a word character: the ASCII ones as usual,
    any choice beyond ASCII. *)
Notation digit ud := (isdigit ud).
Notation word uw := (is_word uw).

Theorem C26_legalized :
  forall ud uw s,
  (s = [] -> legalize_name ud uw s = Raise IndexError) /\
  (s <> [] ->
   legalize_name ud uw s = Ok (legal_form (digit ud) (word uw) s) /\
   legal (digit ud) (word uw) (legal_form (digit ud) (word uw) s)) /\
  (legal (digit ud) (word uw) s -> legalize_name ud uw s = Ok s).
Proof. exact legalize_spec. Qed.
Print Assumptions C26_legalized.
Example C26_legalized_ex :
  let ud := fun _ => false in
  legalize_name ud ud (lit "3 nice-names") = Ok (lit "_3_nice_names") /\
  legalize_name ud ud (lit "already_2") = Ok (lit "already_2").
Proof. split; vm_compute; reflexivity. Qed.

(** The word characters and the digits of ASCII, written out. *)
Theorem C26_word_chars :
  forall ud uw c, (c < 128)%N ->
  (word uw c = true <->
   In c (lit "abcdefghijklmnopqrstuvwxyzABCDEFGHIJKLMNOPQRSTUVWXYZ0123456789_")) /\
  (digit ud c = true <-> In c (lit "0123456789")).
Proof.
  intros ud uw c Hc.
  assert (E : exists n, (n < 128)%nat /\ c = N.of_nat n).
  { exists (N.to_nat c). split; [|now rewrite N2Nat.id]. lia. }
  destruct E as (n & Hn & ->).
  do 128 (destruct n as [|n]; [vm_compute; intuition congruence|]). lia.
Qed.
Print Assumptions C26_word_chars.

(** A legal name is usable as a path component and in attribute paths. *)
Theorem C26_legal_names_are_components :
  forall ud uw s, legal (digit ud) (word uw) s -> component s /\ ~ In PERIOD s.
Proof. exact legal_component. Qed.
Print Assumptions C26_legal_names_are_components.

(** The choice of a node name always ends, and gives a legal name that is free
    under the parent: the wanted one if that is free, else the wanted one with
    the first free number from 2 on. *)
Theorem C26_unique_node_name :
  forall ud uw paths fuel name ns,
  name <> Some [] -> Forall component ns -> length paths < fuel ->
  exists nm,
    get_unique_node_name ud uw (fun p => str_in p paths) fuel name (abs_path ns)
    = Some (Ok nm) /\
    legal (digit ud) (word uw) nm /\ nm <> lit "__name__" /\
    ~ In (abs_path (ns ++ [nm])) paths /\
    (~ In (abs_path (ns ++ [preferred (digit ud) (word uw) name])) paths -> nm = preferred (digit ud) (word uw) name) /\
    (In (abs_path (ns ++ [preferred (digit ud) (word uw) name])) paths ->
     first_free (fun x => ~ In (abs_path (ns ++ [x])) paths) (preferred (digit ud) (word uw) name) 1 nm).
Proof. exact unique_node_name. Qed.
Print Assumptions C26_unique_node_name.
Example C26_unique_node_name_ex :
  let ud := fun _ => false in
  let paths := [lit "/a"; lit "/a/n"; lit "/a/n2"; lit "/a/n3"; lit "/n4"] in
  get_unique_node_name ud ud (fun p => str_in p paths) 6 (Some (lit "n")) (lit "/a")
    = Some (Ok (lit "n4")) /\
  get_unique_node_name ud ud (fun p => str_in p paths) 6 None (lit "/a")
    = Some (Ok (lit "node")) /\
  get_unique_node_name ud ud (fun p => str_in p paths) 6 (Some (lit "__name__")) (lit "/a")
    = Some (Ok (lit "__name__1")).
Proof. repeat split; vm_compute; reflexivity. Qed.

(** The same for attributes: the name must differ from the node's attributes
    and from the protected names; a number at the end is counted up. *)
Theorem C26_unique_attr_name :
  forall ud uw local protected fuel name,
  name <> Some [] -> length (local ++ protected) < fuel ->
  exists nm,
    get_unique_attr_name ud uw local protected fuel name = Some (Ok nm) /\
    legal (digit ud) (word uw) nm /\
    ~ In nm local /\ ~ In nm protected /\
    (~ In (preferred_attr (digit ud) (word uw) name) (local ++ protected) -> nm = preferred_attr (digit ud) (word uw) name) /\
    (In (preferred_attr (digit ud) (word uw) name) (local ++ protected) ->
     exists stem d,
       preferred_attr (digit ud) (word uw) name = stem ++ d /\
       Forall (fun c => (48 <= c <= 57)%N) d /\
       (forall s c, stem = s ++ [c] -> ~ (48 <= c <= 57)%N) /\
       first_free (fun x => ~ In x (local ++ protected)) stem
                  (match d with [] => 1 | _ => fold_left (fun a c => 10 * a + digit_value c) d 0 end) nm).
Proof. exact unique_attr_name_spec. Qed.
Print Assumptions C26_unique_attr_name.
Example C26_unique_attr_name_ex :
  let ud := fun _ => false in
  get_unique_attr_name ud ud [lit "a7"; lit "a8"; lit "x"] [lit "code"] 5 (Some (lit "a7"))
    = Some (Ok (lit "a9")) /\
  get_unique_attr_name ud ud [lit "a7"; lit "a8"; lit "x"] [lit "code"] 5 (Some (lit "code"))
    = Some (Ok (lit "code2")) /\
  get_unique_attr_name ud ud [lit "a7"; lit "a8"; lit "x"] [lit "code"] 5 None
    = Some (Ok (lit "attr")).
Proof. repeat split; vm_compute; reflexivity. Qed.
