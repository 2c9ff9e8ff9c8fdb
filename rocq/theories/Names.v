(** Model of the choice of node and attribute names: Stage.legalize_name,
    get_unique_node_name and get_unique_attr_name (nxt/stage.py 410-510). *)

From Coq Require Import String List NArith Bool Arith.
From Verif Require Import PyStr NxtPath PyVal NodeIO.
Import ListNotations.

(** Python's character classes.  For ASCII they are spelled out; beyond ASCII
    [uni_digit] and [uni_word] stand for the Unicode tables. *)
Section Chars.
Variables uni_digit uni_word : N -> bool.

Definition ascii_digit (c : N) : bool := N.leb 48 c && N.leb c 57.
(** [c.isdigit()] (stage.py 415). *)
Definition isdigit (c : N) : bool :=
  if N.ltb c 128 then ascii_digit c else uni_digit c.
(** The regular expression class \w (stage.py 417-418). *)
Definition is_word (c : N) : bool :=
  if N.ltb c 128 then
    ascii_digit c || (N.leb 65 c && N.leb c 90) || (N.leb 97 c && N.leb c 122) || N.eqb c 95
  else uni_word c.

Definition UNDERSCORE : N := 95%N.

(** stage.py 410-418. *)
Definition legalize_name (name : pystr) : res pystr :=
  match name with
  | [] => Raise IndexError
  | c :: _ =>
      let name := if isdigit c then UNDERSCORE :: name else name in
      Ok (map (fun c => if is_word c then c else UNDERSCORE) name)
  end.

(** [str(n)] for a natural number. *)
Fixpoint dec_aux (fuel n : nat) (acc : pystr) : pystr :=
  match fuel with
  | O => acc
  | S f =>
      let acc := (48 + N.of_nat (n mod 10))%N :: acc in
      match n / 10 with O => acc | q => dec_aux f q acc end
  end.
Definition dec (n : nat) : pystr := dec_aux (S n) n [].

(** [int(s)] for a string of ASCII digits (stage.py 498-499). *)
Definition int_of (s : pystr) : nat :=
  fold_left (fun a c => 10 * a + (N.to_nat c - 48)) s 0.

(** stage.py 460-466 and 501-508: count up until the name is not [taken];
    [None] = out of fuel. *)
Fixpoint count_up (taken : pystr -> bool) (base : pystr) (fuel num : nat) (test : pystr)
  : option pystr :=
  if taken test then
    match fuel with
    | O => None
    | S f => count_up taken base f (S num) (base ++ dec (S num))
    end
  else Some test.

(** stage.py 447-454. *)
Definition wanted_node_name (name : option pystr) : res pystr :=
  match name with
  | None => Ok (lit "node")
  | Some s => bind (legalize_name s) (fun s =>
      Ok (if str_eqb s (lit "__name__") then s ++ lit "1" else s))
  end.

(** stage.py 420-467.  [lookup] tells whether the layer considered (a layer, or
    the composed stage) has a node at a path. *)
Definition get_unique_node_name (lookup : pystr -> bool) (fuel : nat)
           (name : option pystr) (parent_path : pystr) : option (res pystr) :=
  match wanted_node_name name with
  | Raise e => Some (Raise e)
  | Ok name =>
      let taken test := lookup (join_node_paths parent_path test) in
      if taken name
      then option_map Ok (count_up taken name fuel 1 name)
      else Some (Ok name)
  end.

(** [s.rstrip('0123456789')] (stage.py 496). *)
Fixpoint drop_digits (s : pystr) : pystr :=
  match s with
  | [] => []
  | c :: t => if ascii_digit c then drop_digits t else s
  end.
Definition rstrip_digits (s : pystr) : pystr := rev (drop_digits (rev s)).

(** stage.py 484-487. *)
Definition wanted_attr_name (attr_name : option pystr) : res pystr :=
  match attr_name with Some s => legalize_name s | None => Ok (lit "attr") end.

(** stage.py 469-510.  [local] is get_node_local_attr_names of the layers
    considered and [protected] INTERNAL_ATTRS.PROTECTED (it contains Python's
    own class attributes). *)
Definition get_unique_attr_name (local protected : list pystr) (fuel : nat)
           (attr_name : option pystr) : option (res pystr) :=
  match wanted_attr_name attr_name with
  | Raise e => Some (Raise e)
  | Ok attr_name =>
      let base := rstrip_digits attr_name in
      let trailing := skipn (length base) attr_name in
      let num := match trailing with [] => 1 | _ => int_of trailing end in
      let taken test := str_in test (local ++ protected) in
      option_map Ok (count_up taken base fuel num attr_name)
  end.

End Chars.
