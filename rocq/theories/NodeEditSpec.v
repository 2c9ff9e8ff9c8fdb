(** Specification vocabulary for a node's attributes: a node is seen as a table
    from names to attributes, each with a value and perhaps a comment, a type
    and a source. *)

From Coq Require Import String List NArith Bool.
From Verif Require Import PyStr Dict PyVal.
Import ListNotations.

Record attribute := Attribute {
  value : pyval;
  comment : option pyval;
  type : option pyval;
  source : option pyval
}.

(** The attribute of that name on a node, if it has one. *)
Definition read (n : dict pyval) (a : pystr) : option attribute :=
  match dget a n with
  | None => None
  | Some v => Some {| value := v;
                      comment := dget (a ++ lit "_comment__nxt") n;
                      type := dget (a ++ lit "_type__nxt") n;
                      source := dget (a ++ lit "_source__nxt") n |}
  end.

(** Names nxt keeps for the comments, types and sources. *)
Definition hidden (a : pystr) : Prop := exists b, a = b ++ lit "__nxt".

(** Every comment, type and source belongs to an attribute the node has. *)
Definition tidy (n : dict pyval) : Prop :=
  forall a m, In m [lit "_comment__nxt"; lit "_type__nxt"; lit "_source__nxt"] ->
  ~ hidden a -> dget (a ++ m) n <> None -> dget a n <> None.

(** [n'] is [n] with the attribute named [a] being [x] (or missing). *)
Definition becomes (a : pystr) (x : option attribute) (n n' : dict pyval) : Prop :=
  forall b, ~ hidden b -> read n' b = if str_eqb b a then x else read n b.

(** The attributes every node has without having been given them. *)
Definition of_every_node (builtins : list pystr) (a : pystr) : Prop :=
  In a [lit "_name"; lit "_parent_path"; lit "_child_order"; lit "_proxy"; lit "_enabled"] \/ In a builtins.

(** The attributes a user sees: neither hidden nor reserved. *)
Definition user_attr (reserved : list pystr) (n : dict pyval) (a : pystr) : Prop :=
  read n a <> None /\ ~ hidden a /\ ~ In a reserved.

(** The last entry a dict of keywords gives, or what was there before. *)
Definition or_else (x y : option pyval) : option pyval := match x with Some _ => x | None => y end.

(** Empty texts are stored as None. *)
Definition emptied (v : pyval) : pyval := match v with VStr [] => VNone | _ => v end.

(** The type recorded for a value: that of the Python literal a text writes,
    and "raw" for anything else.  [literal_type] tells which texts are literals
    and of what type. *)
Definition type_of (literal_type : pystr -> option pystr) (v : pyval) : pystr :=
  match v with
  | VStr s => match literal_type s with Some t => t | None => lit "raw" end
  | _ => lit "raw"
  end.
