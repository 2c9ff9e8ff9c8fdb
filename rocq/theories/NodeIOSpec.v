(** Specification vocabulary for saving and loading nodes. *)

From Coq Require Import String List NArith ZArith Bool.
From Verif Require Import PyStr Dict PyVal.
Import ListNotations.

(** A name a user can give an attribute: not one of the internal names, not one
    of Python's own ([bi]), not the name of a meta attribute. *)
Definition internal_names : list pystr :=
  map lit ["_code"; "_execute_in"; "_comment"; "_start_point"; "_enabled"; "_instance";
           "_child_order"; "_name"; "_source_layer"; "_proxy"; "_parent_path";
           "_node_path"; "_cached_code"]%string.
Definition user_name (bi : list pystr) (u : pystr) : Prop :=
  ~ In u bi /\ ~ In u internal_names /\
  forall m, In m ["_comment__nxt"; "_type__nxt"; "_source__nxt"]%string -> forall a, u <> a ++ lit m.

(** The value of an attribute, None when it is not there. *)
Definition attr (n : dict pyval) (a : pystr) : pyval :=
  match dget a n with Some v => v | None => VNone end.

(** What survives of a user attribute's value: what is truthy and can be
    written. *)
Definition kept (v : pyval) : pyval := if truthy v && json_ok v then v else VNone.
(** What survives of its comment or type. *)
Definition kept_meta (v : pyval) : option pyval := if truthy v then Some v else None.

(** A value that says something (not None and not an empty list). *)
Definition says (v : pyval) : bool :=
  match v with VNone => false | VList [] => false | _ => true end.

(** The internal attributes a file keeps, with their default. *)
Definition saved_internal : list (pystr * pyval) :=
  [(lit "_start_point", VNone); (lit "_instance", VNone); (lit "_execute_in", VNone);
   (lit "_enabled", VNone); (lit "_comment", VNone); (lit "_code", VList [])].
Definition saved_of_world : list (pystr * pyval) :=
  [(lit "_comment", VNone); (lit "_code", VList [])].

(** The first occurrences. *)
Inductive first_occ : list pystr -> list pystr -> Prop :=
| fo_nil : first_occ [] []
| fo_new l r x : first_occ l r -> ~ In x l -> first_occ (l ++ [x]) (r ++ [x])
| fo_old l r x : first_occ l r -> In x l -> first_occ (l ++ [x]) r.

(** The order in which a saved node lists what it has. *)
Definition file_order : list pystr :=
  map lit ["start_point"; "instance"; "execute_in"; "child_order"; "enabled"; "comment";
           "attrs"; "code"]%string.

(** Data as it comes back from a JSON file. *)
Definition through_json (d : dict pyval) : dict pyval :=
  map (fun kv => (fst kv, json_norm (snd kv))) d.
