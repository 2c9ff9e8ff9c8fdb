(** What a cached node is and what is kept of it in a file, independent of the
    code. *)

From Coq Require Import String List NArith ZArith Bool.
From Verif Require Import PyStr Dict PathSpec PyVal NodeIOSpec.
Import ListNotations.

(** A node as a run leaves it in the cache: the code it ran, as text and in
    lines, and attributes; none of the other internal attributes, which a run
    does not read and which the code of the node did not set, and no meta
    attributes. *)
Definition run_result (code : pystr) (n : dict pyval) : Prop :=
  NoDup (dkeys n) /\
  dget (lit "_cached_code") n = Some (VStr code) /\
  (exists lines, dget (lit "_code") n = Some (VList (map VStr lines)) /\ lines <> [] /\
     (forall l, In l lines -> ~ In 10%N l) /\ code = join [10%N] lines) /\
  (forall a, In a internal_names -> a <> lit "_cached_code" -> a <> lit "_code" -> a <> lit "_node_path" -> dget a n = None) /\
  (forall u m, In m ["_comment__nxt"; "_type__nxt"]%string -> dget (u ++ lit m) n = None).

(** Data JSON gives back as it was. *)
Fixpoint plain (v : pyval) : bool :=
  match v with
  | VList l => forallb plain l
  | VDict d => forallb (fun kv => plain (snd kv)) d
  | VTuple _ | VObj _ => false
  | _ => true
  end.
