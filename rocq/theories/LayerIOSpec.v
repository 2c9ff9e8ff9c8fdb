(** Specification vocabulary for saving and loading a layer. *)

From Coq Require Import String List NArith ZArith Bool Sorted.
From Verif Require Import PyStr PathSpec Dict PyVal NodeIOSpec.
Import ListNotations.

(** A node's own name, from the names along its path ("/" for the world). *)
Definition own_name (ns : list pystr) : pystr := last ns (lit "/").

(** A node that can stand in a layer under the name [nm]. *)
Definition node_ok (n : dict pyval) (nm : pystr) (co : list pystr) : Prop :=
  NoDup (dkeys n) /\ dget (lit "_name") n = Some (VStr nm) /\
  dget (lit "_child_order") n = Some (VList (map VStr co)).

(** A layer's nodes: every path is the path of a list of names and its node
    bears the last of them. *)
Definition nodes_ok (t : dict (dict pyval)) : Prop :=
  NoDup (dkeys t) /\
  forall p n, In (p, n) t ->
  exists ns co, Forall component ns /\ p = abs_path ns /\ node_ok n (own_name ns) co.

(** The names of the nodes directly below [ns], alphabetically. *)
Definition child_names (ps : list pystr) (ns l : list pystr) : Prop :=
  StronglySorted (fun a b => str_ltb a b = true) l /\
  forall c, In c l <-> component c /\ In (abs_path (ns ++ [c])) ps.

(** [n'] is what is left of [n] after saving it and loading it from [rp] as the
    node at [p]; child orders are apart. *)
Definition reloaded (bi : list pystr) (world : Prop) (rp : pyval) (p : pystr) (n n' : dict pyval) : Prop :=
  (forall u, user_name bi u -> (In u (dkeys n') <-> In u (dkeys n))) /\
  (forall u, user_name bi u -> In u (dkeys n) ->
     dget u n' = Some (kept (attr n u)) /\
     dget (u ++ lit "_comment__nxt") n' = kept_meta (attr n (u ++ lit "_comment__nxt")) /\
     dget (u ++ lit "_type__nxt") n' = kept_meta (attr n (u ++ lit "_type__nxt")) /\
     dget (u ++ lit "_source__nxt") n' = Some (VTuple [rp; VStr p])) /\
  (~ world -> forall a d, In (a, d) saved_internal ->
     dget a n' = Some (if says (attr n a) then attr n a else d)) /\
  (world -> forall a d, In (a, d) saved_of_world ->
     dget a n' = Some (if says (attr n a) then attr n a else d)).

(** A layer's own record of its metadata agrees with its fields. *)
Definition meta_agrees (input : dict pyval) (k : pystr) (field : dict pyval) : Prop :=
  NoDup (dkeys field) /\ (dget k input = None \/ dget k input = Some (VDict field)).

(** The child order of every node but the world names each of its children,
    once. *)
Definition complete (t : dict (dict pyval)) : Prop :=
  forall p n ns co, dget p t = Some n -> Forall component ns -> p = abs_path ns -> ns <> [] ->
  node_ok n (own_name ns) co ->
  NoDup co /\ forall c, component c -> In (abs_path (ns ++ [c])) (dkeys t) -> In c co.
