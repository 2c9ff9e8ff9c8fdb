(** Vocabulary for the attribute names of a composed node. *)

From Coq Require Import String List NArith ZArith Bool.
From Verif Require Import PyStr NxtPath PathSpec Dict PyVal NodeIO Comp CompSpec StageView.
Import ListNotations.

(** A name that is the user's: not one of Python's or nxt's, and not one of the
    data kept about an attribute. *)
Definition user_attr (builtins : list pystr) (a : pystr) : Prop :=
  ~ In a builtins /\ ~ In a ALL_INTERNAL /\ a <> lit "_cached_code" /\ forall b, a <> b ++ lit "__nxt".
(** Some layer's node at [cs] has the attribute; the composed node has it. *)
Definition local_at (layers : list (list layer_row)) (a : pystr) (cs : list pystr) : Prop := exists m, In m (opinions cs layers) /\ dget a m <> None.
Definition has_at (H : heap) (a : pystr) (cs : list pystr) : Prop := reads H cs a <> None.
(** No layer has two nodes at one place. *)
Definition one_each (layers : list (list layer_row)) : Prop := forall l, In l layers -> NoDup (map fst l).
(** The layers as tables of nodes by path. *)
Definition by_path (layers : list (list layer_row)) : list (dict node) :=
  map (map (fun r : layer_row => (node_namespace_to_str_path (fst r), snd r))) layers.
(** Every ancestor of [cs] is in the stage. *)
Definition no_gap (H : heap) (cs : list pystr) : Prop := forall ps ts, cs = ps ++ ts -> in_stage H ps.
(** The attribute comes to [cs] through an instance: of the nodes on the way
    down to [cs], [es] is the first that has it, and has it from no layer, and
    no layer gives it to a node from there on above [cs]. *)
Definition by_instance (layers : list (list layer_row)) (H : heap) (a : pystr) (cs : list pystr) : Prop :=
  exists es ts, cs = es ++ ts /\ has_at H a es /\ (forall ps nm, es = ps ++ [nm] -> ~ has_at H a ps) /\ ~ local_at layers a es /\
    forall u v, ts = u ++ v -> v <> [] -> ~ local_at layers a (es ++ u).
