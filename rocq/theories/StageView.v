(** What one sees of a composed stage, for stating properties: which nodes
    exist and what reading an attribute of a node gives. *)

From Coq Require Import String List NArith ZArith Bool.
From Verif Require Import PyStr NxtPath PathSpec Dict PyVal NodeIO Comp CompSpec.
Import ListNotations.

(** [H] is the stage that building the layers gives, however long the building
    is allowed to take. *)
Definition stage_of (layers : list (list layer_row)) (H : heap) : Prop :=
  exists fuel top_real one_object, build_stage fuel top_real one_object layers = Built H.

(** comp_layer.lookup of the path of [cs] finds a node. *)
Definition in_stage (H : heap) (cs : list pystr) : Prop := here H (abs_path cs) = true.
(** getattr(node, a); None when there is no such attribute. *)
Definition reads (H : heap) (cs : list pystr) (a : pystr) : option pyval :=
  option_map snd (getattr H (Co (abs_path cs)) a).

(** The composed node at [cs] is an instance of the existing node at [rs]. *)
Definition instances (H : heap) (cs rs : list pystr) : Prop :=
  names rs /\ rs <> [] /\ in_stage H rs /\ reads H cs INSTANCE_PATH = Some (VStr (abs_path rs)).
(** [ds] is the closest existing ancestor. *)
Definition parent (H : heap) (cs ds : list pystr) : Prop := closest (in_stage H) cs ds.
(** A node draws from itself and from what its parent and its source draw from. *)
Inductive draws (H : heap) : list pystr -> list pystr -> Prop :=
| draws_self cs : draws H cs cs
| draws_parent cs ds es : parent H cs ds -> draws H ds es -> draws H cs es
| draws_source cs rs es : instances H cs rs -> draws H rs es -> draws H cs es.

(** The names in a child order. *)
Definition listed (v : option pyval) : list pystr := match v with Some v => as_strs v | None => [] end.

(** No layer has a node on the way to [cs] below a node that instances
    another. *)
Definition pure_to (layers : list (list layer_row)) (cs : list pystr) : Prop :=
  forall a b c, cs = a ++ b ++ c -> b <> [] -> opinions (a ++ b) layers <> [] ->
  forall rs, names rs -> rs <> [] -> ~ source_in layers a rs.

(** Child orders without repeated names. *)
Definition plain_child_orders (layers : list (list layer_row)) : Prop :=
  forall l r, In l layers -> In r l -> NoDup (listed (dget CHILD_ORDER (snd r))).

(** Attributes whose sources nxt keeps, but for the instance path; and those
    among them an instance takes from its source. *)
Definition tracked : list pystr := [COMPUTE; EXECUTE_IN; COMMENT; START_POINT; ENABLED].
Definition passed_on : list pystr := [ENABLED; COMMENT; COMPUTE].
Definition source_of (a : pystr) : pystr := a ++ META_SOURCE.
