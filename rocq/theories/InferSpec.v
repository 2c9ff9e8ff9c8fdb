(** Vocabulary for rolling a node back to the layers below. *)

From Coq Require Import String List NArith ZArith Bool.
From Verif Require Import PyStr NxtPath PathSpec Dict PyVal NodeIO Comp CompSpec StageView.
Import ListNotations.

(** No layer's node is marked as a proxy: composition makes those. *)
Definition no_proxies (layers : list (list layer_row)) : Prop :=
  forall l r, In l layers -> In r l -> truthy (value (snd r) PROXY) = false.

(** No layer's node instances another. *)
Definition no_instances (layers : list (list layer_row)) : Prop :=
  forall l r, In l layers -> In r l -> value (snd r) INSTANCE_PATH = VNone \/ value (snd r) INSTANCE_PATH = VStr [].

(** The stage [H] of all layers goes on having what the node at [es] of the stage
    [L] of the layers below takes part in: the node is still there, no layer above
    brings an instance source that the layers below name but do not have, of the
    layers below the strongest that has the node names its source and it is not
    the world, and the node it sits below comes from a layer. *)
Record rolls_back (H L : heap) (lower : list (list layer_row)) (es : list pystr) : Prop := {
  rb_here : in_stage H es;
  rb_source : forall rs, names rs -> rs <> [] -> reads L es INSTANCE_PATH = Some (VStr (abs_path rs)) ->
    in_stage H rs -> in_stage L rs;
  rb_strongest : forall d rest rs, opinions es lower = d :: rest -> names rs -> source_in lower es rs ->
    rs <> [] /\ value d INSTANCE_PATH = VStr (abs_path rs);
  rb_parent : forall ds, parent L es ds -> opinions ds lower <> [] }.
