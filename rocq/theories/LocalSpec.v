(** Vocabulary for what the composed value of a node depends on. *)

From Coq Require Import String List NArith ZArith Bool.
From Verif Require Import PyStr NxtPath PathSpec Dict PyVal NodeIO Comp CompSpec StageView DirtyStageSpec.
Import ListNotations.

(** Two stacks of layers say the same about the node at [cs], layer by layer,
    but for the order of its children. *)
Definition said_alike (layers layers' : list (list layer_row)) (cs : list pystr) : Prop :=
  Forall2 (fun n m => forall a, a <> CHILD_ORDER -> dget a n = dget a m) (opinions cs layers) (opinions cs layers').

(** The layers the theorems are about: nodes as nxt makes them, parents in the
    layers, nothing placed below an instance, no node instancing a node above
    itself. *)
Record regular (layers : list (list layer_row)) : Prop := {
  r_fits : well_formed layers;
  r_gapless : gapless layers;
  r_pure : pure layers;
  r_low : no_ancestor_sources layers }.

(** What one asks a node for: who it is, what it runs, and every user
    attribute with its comment, type and source. *)
Definition asked (a : pystr) : Prop :=
  In a ([NAME; PARENT_PATH; SOURCE_LAYER; PROXY] ++ tracked) \/ ~ In a internal_keys.
