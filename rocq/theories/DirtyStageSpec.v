(** Vocabulary for which nodes of a composed stage depend on which. *)

From Coq Require Import String List NArith ZArith Bool Relations.
From Verif Require Import PyStr NxtPath PathSpec Dict PyVal NodeIO Comp CompSpec StageView.
Import ListNotations.

(** The composed node at [es] names the path of [cs] as its instance source,
    whether or not there is a node at [cs]. *)
Definition points (H : heap) (es cs : list pystr) : Prop :=
  names es /\ in_stage H es /\ reads H es INSTANCE_PATH = Some (VStr (abs_path cs)).
(** ... itself, or through sources of sources. *)
Definition relies (H : heap) : list pystr -> list pystr -> Prop := clos_trans _ (points H).

(** No layer's node instances a node above itself. *)
Definition no_ancestor_sources (layers : list (list layer_row)) : Prop :=
  forall cs rs, names cs -> names rs -> rs <> [] -> source_in layers cs rs -> ~ strict_prefix rs cs.
