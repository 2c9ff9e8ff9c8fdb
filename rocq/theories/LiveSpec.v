(** Vocabulary for edits made to the layers while their composed stage is in
    use. *)

From Coq Require Import String List NArith ZArith Bool.
From Verif Require Import PyStr NxtPath PathSpec Dict SortRows PyVal NodeIO Comp CompSpec StageView.
From Verif Require NodeEditSpec.
Import ListNotations.

(** The same place, and all attributes nxt itself keeps on a node are as they
    were, with their comments, types and sources. *)
Definition user_edit_only (r r' : layer_row) : Prop :=
  fst r = fst r' /\ forall a, In a ALL_INTERNAL -> NodeEditSpec.read (snd r') a = NodeEditSpec.read (snd r) a.

(** The node objects of the layers in the order in which a composed stage
    numbers them: layer by layer, by depth. *)
Definition objects (layers : list (list layer_row)) : list data :=
  map snd (concat (map (sort_multidimensional_list (fun r => length (fst r))) layers)).
(** The stage [H] of [layers], not built again, after its layers' node objects
    have become those of [layers']: node objects are shared, composed nodes are
    the stage's own. *)
Definition kept (layers layers' : list (list layer_row)) (H : heap) : heap :=
  {| specs := objects layers' ++ skipn (length (objects layers)) (specs H); comps := comps H; dirty := dirty H |}.

(** The nodes of the layers with their places, in the same order. *)
Definition numbered (layers : list (list layer_row)) : list layer_row :=
  concat (map (sort_multidimensional_list (fun r => length (fst r))) layers).

(** No node of the layers instances another node. *)
Definition no_instances (layers : list (list layer_row)) : Prop :=
  forall cs rs, names cs -> names rs -> rs <> [] -> ~ source_in layers cs rs.
