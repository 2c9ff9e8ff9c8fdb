(** Vocabulary for editing code in a composed stage. *)

From Coq Require Import String List NArith ZArith Bool Relations.
From Verif Require Import PyStr NxtPath PathSpec Dict PyVal NodeIO Comp CompSpec StageView LiveSpec DirtyStageSpec.
Import ListNotations.

(** The code of every node of the layers is a list of lines. *)
Definition code_lists (layers : list (list layer_row)) : Prop :=
  forall l r, In l layers -> In r l -> exists lines, value (snd r) COMPUTE = VList lines.
(** The world nodes are called "/". *)
Definition world_names (layers : list (list layer_row)) : Prop :=
  forall m, In m (opinions [] layers) -> value m NAME = VStr (lit "/").

(** The layers the theorems are about. *)
Record plain_layers (layers : list (list layer_row)) : Prop := {
  l_fits : well_formed layers;
  l_gapless : gapless layers;
  l_pure : pure layers;
  l_low : no_ancestor_sources layers;
  l_code : code_lists layers;
  l_world : world_names layers }.

(** The code of the node at [cs] of one layer may be set to [lines] without
    composing again; [H] is the stage, [A] are the nodes of the stronger layers
    and [B] those of the weaker ones.  No stronger layer has code for the node;
    none of the nodes that rely on it has code of its own; and when the code is
    taken away, the node does not instance the world, and if it has a source no
    weaker layer has code for it. *)
Definition may_set (layers : list (list layer_row)) (H : heap) (cs : list pystr) (A B : list layer_row) (lines : list pyval) : Prop :=
  (forall m, In (ns_of cs, m) A -> ~ says (value m COMPUTE)) /\
  (forall es, relies H es cs -> silent COMPUTE (opinions es layers)) /\
  (lines = [] -> reads H cs INSTANCE_PATH <> Some (VStr (lit "/")) /\
     ((exists rs, instances H cs rs) -> forall m, In (ns_of cs, m) B -> ~ says (value m COMPUTE))).
