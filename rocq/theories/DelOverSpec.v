(** Vocabulary for deleting one layer's node at a place where other layers have
    one too. *)

From Coq Require Import String List NArith ZArith Bool.
From Verif Require Import PyStr NxtPath PathSpec Dict PyVal NodeIO Comp CompSpec StageView AddNodeSpec SetInstSpec.
Import ListNotations.

(** [layers'] are [layers] without the node [d] that one layer has at [cs]; the
    layers above it have [stronger] there and the layers below it [weaker]. *)
Inductive one_less (cs : list pystr) (d : data) (stronger weaker : list data) (layers layers' : list (list layer_row)) : Prop :=
| one_less_in above rows rows' kept kept' below : layers = above ++ (rows ++ (ns_of cs, d) :: rows') :: below ->
    layers' = above ++ (kept ++ kept') :: below -> Forall2 row_alike rows kept -> Forall2 row_alike rows' kept' ->
    opinions cs [rows ++ rows'] = [] -> stronger = opinions cs above -> weaker = opinions cs below ->
    one_less cs d stronger weaker layers layers'.

(** What is said about the code, enabled state, comment, start point and
    execute-in of a node, if anything, is not an empty value of another kind. *)
Definition plainly_said (l : list data) : Prop := forall m a, In m l -> In a tracked -> says (value m a) \/ value m a = unsaid a.
