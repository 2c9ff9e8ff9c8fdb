(** Vocabulary for adding a node to a layer. *)

From Coq Require Import String List NArith ZArith Bool.
From Verif Require Import PyStr NxtPath PathSpec Dict PyVal NodeIO Comp CompSpec.
Import ListNotations.

(** Two rows of a layer that differ in the order of the children only. *)
Definition row_alike (r r' : layer_row) : Prop := fst r = fst r' /\ forall a, a <> CHILD_ORDER -> dget a (snd r) = dget a (snd r').
(** [layers'] are [layers] with one more node in one layer, at a place where no
    layer has one. *)
Inductive one_more (cs : list pystr) (sp : data) (layers layers' : list (list layer_row)) : Prop :=
| one_more_in strong rows rows' weak : layers = strong ++ rows :: weak -> layers' = strong ++ (rows' ++ [(ns_of cs, sp)]) :: weak ->
    Forall2 row_alike rows rows' -> opinions cs layers = [] -> one_more cs sp layers layers'.
