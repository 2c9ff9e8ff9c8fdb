(** Vocabulary for giving a node an instance source. *)

From Coq Require Import String List NArith ZArith Bool.
From Verif Require Import PyStr NxtPath PathSpec Dict PyVal NodeIO Comp CompSpec StageView.
Import ListNotations.

(** [d'] is [d] with the path of [rs] as its instance path, recorded as said by
    the layer at [real] about the node at [cs]. *)
Definition redirected (cs rs : list pystr) (real : pyval) (d d' : data) : Prop :=
  value d' INSTANCE_PATH = VStr (abs_path rs) /\
  value d' (source_of INSTANCE_PATH) = VTuple [real; VStr (abs_path cs)] /\
  forall a, a <> INSTANCE_PATH -> a <> source_of INSTANCE_PATH -> dget a d' = dget a d.
(** The layers differ in one node at [cs], [d] before and [d'] after;
    [stronger] are the nodes at [cs] that are stronger. *)
Inductive one_changed (cs : list pystr) (d d' : data) (stronger : list data) (layers layers' : list (list layer_row)) : Prop :=
| one_changed_in above rows rows' below : layers = above ++ (rows ++ (ns_of cs, d) :: rows') :: below ->
    layers' = above ++ (rows ++ (ns_of cs, d') :: rows') :: below ->
    stronger = opinions cs (above ++ [rows]) -> one_changed cs d d' stronger layers layers'.

(** What a node that says nothing has: no code is the empty list. *)
Definition unsaid (a : pystr) : pyval := if list_eq_dec N.eq_dec a COMPUTE then VList [] else VNone.
Definition plainly_silent (layers : list (list layer_row)) : Prop :=
  forall cs m a, In m (opinions cs layers) -> In a passed_on -> says (value m a) \/ value m a = unsaid a.

(** [d'] is [d] without its instance path, which was that of [rs] and recorded as
    said by the layer at [real] about the node at [cs]. *)
Definition cleared (cs rs : list pystr) (real : pyval) (d d' : data) : Prop :=
  value d INSTANCE_PATH = VStr (abs_path rs) /\ value d' INSTANCE_PATH = VNone /\
  value d (source_of INSTANCE_PATH) = VTuple [real; VStr (abs_path cs)] /\
  value d' (source_of INSTANCE_PATH) = VTuple [real; VStr (abs_path cs)] /\
  forall a, a <> INSTANCE_PATH -> a <> source_of INSTANCE_PATH -> dget a d' = dget a d.
