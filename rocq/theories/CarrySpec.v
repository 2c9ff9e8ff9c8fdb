(** Vocabulary for what composition carries along without looking at it. *)

From Coq Require Import String List NArith ZArith Bool Relations.
From Verif Require Import PyStr NxtPath PathSpec Dict PyVal NodeIO Comp CompSpec StageView.
Import ListNotations.

(** The attributes composition steers by. *)
Definition steering : list pystr := [NAME; PARENT_PATH; INSTANCE_PATH; CHILD_ORDER; SOURCE_LAYER; PROXY].

(** The same place, and the same values of all attributes that are not [free]. *)
Definition differ_only (free : pystr -> bool) (r r' : layer_row) : Prop :=
  fst r = fst r' /\ forall a, free a = false -> dget a (snd r) = dget a (snd r').

(** The node at [cs] takes from the node at [ds] through one or more sources. *)
Definition takes_from (H : heap) : list pystr -> list pystr -> Prop := clos_trans _ (instances H).

(** The attributes proxies never have values of their own for. *)
Definition plainly : list pystr := [COMPUTE; EXECUTE_IN; START_POINT].
