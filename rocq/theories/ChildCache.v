(** Histories of a layer's child caches (nxt/nxt_layer.py 267-566 with the
    edits of nxt/stage.py 544-576, 652-660, 824-834 and 958-985). *)

From Coq Require Import String List NArith ZArith Bool.
From Verif Require Import PyStr NxtPath Dict ListMerger Layer.
Import ListNotations.

Section Histories.
Variables (same same_name : pystr -> pystr -> bool).

(** What happens to a comp layer: nodes come and go through the stage
    (stage.py 544-576, 958-985) and the layer is asked (nxt_layer.py 267-464). *)
Inductive comp_op :=
| CAdd (path : pystr) (n : cnode)
| CRemove (path : pystr)
| CAsk (p : pystr) (rt : rtype) (ordered : bool)
| CBelow (fuel : nat) (p : pystr) (ordered : bool).

Definition comp_step (L : layer) (o : comp_op) : layer :=
  match o with
  | CAdd path n => add_node_to_comp_layer L path n
  | CRemove path => match dget path (nodes L) with
                    | Some n => remove_node_from_comp_layer L path n
                    | None => L
                    end
  | CAsk p rt ordered => snd (children same same_name L p rt ordered false)
  | CBelow fuel p ordered => snd (descendants same same_name fuel L p RPath ordered false)
  end.

(** What happens to a spec layer: single nodes come and go (stage.py 652-660,
    824-834) and the layer is asked, with or without implied nodes. *)
Inductive spec_op :=
| SPut (path : pystr) (n : cnode)
| SDrop (path : pystr)
| SAsk (p : pystr) (rt : rtype) (ordered incl : bool)
| SBelow (fuel : nat) (p : pystr) (ordered incl : bool).

Definition spec_step (L : layer) (o : spec_op) : layer :=
  match o with
  | SPut path n => put_node L path n
  | SDrop path => match dget path (nodes L) with
                  | Some n => drop_node L path n
                  | None => L
                  end
  | SAsk p rt ordered incl => snd (children same same_name L p rt ordered incl)
  | SBelow fuel p ordered incl =>
      snd (descendants same same_name fuel L p RPath ordered incl)
  end.

End Histories.
