(** Vocabulary for questions about opinions. *)

From Coq Require Import String List NArith ZArith Bool.
From Verif Require Import PyStr NxtPath PathSpec Dict PyVal NodeIO PyClassSpec Comp CompSpec StageView.
From Verif Require Runtime.
Import ListNotations.

(** An opinion as the history shows it: its source and its value; two are the
    same when both parts compare equal (==). *)
Definition opinion := (pyval * pyval)%type.
Definition same (x y : opinion) : Prop := Runtime.py_eqb (fst x) (fst y) && Runtime.py_eqb (snd x) (snd y) = true.
(** [out] has every opinion of [l] once, where it first stands in [l]. *)
Definition once (l out : list opinion) : Prop :=
  sub out l /\ hd_error out = hd_error l /\
  (forall e, In e l -> In e out \/ exists e', In e' out /\ same e e') /\
  (forall a x b y c, out = a ++ x :: b ++ y :: c -> ~ same y x).

(** The opinion of a layer's node on [a], if it says something ... *)
Definition told_by (a : pystr) (m : data) (e : opinion) : Prop :=
  says (value m a) /\ e = (value m (source_of a), value m a).
(** ... and that of the composed node at [cs]. *)
Definition told_at (H : heap) (a : pystr) (cs : list pystr) (e : opinion) : Prop :=
  exists s v, reads H cs (source_of a) = Some s /\ reads H cs a = Some v /\ says v /\ e = (s, v).
(** The opinions of nodes on [a], in their order. *)
Inductive told (a : pystr) : list data -> list opinion -> Prop :=
| told_nil : told a [] []
| told_one m ms e es : told_by a m e -> told a ms es -> told a (m :: ms) (e :: es)
| told_none m ms es : ~ says (value m a) -> told a ms es -> told a (m :: ms) es.

(** The node at [cs] names the existing node at [rs] as its instance source. *)
Definition points (H : heap) (cs rs : list pystr) : Prop :=
  names rs /\ in_stage H rs /\ reads H cs INSTANCE_PATH = Some (VStr (abs_path rs)).
(** The source, its source and so on. *)
Inductive follows (H : heap) : list pystr -> list pystr -> Prop :=
| follows_one cs rs : points H cs rs -> follows H cs rs
| follows_more cs rs es : points H cs rs -> follows H rs es -> follows H cs es.
