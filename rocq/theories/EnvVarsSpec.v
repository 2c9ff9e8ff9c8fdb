(** Vocabulary for file paths with environment variables. *)

From Coq Require Import String List NArith Bool.
From Verif Require Import PyStr EnvVars.
Import ListNotations.

(** A path as its writer means it: stretches of text and variables, each
    variable written as $NAME or as %NAME%. *)
Inductive piece := Text (s : pystr) | Var (st : style) (name : pystr).
Definition write (p : piece) : pystr := match p with Text s => s | Var st v => spell st v end.
Definition writes (l : list piece) : pystr := concat (map write l).
(** The same path with every variable written in the style [st]. *)
Definition in_style (st : style) (p : piece) : piece := match p with Text s => Text s | Var _ v => Var st v end.

Definition letter (c : N) : Prop := (65 <= c <= 90 \/ 97 <= c <= 122 \/ c = 95)%N.
Definition marker (st : style) : N := match st with Dollar => 36 | Percent => 37 end.
Definition foreign (st : style) : style := match st with Dollar => Percent | Percent => Dollar end.

(** Names are made of letters and there is at least one. *)
Definition named (p : piece) : Prop := match p with Text _ => True | Var _ v => v <> [] /\ Forall letter v end.
(** The character that introduces foreign variables is not in the text. *)
Definition unmarked (st : style) (p : piece) : Prop := match p with Text s => ~ In (marker st) s | Var _ _ => True end.
(** What follows a variable does not go on with a letter. *)
Fixpoint spaced (l : list piece) : Prop :=
  match l with
  | Var _ _ :: (Text s :: _ as t) => (forall c r, s = c :: r -> ~ letter c) /\ s <> [] /\ spaced t
  | _ :: t => spaced t
  | [] => True
  end.
(** No name of a foreign variable is the beginning of another one. *)
Definition no_prefix (st : style) (l : list piece) : Prop :=
  forall v w r, In (Var st v) l -> In (Var st w) l -> w = v ++ r -> r = [].
