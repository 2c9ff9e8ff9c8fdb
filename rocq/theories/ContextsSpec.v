(** What contexts and plugins mean, independent of the code. *)

From Coq Require Import String List NArith Bool.
From Verif Require Import PyStr Dict Headless Contexts.
Import ListNotations.

(** Every other file is as it was. *)
Definition only_files (ps : list pystr) (before after : dict content) : Prop :=
  forall p, ~ In p ps -> dget p after = dget p before.

(** A text without quotes, backslashes and line ends. *)
Definition harmless (t : pystr) : Prop := Forall (fun c => ~ In c [10%N; 13%N; 39%N; 92%N]) t.

(** ... and without number signs. *)
Definition ordinary (t : pystr) : Prop := Forall (fun c => ~ In c [10%N; 13%N; 35%N; 39%N; 92%N]) t.

(** A text with an apostrophe inside a word: two ordinary parts around it. *)
Definition apostrophe (t : pystr) : Prop :=
  exists a b, t = a ++ lit "'" ++ b /\ a <> [] /\ b <> [] /\ ordinary (a ++ b).

(** The file of the module called [m] that counts: in the first of the directories
    that lists a file of that name and has the module. *)
Definition offers (listdir : pystr -> option (list pystr)) (found : dict content) (d m : pystr) : Prop :=
  exists names f, listdir d = Some names /\ In f names /\ stem f = m /\ dget (module_file d m) found <> None.
Definition first_offer listdir found (dirs : list pystr) (d m : pystr) : Prop :=
  exists before after, dirs = before ++ d :: after /\ offers listdir found d m /\ Forall (fun b => ~ offers listdir found b m) before.

(** The contexts a plugin registers; none if it raises. *)
Definition contexts_of (c : content) : option (list context) :=
  match c with
  | Plugin n e g a => match run_plugin n e g a with Registers x => Some [x] | _ => None end
  | Code r => r
  | Graph _ _ => None
  end.
(** ... of the module [m] of the directory [d]. *)
Definition contexts_at (found : dict content) (dm : pystr * pystr) : list context :=
  match dget (module_file (fst dm) (snd dm)) found with
  | Some c => match contexts_of c with Some l => l | None => [] end
  | None => []
  end.
Definition raises_at (found : dict content) (d m : pystr) : Prop :=
  exists c, dget (module_file d m) found = Some c /\ contexts_of c = None.
