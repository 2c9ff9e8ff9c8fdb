(** What executing in another context means, independent of the code. *)

From Coq Require Import String List NArith Bool.
From Verif Require Import PyStr Dict PyVal Headless.
Import ListNotations.

(** The context a name stands for: the first registered with it. *)
Definition first_named (known : list context) (name : pystr) (c : context) : Prop :=
  exists before after, known = before ++ c :: after /\ c_name c = name /\ Forall (fun b => c_name b <> name) before.

(** What is on the command line is a path. *)
Definition rooted (p : pystr) : Prop := exists r, p = lit "/" ++ r.

(** The arguments a host program shows to the script: a Python interpreter leaves
    itself out, other programs show all. *)
Definition shown (c : context) (args : list pystr) : list pystr :=
  match c_args c with [] => tl args | _ => args end.
