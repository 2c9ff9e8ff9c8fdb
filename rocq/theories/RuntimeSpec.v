(** What it means to run nodes, independent of the code. *)

From Coq Require Import String List NArith ZArith Bool Arith.
From Verif Require Import PyStr Dict NxtPath PathSpec PyVal NodeIO Runtime.
Import ListNotations.

(** ** Globals *)

(** The text [global name] stands in a line that does not start as a comment or
    a string. *)
Definition declared (lines : list pystr) (k : pystr) : Prop :=
  exists line, In line lines /\
    (forall c rest, line = c :: rest -> c <> 35%N /\ c <> 39%N /\ c <> 34%N) /\
    exists before after, line = before ++ lit "global " ++ k ++ after.

(** ** Which nodes ran *)

(** [session evs ran]: the events are complete runs of the nodes [ran] one after
    the other, each possibly with complete sessions inside. *)
Inductive session : list event -> list pystr -> Prop :=
| SNil : session [] []
| SAssign p a rest ran : session rest ran -> session (Assign p a :: rest) ran
| SRun p inner inner_ran rest ran :
    session inner inner_ran -> session rest ran ->
    session (Enter p :: inner ++ Leave p :: rest) (p :: ran).

(** ** Code that does not execute other nodes *)

(** It keeps the name self, and calls no execute. *)
Inductive tidy : prog -> Prop :=
| TStop r : tidy (Stop r)
| TSetGlobal k v p : k <> lit "self" -> tidy p -> tidy (SetGlobal k v p)
| TDelGlobal k p : k <> lit "self" -> tidy p -> tidy (DelGlobal k p)
| TGetGlobal k q : (forall v, tidy (q v)) -> tidy (GetGlobal k q)
| TSetAttr a v p : tidy p -> tidy (SetAttr a v p)
| TDelAttr a p : tidy p -> tidy (DelAttr a p)
| TGetAttr a q : (forall v, tidy (q v)) -> tidy (GetAttr a q).

(** What such code does to the globals and to its own attributes. *)
Fixpoint eval (p : prog) (g : dict gval) (f : dict pyval) : dict gval * dict pyval * option raised :=
  match p with
  | Stop r => (g, f, r)
  | SetGlobal k v q => eval q (dset k v g) f
  | DelGlobal k q => if dmem k g then eval q (ddel k g) f else (g, f, Some (Failure KeyError))
  | GetGlobal k q => eval (q (dget k g)) g f
  | SetAttr a v q => eval q g (dset a v f)
  | DelAttr a q => if dmem a f then eval q g (ddel a f) else (g, f, Some (Failure AttributeError))
  | GetAttr a q => eval (q (dget a f)) g f
  | Execute _ _ _ => (g, f, None)
  end.

(** How the end of the code shows outside: leaving the node early is no error,
    all errors are graph errors. *)
Definition seen (r : option raised) : ended :=
  match r with
  | None | Some ExitNode => Normal
  | Some ExitGraph => Exc ExitGraph
  | Some Interrupt => Exc Interrupt
  | Some (GraphError | InvalidNode _ | Failure _) => Exc GraphError
  end.

(** Whether code that ended so has its attribute changes kept. *)
Definition kept (r : option raised) : bool :=
  match r with None | Some ExitNode | Some ExitGraph => true | _ => false end.

(** An attribute [a] of the node after code took its values from [f] to [f'],
    when the node had [old]: set only when its value changed. *)
Definition pushed (f f' : dict pyval) (a : pystr) (old : option pyval) : option pyval :=
  match dget a f, dget a f' with
  | Some v, Some w => if py_eqb v w then old else Some w
  | _, _ => old
  end.

(** Runs of a node that all ended. *)
Definition all_ended (t : dict (list bool)) (p : pystr) : Prop :=
  forall l, dget p t = Some l -> Forall (fun b => b = true) l.

(** ** Parameters *)

Section Parameters.
Variable node_of : pystr -> option (nat * list nat).

(** The parameter [key] is for attribute [a] of the node whose class is [k]. *)
Definition addresses (key : pyval) (k : nat) (a : pystr) : Prop :=
  exists p m, key = VStr (make_attr_path p a) /\ a <> [] /\ ~ In PERIOD a /\ node_of p = Some (k, m).

(** The parameter names an existing node but no attribute of it. *)
Definition no_attribute (key : pyval) : Prop :=
  exists s c m, key = VStr s /\ node_of s = Some (c, m) /\ (~ In PERIOD s \/ exists t, s = t ++ [PERIOD]).
End Parameters.
