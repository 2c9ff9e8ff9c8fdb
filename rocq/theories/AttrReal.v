(** Model of the value of an attribute as code sees it:
    Stage.get_attr_as_real_data_type (nxt/stage.py 2212-2260) and
    determine_nxt_type (4145-4150). *)

From Coq Require Import String List NArith ZArith Bool Arith.
From Verif Require Import PyStr Dict PyVal Runtime.
Import ListNotations.

(** What ast.literal_eval does with a text: a value and the name of its type, one
    of the exceptions determine_nxt_type expects (ValueError, NameError,
    SyntaxError), or another one. *)
Inductive reading := Reads (type_name : pystr) (v : pyval) | NotLiteral | Breaks (e : exn).

Section Real.
Variable literal_eval : pystr -> reading.
(** eval with the console's globals.  Simplification: it is taken not to change
    them. *)
Variable eval : dict gval -> pystr -> res pyval.
(** resolve on the node at a path and a text (1788-2002), which may raise. *)
Variable resolve : list (dict pyval) -> pystr -> pystr -> res pystr.

(** stage.py 4145-4150 *)
Definition determine_nxt_type (value : pystr) : res pystr :=
  match literal_eval value with
  | Reads type_name _ => Ok type_name
  | NotLiteral => Ok (lit "raw")
  | Breaks e => Raise e
  end.

(** stage.py 2212-2260 for the value of the attribute.  Simplification: the
    GraphError that wraps an error of eval is the error itself. *)
Definition real (o : list (dict pyval)) (g : dict gval) (p : pystr) (attr : pystr) (unresolved : pyval) : res pyval :=
  match unresolved with
  | VStr s =>
      bind (resolve o p s) (fun resolved =>
      bind (determine_nxt_type resolved) (fun typ =>
      if str_in typ [lit "raw"; lit "str"] then Ok (VStr resolved) else eval g resolved))
  | v => Ok v
  end.
End Real.
