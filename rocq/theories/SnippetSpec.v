(** How running a piece of code ends, independent of the code of nxt. *)

From Coq Require Import List.
From Verif Require Import Runtime.
Import ListNotations.

(** Leaving the node or the graph early is no error, all errors are graph errors. *)
Definition snippet_end (r : option raised) : ended :=
  match r with
  | None | Some ExitNode | Some ExitGraph => Normal
  | Some Interrupt => Exc Interrupt
  | Some (GraphError | InvalidNode _ | Failure _) => Exc GraphError
  end.
