(** Model of running a piece of code on a node: Stage.execute_custom_code
    (nxt/stage.py 3849-3870) and the custom code path of run and get_node_code
    (4063-4068, 2337-2339).

    Running is Runtime.v's.  Resolving the tokens of the text is a parameter that
    may raise.  The log of entered and left nodes is the model's own; a missing
    node is not logged. *)

From Coq Require Import String List NArith ZArith Bool Arith.
From Verif Require Import PyStr Dict NxtPath PyVal NodeIO Runtime StageRun.
From Verif Require Layer.
Import ListNotations.

(** nxt_layer.py 1005-1018 set_node_exit_time. *)
Definition close_time (st : rt) (p : pystr) : res rt :=
  match dget p (times st) with
  | None => Raise KeyError
  | Some l => match close_first l with
              | None => Raise ValueError
              | Some l' => Ok (with_times st (dset p l' (times st)))
              end
  end.

Section Stage.
Variables (same same_name : pystr -> pystr -> bool) (bound : nat) (L : Layer.layer)
          (node_of : pystr -> option (nat * list nat))
          (lines_of : list (dict pyval) -> pystr -> res (list pystr)) (meaning : list pystr -> option prog)
          (real : list (dict pyval) -> dict gval -> pystr -> pystr -> pyval -> res pyval)
          (deepcopy : pyval -> res (option pyval)) (str_of : pyval -> pystr) (builtins : list pystr).
(** resolve on the node at a path and a text, stage.py 3858. *)
Variable resolve : list (dict pyval) -> pystr -> pystr -> res pystr.

(** The lines that run: [if custom_code], stage.py 4063-4068 and 2337-2343. *)
Definition custom_lines (text : pystr) (o : list (dict pyval)) (p : pystr) : res (list pystr) :=
  match text with
  | [] => lines_of o p
  | _ => Ok (split 10%N text)
  end.

(** stage.py 3857-3868, on a runtime layer.  The exception that ends code early
    is returned, not raised (3863-3864). *)
Definition snippet (fuel : nat) (p text : pystr) (st : rt) : rt * ended :=
  match resolve (own st) p text with
  | Raise e => (st, Exc (Failure e))
  | Ok text =>
      match node_of p with
      | None =>
          (* 4061-4069: None has no attribute to set *)
          match close_time (enter_time st p) p with
          | Raise e => (st, Exc (Failure e))
          | Ok st' => (st', Exc (Failure AttributeError))
          end
      | Some (c, mro) =>
          let st1 := with_log (enter_time st p) (log st ++ [Enter p]) in
          match Runtime.run node_of (exec_order same same_name bound L) (custom_lines text) meaning real deepcopy builtins
                  (execute_nodes same same_name bound L node_of lines_of meaning real deepcopy str_of builtins fuel) p c mro st1 with
          | (st2, OutOfFuel) => (st2, OutOfFuel)
          | (st2, e) =>
              match close_time st2 p with
              | Raise x => (with_log st2 (log st2 ++ [Leave p]), Exc (Failure x))
              | Ok st3 => (with_log st3 (log st3 ++ [Leave p]),
                           match e with Exc (ExitNode | ExitGraph) => Normal | e => e end)
              end
          end
      end
  end.

(** stage.py 3852-3854: on a composed layer a runtime layer is made first. *)
Definition snippet_on_composed (fuel : nat) (p text : pystr) (o : list (dict pyval)) : rt * ended :=
  match setup same same_name bound L node_of lines_of meaning real deepcopy str_of builtins fuel o [] with
  | (st, Normal) => snippet fuel p text st
  | r => r
  end.
End Stage.
