(** Vocabulary for where log records go. *)

From Coq Require Import String List NArith ZArith Bool Arith.
From Verif Require Import PyStr Dict PyVal Legacy LogHandlers.
Import ListNotations.

(** What may be called, in any order. *)
Inductive event := Verbosity (l : level) | Start (f : pystr) | Stop (f : pystr).
(** A call that raises changes nothing. *)
Definition after (e : event) (s : st) : st :=
  match e with
  | Verbosity l => match set_verbosity l s with Ok (s', _) => s' | Raise _ => s end
  | Start f => make_session_log f s
  | Stop f => stop_session_log f s
  end.
Definition run (es : list event) (s : st) : st := fold_left (fun s e => after e s) es s.

Definition sink_dec (x y : sink) : {x = y} + {x <> y}.
Proof. repeat decide equality. Defined.
(** How often a record of a level is written to a place. *)
Definition copies (k : sink) (l : Z) (s : st) : nat := count_occ sink_dec (log l s) k.

(** The last thing asked for a file was to log to it. *)
Definition logging_to (f : pystr) (es : list event) : bool :=
  fold_left (fun b e => match e with
                        | Start g => if str_eqb g f then true else b
                        | Stop g => if str_eqb g f then false else b
                        | _ => b
                        end) es false.
(** No logging to a file is started while it is already logged to. *)
Definition not_restarted (f : pystr) (es : list event) : Prop :=
  forall a b, es = a ++ Start f :: b -> logging_to f a = false.

(** The verbosity a call asks for. *)
Definition asks (e : event) : option Z :=
  match e with
  | Verbosity (Num z) => Some z
  | Verbosity (Text t) => if str_eqb t (lit "socket") then None else py_int t
  | _ => None
  end.
Definition asks_for (p : Z -> bool) (e : event) : bool := match asks e with Some z => p z | None => false end.
Definition asks_socket (e : event) : bool :=
  match e with Verbosity (Text t) => str_eqb t (lit "socket") | _ => false end.
(** How many of the calls ask for such a verbosity. *)
Definition times (p : event -> bool) (es : list event) : nat := length (filter p es).
