(** Model of where log records go: nxt/nxt_log.py 152-213 and 220-275.

    A handler object is a number into the table of all handlers made; the root
    logger 'nxt' has a list of them.  Opening a log file succeeds; formatting and
    the tracking of log files (LogTrack.v) are left out. *)

From Coq Require Import String List NArith ZArith Bool Arith.
From Verif Require Import PyStr Dict PyVal Legacy.
Import ListNotations.

Inductive sink := Nowhere | Stderr | Remote | File (name : pystr).
Record handler := { goes : sink; least : Z }.
Record st := {
  made : list handler;               (* every handler object *)
  attached : list nat;               (* root_logger.handlers *)
  verbose_handler : option nat;      (* the global of that name *)
  sessions : dict nat                (* SESSION_LOG_HANDLERS *)
}.
Definition nothing : st := {| made := []; attached := []; verbose_handler := None; sessions := [] |}.

(** logging.Logger.addHandler of a handler made just now. *)
Definition add_new (h : handler) (s : st) : st * nat :=
  ({| made := made s ++ [h]; attached := attached s ++ [length (made s)];
      verbose_handler := verbose_handler s; sessions := sessions s |}, length (made s)).
(** logging.Logger.removeHandler: a handler is attached at most once. *)
Definition detach (i : nat) (s : st) : st :=
  {| made := made s; attached := filter (fun j => negb (Nat.eqb j i)) (attached s);
     verbose_handler := verbose_handler s; sessions := sessions s |}.
(** Handler.setLevel. *)
Fixpoint relevel (i : nat) (l : Z) (hs : list handler) : list handler :=
  match hs, i with
  | [], _ => []
  | h :: t, O => {| goes := goes h; least := l |} :: t
  | h :: t, S i => h :: relevel i l t
  end.
Definition set_level (i : nat) (l : Z) (s : st) : st :=
  {| made := relevel i l (made s); attached := attached s;
     verbose_handler := verbose_handler s; sessions := sessions s |}.

(** nxt_log.py 39-43. *)
Definition EXECINFO : Z := 18.
(** logging.DEBUG, the level of the root logger (162). *)
Definition DEBUG : Z := 10.

(** nxt_log.py 176-213: the level is a text ([NXT_VERBOSE] or the command
    line) or a number; the state afterwards and the handler returned. *)
Inductive level := Text (t : pystr) | Num (z : Z).
Definition set_verbosity (l : level) (s : st) : res (st * option nat) :=
  let is_socket := match l with Text t => str_eqb t (lit "socket") | Num _ => false end in
  if is_socket then Ok (fst (add_new {| goes := Remote; least := 0 |} s), None)
  else
    match (match l with Num z => Some z | Text t => py_int t end) with
    | None => Raise ValueError
    | Some level =>
        if Z.eqb level 0 then
          match verbose_handler s with
          | None => Ok (s, None)
          | Some i => Ok (detach i s, None)
          end
        else if Z.ltb 0 level then
          let '(s, stderr_handler) :=
            match verbose_handler s with
            | Some i => (s, i)
            | None => add_new {| goes := Stderr; least := 0 |} s
            end in
          let s := if Z.eqb level 1 then set_level stderr_handler EXECINFO s else s in
          Ok (s, Some stderr_handler)
        else Ok (s, None)
    end.

(** nxt_log.py 152-173, the first time; [env] is NXT_VERBOSE. *)
Definition initial_setup (env : option pystr) : res st :=
  let s := fst (add_new {| goes := Nowhere; least := 0 |} nothing) in
  match env with
  | None => Ok s
  | Some t => bind (set_verbosity (Text t) s) (fun '(s, h) =>
      Ok {| made := made s; attached := attached s; verbose_handler := h; sessions := sessions s |})
  end.

(** nxt_log.py 220-240 with a file name. *)
Definition make_session_log (f : pystr) (s : st) : st :=
  let '(s, i) := add_new {| goes := File f; least := 0 |} s in
  {| made := made s; attached := attached s; verbose_handler := verbose_handler s; sessions := dset f i (sessions s) |}.
(** nxt_log.py 265-275. *)
Definition stop_session_log (f : pystr) (s : st) : st :=
  match dget f (sessions s) with
  | None => s
  | Some i => detach i s
  end.

(** A record of a level logged on a logger of nxt: where it is written, in
    order (logging.Logger.callHandlers; the root logger does not propagate). *)
Definition log (l : Z) (s : st) : list sink :=
  if Z.ltb l DEBUG then []
  else map goes (filter (fun h => Z.leb (least h) l)
         (flat_map (fun i => match nth_error (made s) i with Some h => [h] | None => [] end) (attached s))).
