(** Model of the verbosity asked for on the command line (nxt/cli.py 242-245)
    and of the one the rpc server is started with (nxt/session.py 319-321 and
    337-347).  The environment variable NXT_VERBOSE is an optional text. *)

From Coq Require Import String List NArith ZArith Bool Arith.
From Verif Require Import PyStr Dict PyVal Legacy Names LogHandlers.
Import ListNotations.

(** args.verbose: None, a count of -v (cli.py 154-156) or the True of the
    legacy flag (163-164). *)
Inductive asked := Unasked | Count (n : nat) | Flag.
(** [bool(args.verbose)], [str(args.verbose)] and what [int] gives for it. *)
Definition asked_any (a : asked) : bool := match a with Unasked => false | Count n => negb (Nat.eqb n 0) | Flag => true end.
Definition asked_text (a : asked) : pystr := match a with Unasked => lit "None" | Count n => dec n | Flag => lit "True" end.
Definition asked_level (a : asked) : level := Num (match a with Unasked => 0%Z | Count n => Z.of_nat n | Flag => 1%Z end).

(** cli.py 242-245. *)
Definition apply_verbose (a : asked) (env : option pystr) (s : st) : res (option pystr * st) :=
  if asked_any a then
    let env := match env with None => Some (asked_text a) | Some _ => env end in
    bind (set_verbosity (asked_level a) s) (fun '(s, _) => Ok (env, s))
  else Ok (env, s).

(** A run of the command: nxt/__init__.py 11, then the above. *)
Definition command (env : option pystr) (a : asked) : res (option pystr * st) :=
  bind (initial_setup env) (apply_verbose a env).

(** session.py 319-347: the environment the server is started with, and the one
    left behind; [up] is whether the server was seen in time (otherwise OSError). *)
Definition server_environment (socket_logging up : bool) (env : option pystr) : option pystr * (option pystr * bool) :=
  let old_env_verbosity := env in
  let env := if socket_logging then Some (lit "socket") else env in
  (env, if up then (match old_env_verbosity with Some t => Some t | None => env end, true) else (env, false)).
