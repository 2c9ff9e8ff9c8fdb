(** Model of how the address of the rpc server is left for others and found by
    them: secure_address (nxt/remote/server.py 175-184) and
    get_running_server_address (nxt/remote/__init__.py 9-27).  The file
    NXT_RPC_SERVER is its text, None when there is none; the port is the one
    the system hands out. *)

From Coq Require Import String List NArith ZArith Bool Arith.
From Verif Require Import PyStr PyVal Legacy Names.
Import ListNotations.

Definition NL : N := 10%N.

(** [fp.readlines()]: the lines with their ends. *)
Fixpoint readlines (s : pystr) : list pystr :=
  match s with
  | [] => []
  | c :: t =>
      if N.eqb c NL then [c] :: readlines t
      else match readlines t with
           | [] => [[c]]
           | l :: ls => (c :: l) :: ls
           end
  end.

(** server.py 181-183: what is written, in this order. *)
Definition address_text (port : nat) : pystr := lit "localhost" ++ [NL] ++ dec port.
Definition secure_address (port : nat) : option pystr * (pystr * Z) :=
  (Some (address_text port), (lit "localhost", Z.of_nat port)).

(** remote/__init__.py 9-27 with [as_str=False]; the logged error is left out. *)
Definition get_running_server_address (file : option pystr) : res (pystr * Z) :=
  let host := lit "localhost" in
  let port := 8001%Z in
  match file with
  | None => Ok (host, port)
  | Some text =>
      match readlines text with
      | [_; port] => match py_int port with Some port => Ok (host, port) | None => Raise ValueError end
      | _ => Ok (host, port)
      end
  end.
