(** Model of the receiving end of the log socket: LogRecordStreamHandler
    (nxt/nxt_log.py 286-335).  The network is the list of segments in which
    the bytes arrive; threads and the logging package are not modelled, a
    handled record is the pair of the logger's name and the record's values. *)

From Coq Require Import String List NArith Bool Arith.
From Verif Require Import PyStr Dict PyVal.
Import ListNotations.

(** socket.recv(n): at most n bytes of the first segment that has arrived;
    nothing when the other side has closed. *)
Definition recv (n : nat) (c : list (list N)) : list N * list (list N) :=
  match c with
  | [] => ([], [])
  | s :: rest => (firstn n s, match skipn n s with [] => rest | r => r :: rest end)
  end.

(** struct.unpack('>L', chunk)[0], for 4 bytes. *)
Definition unpack (chunk : list N) : N := fold_left (fun a b => (a * 256 + b)%N) chunk 0%N.

(** nxt_log.py 309-310.  None when out of fuel. *)
Fixpoint fill (fuel slen : nat) (chunk : list N) (c : list (list N)) : option (list N * list (list N)) :=
  if length chunk <? slen then
    match fuel with
    | 0 => None
    | S f => let (more, c') := recv (slen - length chunk) c in fill f slen (chunk ++ more) c'
    end
  else Some (chunk, c).

Inductive finish := Closed | Error (e : exn) | OutOfFuel.

Section Handler.
(** pickle.loads of a message, a dict for every record the sender makes; and
    the server's logname. *)
Variables (un_pickle : list N -> res (dict pyval)) (logname : option pystr).

(** nxt_log.py 312-314 *)
Definition relabel (obj : dict pyval) : res (dict pyval) :=
  match dget (lit "levelname") obj with
  | Some v =>
      if truthy v then
        match v with
        | VStr s => Ok (dset (lit "levelname") (VStr (lit "remote." ++ s)) obj)
        | _ => Raise TypeError
        end
      else Ok obj
  | None => Ok obj
  end.

(** nxt_log.py 321-335; a record made by makeLogRecord from a dict without
    name has the name None. *)
Definition log_record (obj : dict pyval) : pyval * dict pyval :=
  (match logname with
   | Some n => VStr n
   | None => match dget (lit "name") obj with Some n => n | None => VNone end
   end, obj).

(** nxt_log.py 298-317 *)
Fixpoint handle (fuel : nat) (c : list (list N)) : list (pyval * dict pyval) * finish :=
  match fuel with
  | 0 => ([], OutOfFuel)
  | S f =>
      let (chunk, c1) := recv 4 c in
      if length chunk <? 4 then ([], Closed)
      else
        let slen := N.to_nat (unpack chunk) in
        let (chunk, c2) := recv slen c1 in
        match fill f slen chunk c2 with
        | None => ([], OutOfFuel)
        | Some (chunk, c3) =>
            match bind (un_pickle chunk) relabel with
            | Ok obj => let (out, e) := handle f c3 in (log_record obj :: out, e)
            | Raise e => ([], Error e)
            end
        end
  end.
End Handler.
