(** What the log stream should do, independent of the receiver. *)

From Coq Require Import String List NArith Bool Arith.
From Verif Require Import PyStr Dict PyVal.
Import ListNotations.

(** The sender puts 4 bytes in front of each message: its length, high byte
    first. *)
Definition header (m : list N) : list N :=
  let n := N.of_nat (length m) in
  [n / 16777216; n / 65536 mod 256; n / 256 mod 256; n mod 256]%N.
Definition stream (ms : list (list N)) : list N := concat (map (fun m => header m ++ m) ms).

(** The longest message whose length fits the header. *)
Definition fits (m : list N) : Prop := (N.of_nat (length m) < 4294967296)%N.

(** The network cut the bytes into non-empty segments. *)
Definition segments (segs : list (list N)) (bytes : list N) : Prop :=
  concat segs = bytes /\ Forall (fun s => s <> []) segs.

(** A segment ends inside the header of m, after the messages [before]. *)
Definition header_cut (segs : list (list N)) (before : list (list N)) (m : list N) : Prop :=
  exists early late h1 h2, segs = early ++ late /\ header m = h1 ++ h2 /\ h1 <> [] /\ h2 <> [] /\
    concat early = stream before ++ h1.

(** How a message is to be logged: under the server's name if it has one, else
    under the record's own, and with the level marked as remote. *)
Definition logged (un_pickle : list N -> res (dict pyval)) (logname : option pystr)
    (m : list N) (out : pyval * dict pyval) : Prop :=
  exists obj, un_pickle m = Ok obj /\
    (forall k, k <> lit "levelname" -> dget k (snd out) = dget k obj) /\
    (match dget (lit "levelname") obj with
     | Some (VStr (c :: s)) => dget (lit "levelname") (snd out) = Some (VStr (lit "remote." ++ c :: s))
     | other => dget (lit "levelname") (snd out) = other
     end) /\
    fst out = match logname, dget (lit "name") obj with
              | Some n, _ => VStr n
              | None, Some n => n
              | None, None => VNone
              end.

(** Messages the receiver can turn into records. *)
Definition readable (un_pickle : list N -> res (dict pyval)) (m : list N) : Prop :=
  exists obj, un_pickle m = Ok obj /\
    match dget (lit "levelname") obj with
    | Some (VStr _) | Some VNone | None => True
    | Some _ => False
    end.
