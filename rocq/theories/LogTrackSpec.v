(** What keeping track of log files means, independent of the code. *)

From Coq Require Import String List NArith ZArith Bool.
From Verif Require Import PyStr LogTrack.
Import ListNotations.

(** The list of logs: one path per line. *)
Definition listing (ls : list pystr) : pystr := flat_map (fun l => l ++ [10%N]) ls.

Section Spec.
Variables (space : N -> bool) (can_remove : pystr -> bool).

(** A path that one line can hold. *)
Definition sane (p : pystr) : Prop := ~ In 10%N p /\ forall q c, p = q ++ [c] -> space c = false.

(** Older than two days. *)
Definition stale (d : disk) (p : pystr) : Prop := exists a, d p = File a /\ (172800 < a)%Z.

(** There, and not about to be removed. *)
Definition stays (d : disk) (p : pystr) : Prop :=
  (exists a, d p = File a /\ ((a <= 172800)%Z \/ can_remove p = false)) \/ d p = Unreadable.

(** A history of calls, the latest first: the disk each call found and the path
    it was to keep track of. *)
Definition history := list (disk * pystr).
Fixpoint list_after (h : history) : option pystr :=
  match h with
  | [] => None
  | (d, p) :: earlier => snd (track space can_remove true p d (list_after earlier))
  end.
End Spec.
