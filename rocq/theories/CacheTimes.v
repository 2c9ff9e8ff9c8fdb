(** Model of CacheLayer's run times, nxt/nxt_layer.py 976-1026.

    A time entry is a two item list object shared by [node_times] and
    [node_time_map]; it lives in a heap and both structures hold its address.
    Times are integers (floats are only compared and subtracted here; NaN and
    rounding are not modelled).  The time argument is the time in effect: when
    the caller passes 0 the code uses time.time(), an arbitrary number. *)

From Coq Require Import List NArith ZArith Bool.
From Verif Require Import PyStr Dict.
Import ListNotations.

Definition entry := (Z * option Z)%type.

(** nxt_layer.py 977-981: state; an address is an index into [heap]. *)
Record cache := {
  heap : list entry;
  node_times : list nat;
  node_time_map : dict (list nat)
}.

Definition empty_cache : cache :=
  {| heap := []; node_times := []; node_time_map := [] |}.

(** Entry stored at an address (addresses held by the cache are valid). *)
Definition load (h : list entry) (a : nat) : entry := nth a h (0%Z, None).

(** In-place update of the entry at an address. *)
Fixpoint store (h : list entry) (a : nat) (e : entry) : list entry :=
  match h, a with
  | [], _ => []
  | _ :: t, O => e :: t
  | x :: t, S a' => x :: store t a' e
  end.

(** nxt_layer.py 996-1003 set_node_enter_time. *)
Definition set_node_enter_time (c : cache) (p : pystr) (t : Z) : cache :=
  let a := length (heap c) in
  {| heap := heap c ++ [(t, None)];
     node_times := node_times c ++ [a];
     node_time_map := dset p (dget_def p [] (node_time_map c) ++ [a])
                           (node_time_map c) |}.

Inductive exit_result :=
| Exited (c : cache)
| KeyErr                 (* 1009: the path was never entered *)
| ValueErr.              (* 1017: no run without exit time *)

(** nxt_layer.py 1012-1016: first address without exit time. *)
Fixpoint first_open (h : list entry) (l : list nat) : option nat :=
  match l with
  | [] => None
  | a :: t => match snd (load h a) with
              | None => Some a
              | Some _ => first_open h t
              end
  end.

(** nxt_layer.py 1005-1018 set_node_exit_time. The except IndexError of line
    1010 never fires for a dict; the KeyError escapes. *)
Definition set_node_exit_time (c : cache) (p : pystr) (t : Z) : exit_result :=
  match dget p (node_time_map c) with
  | None => KeyErr
  | Some runs =>
      match first_open (heap c) runs with
      | None => ValueErr
      | Some a =>
          Exited {| heap := store (heap c) a (fst (load (heap c) a), Some t);
                    node_times := node_times c;
                    node_time_map := node_time_map c |}
      end
  end.

(** nxt_layer.py 983-994 was_during_node_exec.  With no exit time and
    time < enter the chained comparison stops at its first half. *)
Definition was_during_node_exec (c : cache) (t : Z) : bool :=
  existsb (fun a =>
    let '(en, ex) := load (heap c) a in
    match ex with
    | None => Z.leb en t
    | Some x => Z.leb en t && Z.leb t x
    end) (rev (node_times c)).

Inductive run_result :=
| RunTime (t : Z)
| NoTime                 (* ValueError *)
| StillOpen.             (* TypeError: None - float *)

(** Python list indexing with a possibly negative index. *)
Definition py_index {A} (l : list A) (i : Z) : option A :=
  if Z.leb 0 i then nth_error l (Z.to_nat i)
  else if Z.leb 0 (Z.of_nat (length l) + i)
       then nth_error l (Z.to_nat (Z.of_nat (length l) + i))
       else None.

(** nxt_layer.py 1020-1026 get_node_run_time. *)
Definition get_node_run_time (c : cache) (p : pystr) (i : Z) : run_result :=
  match dget p (node_time_map c) with
  | None => NoTime
  | Some runs =>
      match py_index runs i with
      | None => NoTime
      | Some a => let '(en, ex) := load (heap c) a in
                  match ex with
                  | None => StillOpen
                  | Some x => RunTime (x - en)
                  end
      end
  end.

(** A history: enter / exit events; a raising exit leaves the state alone. *)
Inductive event := Enter (p : pystr) (t : Z) | Exit (p : pystr) (t : Z).

Definition step (c : cache) (e : event) : cache :=
  match e with
  | Enter p t => set_node_enter_time c p t
  | Exit p t => match set_node_exit_time c p t with
                | Exited c' => c'
                | _ => c
                end
  end.

Definition history (es : list event) : cache := fold_left step es empty_cache.
