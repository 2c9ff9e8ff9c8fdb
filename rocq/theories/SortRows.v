(** Model of sort_multidimensional_list, nxt/nxt_layer.py 1182-1224.
    [key row] is len(row[sort_by_idx]); a row without that item (IndexError)
    is not modelled. *)

From Coq Require Import List Arith.
Import ListNotations.

Section Sort.
Context {A : Type} (key : A -> nat).

(** nxt_layer.py 1208-1221: one pass over the first [n] adjacent pairs.
    [item_len] of the code is the key of the element at position ii: after a
    swap the larger element has moved to ii+1, otherwise it is reloaded. *)
Fixpoint sort_pass (n : nat) (l : list A) : list A :=
  match n, l with
  | S n', a :: b :: t =>
      if Nat.ltb (key b) (key a) then b :: sort_pass n' (a :: t)
      else a :: sort_pass n' (b :: t)
  | _, _ => l
  end.

(** nxt_layer.py 1207-1222: [fuel] passes, starting with pass number [i].  The
    bound list_len - i - 1 may be negative in Python (no iteration), as with
    truncated subtraction. *)
Fixpoint sort_passes (fuel i len : nat) (l : list A) : list A :=
  match fuel with
  | O => l
  | S f => sort_passes f (S i) len (sort_pass (len - i - 1) l)
  end.

(** nxt_layer.py 1203-1224: while i <= list_len, i.e. list_len + 1 passes. *)
Definition sort_multidimensional_list (l : list A) : list A :=
  match l with
  | [] => l
  | _ => sort_passes (S (length l)) 0 (length l) l
  end.

End Sort.
