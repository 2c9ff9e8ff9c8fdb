(** Model of list_merger, nxt/nxt_node.py 319-382. *)

From Coq Require Import List NArith Bool.
From Verif Require Import PyStr.
Import ListNotations.

(** [l.insert(i, x)] for i >= 0 (an index past the end appends). *)
Definition py_insert (i : nat) (x : pystr) (l : list pystr) : list pystr :=
  firstn i l ++ x :: skipn i l.

(** [l.remove(x)]: drop the first occurrence; [None] is ValueError. *)
Fixpoint py_remove (x : pystr) (l : list pystr) : option (list pystr) :=
  match l with
  | [] => None
  | y :: t => if str_eqb y x then Some t
              else match py_remove x t with
                   | Some t' => Some (y :: t')
                   | None => None
                   end
  end.

(** [a[i] == b[i]]; [None] is IndexError. *)
Definition same_at (a b : list pystr) (i : nat) : option bool :=
  match nth_error a i, nth_error b i with
  | Some x, Some y => Some (str_eqb x y)
  | _, _ => None
  end.

(** List equality [base_list == overlay_list]. *)
Fixpoint list_eqb (a b : list pystr) : bool :=
  match a, b with
  | [], [] => true
  | x :: a', y :: b' => str_eqb x y && list_eqb a' b'
  | _, _ => false
  end.

(** nxt_node.py 349-368: the insert position for the item at [idx] of the
    overlay.  [None] is an IndexError escaping from line 357 (lines 362-366
    catch theirs).  Line 358 [prev_idx >= 0] is always true, so the branch of
    line 360 is dead; likewise [insert >= 0] of line 369. *)
Definition insert_position (src tgt : list pystr) (idx : nat) : option nat :=
  match nth_error src idx with
  | None => Some idx
  | Some _ =>
      match same_at src tgt (idx - 1) with
      | None => None
      | Some true => Some (idx + 0)
      | Some false =>
          match same_at src tgt (idx + 1) with
          | Some true => Some (idx + (idx + 1))
          | _ => Some (idx + 0)
          end
      end
  end.

(** nxt_node.py 346-377: the loop over the overlay; [rest] is what is left of
    [tgt] from index [idx]. *)
Fixpoint merge_loop (src tgt rest : list pystr) (idx : nat)
         (merged : list pystr) : option (list pystr) :=
  match rest with
  | [] => Some merged
  | item :: rest' =>
      if str_in item src then merge_loop src tgt rest' (S idx) merged
      else match insert_position src tgt idx with
           | None => None
           | Some i => merge_loop src tgt rest' (S idx) (py_insert i item merged)
           end
  end.

(** nxt_node.py 378-380: move [items] (already reversed) to the front. *)
Fixpoint to_front (items : list pystr) (merged : list pystr)
  : option (list pystr) :=
  match items with
  | [] => Some merged
  | x :: t => match py_remove x merged with
              | None => None
              | Some m => to_front t (py_insert 0 x m)
              end
  end.

(** nxt_node.py 319-382 list_merger; [None] would be an escaping exception. *)
Definition list_merger (base overlay : list pystr) : option (list pystr) :=
  if list_eqb base overlay then Some base
  else
    let only_source :=
      if existsb (fun x => str_in x base) overlay then []
      else filter (fun n => negb (str_in n overlay)) base in
    if forallb (fun x => str_in x base) overlay then Some base
    else match merge_loop base overlay overlay 0 base with
         | None => None
         | Some m => to_front (rev only_source) m
         end.
