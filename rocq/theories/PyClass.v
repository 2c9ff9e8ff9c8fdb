(** Model of Python classes as far as composition uses them: a class is an
    object with a tuple of base classes and attributes of its own.  The MRO is
    C3 (CPython Objects/typeobject.c pmerge and mro_implementation), which fails
    with TypeError when there is no consistent order.  Nodes of nxt are classes
    (nxt/nxt_node.py 165-184); composition assigns to their __bases__
    (nxt/stage.py 3365-3406). *)

From Coq Require Import List Bool Arith.
Import ListNotations.

Section Classes.
Context {A : Type} (eqb : A -> A -> bool).

Definition isin (x : A) (l : list A) : bool := existsb (eqb x) l.

(** The first head that stands in no tail. *)
Definition in_a_tail (x : A) (ls : list (list A)) : bool := existsb (fun l => isin x (tl l)) ls.
Fixpoint candidate (todo all : list (list A)) : option A :=
  match todo with
  | [] => None
  | [] :: t => candidate t all
  | (x :: _) :: t => if in_a_tail x all then candidate t all else Some x
  end.
Definition drop_head (x : A) (l : list A) : list A :=
  match l with
  | [] => []
  | y :: t => if eqb x y then t else l
  end.
Definition all_empty (ls : list (list A)) : bool := forallb (fun l => match l with [] => true | _ => false end) ls.
(** Out of fuel is never reached: see [merge_enough] in PyClassProofs.v. *)
Fixpoint merge (fuel : nat) (ls : list (list A)) : option (list A) :=
  if all_empty ls then Some []
  else
    match fuel with
    | 0 => None
    | S f =>
        match candidate ls ls with
        | None => None
        | Some x => option_map (cons x) (merge f (map (drop_head x) ls))
        end
    end.
Definition c3_merge (ls : list (list A)) : option (list A) := merge (length (concat ls)) ls.

(** All or nothing. *)
Fixpoint sequence {B} (l : list (option B)) : option (list B) :=
  match l with
  | [] => Some []
  | None :: _ => None
  | Some x :: t => option_map (cons x) (sequence t)
  end.

Section Graph.
Variable bases : A -> list A.
(** Out of fuel, and so None, when the classes inherit from each other in a
    circle (CPython refuses such an assignment with a TypeError, too). *)
Fixpoint mro (fuel : nat) (c : A) : option (list A) :=
  match fuel with
  | 0 => None
  | S f =>
      match sequence (map (mro f) (bases c)) with
      | None => None
      | Some ls => option_map (cons c) (c3_merge (ls ++ [bases c]))
      end
  end.
End Graph.

(** getattr on a class: the first class of the MRO that has the attribute. *)
Section Lookup.
Context {V : Type} (own : A -> option V).
Fixpoint lookup_in (l : list A) : option (A * V) :=
  match l with
  | [] => None
  | c :: t => match own c with Some v => Some (c, v) | None => lookup_in t end
  end.
End Lookup.
End Classes.
