(** Python values as far as saved data needs them, exceptions as values, and
    [sorted].  This file models the Python runtime and json, not nxt itself. *)

From Coq Require Import String List NArith ZArith Bool.
From Verif Require Import PyStr Dict.
Import ListNotations.

(** [VObj] stands for any object json cannot write.  Numbers are integers here
    (a float behaves the same: zero is falsy, anything else truthy); dict keys
    are strings. *)
Inductive pyval :=
| VNone
| VBool (b : bool)
| VInt (z : Z)
| VStr (s : pystr)
| VList (l : list pyval)
| VTuple (l : list pyval)
| VDict (d : list (pystr * pyval))
| VObj (id : nat).

(** [bool(v)]. *)
Definition truthy (v : pyval) : bool :=
  match v with
  | VNone => false
  | VBool b => b
  | VInt z => negb (Z.eqb z 0)
  | VStr s => match s with [] => false | _ => true end
  | VList l | VTuple l => match l with [] => false | _ => true end
  | VDict d => match d with [] => false | _ => true end
  | VObj _ => true
  end.

(** [json.dumps(v)] does not raise TypeError. *)
Fixpoint json_ok (v : pyval) : bool :=
  match v with
  | VList l | VTuple l => forallb json_ok l
  | VDict d => forallb (fun kv => json_ok (snd kv)) d
  | VObj _ => false
  | _ => true
  end.

(** What [json.loads(json.dumps(v))] gives: tuples come back as lists. *)
Fixpoint json_norm (v : pyval) : pyval :=
  match v with
  | VList l | VTuple l => VList (map json_norm l)
  | VDict d => VDict (map (fun kv => (fst kv, json_norm (snd kv))) d)
  | _ => v
  end.

(** A call that may raise. *)
Inductive exn := KeyError | AttributeError | TypeError | ValueError | IndexError | IOError.
Inductive res (A : Type) :=
| Ok (a : A)
| Raise (e : exn).
Arguments Ok {A}.
Arguments Raise {A}.

Definition bind {A B} (r : res A) (f : A -> res B) : res B :=
  match r with Ok a => f a | Raise e => Raise e end.

(** A for loop whose body may raise. *)
Fixpoint fold_res {A B} (f : A -> B -> res A) (l : list B) (a : A) : res A :=
  match l with
  | [] => Ok a
  | x :: t => bind (f a x) (fold_res f t)
  end.

(** [a < b] on strings. *)
Fixpoint str_ltb (a b : pystr) : bool :=
  match a, b with
  | _, [] => false
  | [], _ :: _ => true
  | x :: a', y :: b' => if N.ltb x y then true else if N.eqb x y then str_ltb a' b' else false
  end.

(** [OrderedDict(sorted(d.items(), key=lambda x: x[0]))]. *)
Fixpoint insert_item {V} (kv : pystr * V) (l : dict V) : dict V :=
  match l with
  | [] => [kv]
  | x :: t => if str_ltb (fst x) (fst kv) then x :: insert_item kv t else kv :: l
  end.
Fixpoint sort_items {V} (d : dict V) : dict V :=
  match d with
  | [] => []
  | kv :: t => insert_item kv (sort_items t)
  end.
