(** What loading a file with references means, independent of the code. *)

From Coq Require Import String List NArith Bool Arith.
From Verif Require Import PyStr Dict PyVal StageLoad.
Import ListNotations.

(** The files a file brings in: for each reference what was found there. *)
Inductive ftree := File (d : fdata) (refs : list found)
with found := Opened (p : pystr) (t : ftree) | Unopenable (p : pystr) | Empty (p : pystr).

Definition found_path (x : found) : pystr := match x with Opened p _ | Unopenable p | Empty p => p end.
Definition root_of (t : ftree) : fdata := match t with File d _ => d end.

Section Files.
Variables (load : pystr -> pystr -> opened) (dirname : pystr -> pystr).

(** References are looked up from the directory of the file they stand in. *)
Inductive brings : ftree -> Prop :=
| Brings d refs : map found_path refs = f_refs d -> Forall (arrives (dirname (f_real d))) refs -> brings (File d refs)
with arrives : pystr -> found -> Prop :=
| ArrOpened dir p t : load dir p = Loaded (root_of t) -> brings t -> arrives dir (Opened p t)
| ArrMissing dir p : load dir p = Missing -> arrives dir (Unopenable p)
| ArrNothing dir p : load dir p = Nothing -> arrives dir (Empty p).

(** [d'] is loaded because of a reference in [d]. *)
Definition refers (d' d : fdata) : Prop :=
  exists p, In p (f_refs d) /\ load (dirname (f_real d)) p = Loaded d'.

(** No reference makes the loader crash. *)
Definition sound (d : fdata) : Prop := forall p e, In p (f_refs d) -> load (dirname (f_real d)) p <> Broken e.
End Files.

(** The layers of the tree: a file stands before the files it references, and
    the files of an earlier reference before those of a later one.  [start] is
    the number of the first; a file knows the number of the file that
    references it, and keeps the references that could be opened. *)
Definition kept (x : found) : bool :=
  match x with Unopenable _ => false | _ => match found_path x with [] => false | _ => true end end.
Fixpoint size (t : ftree) : nat :=
  match t with
  | File _ refs => S (list_sum (map (fun x => match x with Opened _ t => size t | _ => 0 end) refs))
  end.
Fixpoint listing (start : nat) (parent : option nat) (t : ftree) : list lay :=
  match t with
  | File d refs =>
      {| l_real := f_real d; l_file := f_file d; l_parent := parent;
         l_paths := map found_path (filter kept refs);
         l_subs := map (fun x => (found_path x, None)) (filter kept refs) |} ::
      (fix go pos refs :=
         match refs with
         | [] => []
         | Opened _ t :: rest => listing pos (Some start) t ++ go (pos + size t) rest
         | _ :: rest => go pos rest
         end) (S start) refs
  end.
(** Just the files, in that order. *)
Fixpoint files (t : ftree) : list fdata :=
  match t with
  | File d refs => d :: concat (map (fun x => match x with Opened _ t => files t | _ => [] end) refs)
  end.

(** The line of layers that leads to a layer: its parent, the parent of that... *)
Inductive lineage (st : stg) : option nat -> list lay -> Prop :=
| LEnd : lineage st None []
| LStep i l up : nth_error (lays st) i = Some l -> lineage st (l_parent l) up -> lineage st (Some i) (l :: up).

(** ** Removing a layer *)

(** Layer [x] has an entry for layer [j]. *)
Definition holds (st : stg) (x j : nat) : Prop :=
  exists l p, nth_error (lays st) x = Some l /\ In (p, Some j) (l_subs l).
(** [j] is [i], or a reference of it, or a reference of a reference of it... *)
Inductive under (st : stg) : nat -> nat -> Prop :=
| USelf i : under st i i
| UStep i k j : holds st i k -> under st k j -> under st i j.

(** Every reference is a loaded layer (true after the stage is built, unless a
    file is referenced twice by the same layer). *)
Definition linked (st : stg) : Prop :=
  forall x l e, nth_error (lays st) x = Some l -> In e (l_subs l) ->
    exists j, snd e = Some j /\ j < length (lays st).

(** The entry under which layer [j] stands in the layer that references it. *)
Definition entry_of (st : stg) (e : pystr * option nat) (j : nat) : bool :=
  match nth_error (lays st) j with
  | Some l => str_eqb (fst e) (l_file l) && match snd e with Some k => Nat.eqb k j | None => false end
  | None => false
  end.
Definition file_of (st : stg) (j : nat) : pystr :=
  match nth_error (lays st) j with Some l => l_file l | None => [] end.

(** [st'] is [st] without the layers [gone]: the others keep their order, lose
    their entries for those layers, and lose one mention of each one's file. *)
Record without (gone : list nat) (st st' : stg) : Prop := {
  w_order : order st' = filter (fun x => negb (existsb (Nat.eqb x) gone)) (order st);
  w_count : length (lays st') = length (lays st);
  w_same : forall x l, nth_error (lays st) x = Some l ->
    exists l', nth_error (lays st') x = Some l' /\
      l_real l' = l_real l /\ l_file l' = l_file l /\ l_parent l' = l_parent l /\
      incl (l_subs l') (l_subs l) /\
      (In x (order st') ->
         l_subs l' = filter (fun e => negb (existsb (entry_of st e) gone)) (l_subs l) /\
         l_paths l' = fold_left (fun ps j => remove_path (file_of st j) ps) gone (l_paths l))
}.

(** The first, third, fifth... of a list. *)
Fixpoint every_other {A} (l : list A) : list A :=
  match l with
  | [] => []
  | [x] => [x]
  | x :: _ :: t => x :: every_other t
  end.

(** How deep the references of a file go. *)
Fixpoint depth (t : ftree) : nat :=
  match t with
  | File _ refs => S (list_max (map (fun x => match x with Opened _ t => depth t | _ => 0 end) refs))
  end.

(** How many references there are. *)
Definition total (st : stg) : nat := list_sum (map (fun l => length (l_subs l)) (lays st)).

(** The layers of some entries. *)
Definition ids_of (es : list (pystr * option nat)) : list nat :=
  concat (map (fun e => match snd e with Some j => [j] | None => [] end) es).

(** An entry for another layer, which has no references itself. *)
Definition leaf_entry (st : stg) (i : nat) (e : pystr * option nat) : Prop :=
  exists j l, snd e = Some j /\ j <> i /\ nth_error (lays st) j = Some l /\ l_subs l = [].
