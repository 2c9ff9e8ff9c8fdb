(** Model of how a stage loads its layers and drops them again:
    load_from_file, check_for_layer_ref_cycle, remove_sublayer and
    assign_layer_parents (nxt/stage.py 274-375, 3549-3563) with the reference
    part of SpecLayer.__init__ (nxt_layer.py 110-131).

    A layer object is its number in creation order.  Only what concerns
    references is kept of a layer; the nodes in it are Layer*.v and SpecOps.v. *)

From Coq Require Import String List NArith Bool Arith.
From Verif Require Import PyStr Dict PyVal.
Import ListNotations.

(** The part of a layer object used here: real_path, filepath, parent_layer,
    sub_layer_paths and sub_layers (each {'filepath', 'layer'}). *)
Record lay := {
  l_real : pystr;
  l_file : pystr;
  l_parent : option nat;
  l_paths : list pystr;
  l_subs : list (pystr * option nat)
}.

(** All layer objects ever made, and _sub_layers.  _layer_idx of a layer is its
    place in [order] after each call (stage.py 299-300, 2605). *)
Record stg := { lays : list lay; order : list nat }.

(** What load_file_data returns of a file (nxt_io.py 53-112): its real path,
    the path it was asked by, its references. *)
Record fdata := { f_real : pystr; f_file : pystr; f_refs : list pystr }.

Inductive opened := Loaded (d : fdata) | Nothing | Missing | Broken (e : exn).

Definition nonempty (p : pystr) : bool := match p with [] => false | _ => true end.

(** SpecLayer.__init__, nxt_layer.py 115-131. *)
Definition new_lay (d : fdata) (parent : option nat) : lay :=
  {| l_real := f_real d; l_file := f_file d; l_parent := parent;
     l_paths := filter nonempty (f_refs d);
     l_subs := map (fun p => (p, None)) (filter nonempty (f_refs d)) |}.

(** new_layer and register_layer at the end of the list, stage.py 2589-2605. *)
Definition push (st : stg) (l : lay) : stg :=
  {| lays := lays st ++ [l]; order := order st ++ [length (lays st)] |}.

Fixpoint set_lay (ls : list lay) (i : nat) (l : lay) : list lay :=
  match ls, i with
  | [], _ => []
  | _ :: t, 0 => l :: t
  | x :: t, S j => x :: set_lay t j l
  end.
Definition upd_lay (st : stg) (i : nat) (f : lay -> lay) : stg :=
  match nth_error (lays st) i with
  | Some l => {| lays := set_lay (lays st) i (f l); order := order st |}
  | None => st
  end.

(** list.remove of the first occurrence; the ValueError of stage.py 366-369 is
    caught. *)
Fixpoint remove_path (p : pystr) (l : list pystr) : list pystr :=
  match l with
  | [] => []
  | x :: t => if str_eqb x p then t else x :: remove_path p t
  end.

(** stage.py 361-374 *)
Definition forget (p : pystr) (l : lay) : lay :=
  {| l_real := l_real l; l_file := l_file l; l_parent := l_parent l;
     l_paths := remove_path p (l_paths l);
     l_subs := filter (fun e => negb (str_eqb (fst e) p)) (l_subs l) |}.

Inductive outcome (A : Type) := Done (a : A) | Crash (e : exn) | OutOfFuel.
Arguments Done {A}. Arguments Crash {A}. Arguments OutOfFuel {A}.

Section Files.
(** load_file_data in a working directory, and os.path.dirname. *)
Variables (load : pystr -> pystr -> opened) (dirname : pystr -> pystr).

(** load_from_file, stage.py 335-375.  The working directory is passed along;
    a crash leaves it where it was. *)
Fixpoint load_from_file (fuel : nat) (st : stg) (cwd : pystr) (d : fdata) (parent : option nat)
  : outcome (stg * pystr) :=
  match fuel with
  | 0 => OutOfFuel
  | S f =>
      let me := length (lays st) in
      let st1 := push st (new_lay d parent) in
      match
        (fix refs l (st : stg) (cwd : pystr) : outcome (stg * pystr) :=
           match l with
           | [] => Done (st, cwd)
           | p :: t =>
               match load cwd p with
               | Nothing => refs t st cwd
               | Missing => refs t (upd_lay st me (forget p)) cwd
               | Broken e => Crash e
               | Loaded d' =>
                   match load_from_file f st cwd d' (Some me) with
                   | Done (st', cwd') => refs t st' cwd'
                   | r => r
                   end
               end
           end) (f_refs d) st1 (dirname (f_real d))
      with
      | Done (st2, _) => Done (st2, cwd)
      | r => r
      end
  end.
End Files.

(** check_for_layer_ref_cycle, stage.py 317-328. *)
Fixpoint ref_cycle (fuel : nat) (st : stg) (layer : option nat) (path : pystr) : option bool :=
  match layer with
  | None => Some false
  | Some i =>
      match fuel with
      | 0 => None
      | S f =>
          match nth_error (lays st) i with
          | Some l => if str_eqb (l_real l) path then Some true else ref_cycle f st (l_parent l) path
          | None => None
          end
      end
  end.

(** assign_layer_parents, stage.py 3549-3563: the first entry for the file. *)
Fixpoint fill_entry (p : pystr) (i : nat) (l : list (pystr * option nat)) : list (pystr * option nat) :=
  match l with
  | [] => []
  | e :: t => if str_eqb (fst e) p then (fst e, Some i) :: t else e :: fill_entry p i t
  end.
Definition with_subs (l : lay) (s : list (pystr * option nat)) : lay :=
  {| l_real := l_real l; l_file := l_file l; l_parent := l_parent l; l_paths := l_paths l; l_subs := s |}.
Definition assign_layer_parents (st : stg) : stg :=
  fold_left (fun st i =>
    match nth_error (lays st) i with
    | Some l =>
        match l_parent l with
        | Some p => upd_lay st p (fun pl => with_subs pl (fill_entry (l_file l) i (l_subs pl)))
        | None => st
        end
    | None => st
    end) (order st) st.

(** Dict equality of two sub_layers entries; a layer equals only itself. *)
Definition entry_eqb (a b : pystr * option nat) : bool :=
  str_eqb (fst a) (fst b) &&
  match snd a, snd b with
  | None, None => true
  | Some i, Some j => Nat.eqb i j
  | _, _ => false
  end.
Fixpoint remove_entry (e : pystr * option nat) (l : list (pystr * option nat)) : list (pystr * option nat) :=
  match l with
  | [] => []
  | x :: t => if entry_eqb x e then t else x :: remove_entry e t
  end.

Fixpoint remove_id (i : nat) (l : list nat) : list nat :=
  match l with
  | [] => []
  | x :: t => if Nat.eqb x i then t else x :: remove_id i t
  end.

(** stage.py 285-296, for one other layer; KeyError if an entry of that file
    has no layer. *)
Definition unlink (st : stg) (i : nat) (file : pystr) (j : nat) : res stg :=
  if Nat.eqb j i then Ok st
  else
    match nth_error (lays st) j with
    | None => Ok st
    | Some l =>
        let l1 := {| l_real := l_real l; l_file := l_file l; l_parent := l_parent l;
                     l_paths := remove_path file (l_paths l); l_subs := l_subs l |} in
        bind (fold_res (fun s e =>
                match snd e with
                | None => Raise KeyError
                | Some k => Ok (if Nat.eqb k i then remove_entry e s else s)
                end) (filter (fun e => str_eqb (fst e) file) (l_subs l)) (l_subs l))
          (fun s => Ok (upd_lay st j (fun _ => with_subs l1 s)))
    end.

(** remove_sublayer, stage.py 274-300.  The loop over the layer's own entries
    shortens the list it runs over: [k] is the iterator's position. *)
Fixpoint remove_sublayer (fuel : nat) (st : stg) (i : nat) : outcome stg :=
  match fuel with
  | 0 => OutOfFuel
  | S f =>
      match nth_error (lays st) i with
      | None => Crash IndexError
      | Some l0 =>
          match
            (fix loop n k (st : stg) : outcome stg :=
               match n with
               | 0 => OutOfFuel
               | S n' =>
                   match nth_error (lays st) i with
                   | None => Crash IndexError
                   | Some l =>
                       match nth_error (l_subs l) k with
                       | None => Done st
                       | Some e =>
                           let st1 := upd_lay st i (fun l => with_subs l (remove_entry e (l_subs l))) in
                           match snd e with
                           | None => loop n' (S k) st1
                           | Some j =>
                               match remove_sublayer f st1 j with
                               | Done st2 => loop n' (S k) st2
                               | r => r
                               end
                           end
                       end
                   end
               end) (S (length (l_subs l0))) 0 st
          with
          | Done st1 =>
              match fold_res (fun st j => unlink st i (l_file l0) j) (order st1) st1 with
              | Raise e => Crash e
              | Ok st2 => Done {| lays := lays st2; order := remove_id i (order st2) |}
              end
          | r => r
          end
      end
  end.
