(** Model of adding a layer to a stage: Stage.new_sublayer, new_layer and
    register_layer (nxt/stage.py 209-272, 2589-2605).

    Layers are those of StageLoad.v.  A layer saves itself (stage.py 269); the
    model lists which layers do, in order.  Every layer has a file path, and
    saving raises nothing. *)

From Coq Require Import String List NArith Bool Arith.
From Verif Require Import PyStr Dict PyVal StageLoad.
Import ListNotations.

(** stage.py 2601-2605: list.insert at an index that is not negative. *)
Definition insert_at (idx i : nat) (l : list nat) : list nat := firstn idx l ++ i :: skipn idx l.

(** stage.py 221-231: what the layer that references the new one records. *)
Definition link_child (file : pystr) (i : nat) (l : lay) : lay :=
  {| l_real := l_real l; l_file := l_file l; l_parent := l_parent l;
     l_paths := if str_in file (l_paths l) then l_paths l else file :: l_paths l;
     l_subs := if existsb (fun e => str_eqb (fst e) file) (l_subs l) then fill_entry file i (l_subs l) else (file, Some i) :: l_subs l |}.

(** [l[:idx - 1]]; the end of the slice is -1 for 0. *)
Definition above (idx : nat) (l : list nat) : list nat :=
  match idx with 0 => removelast l | S k => firstn k l end.

(** stage.py 236-241: does one of these layers reference the file?  The order in
    which they are asked does not matter. *)
Definition mentioned (st : stg) (higher : list nat) (file : pystr) : bool :=
  existsb (fun h => match nth_error (lays st) h with Some l => str_in file (l_paths l) | None => false end) higher.

Definition with_parent (l : lay) (p : option nat) : lay :=
  {| l_real := l_real l; l_file := l_file l; l_parent := p; l_paths := l_paths l; l_subs := l_subs l |}.
Definition with_paths (l : lay) (ps : list pystr) : lay :=
  {| l_real := l_real l; l_file := l_file l; l_parent := l_parent l; l_paths := ps; l_subs := l_subs l |}.

(** stage.py 234-255, for one of the layers below the new one, [me]. *)
Definition adopt (me : nat) (higher : list nat) (st : stg) (low : nat) : stg :=
  match nth_error (lays st) low with
  | None => st
  | Some l =>
      if mentioned st higher (l_file l) then st
      else
        let st := upd_lay st me (fun n => if str_in (l_file l) (l_paths n) then n else with_paths n (l_paths n ++ [l_file l])) in
        match nth_error (lays st) me with
        | None => st
        | Some n =>
            if existsb (fun e => str_eqb (fst e) (l_file l)) (l_subs n)
            then upd_lay st me (fun n => with_subs n (fill_entry (l_file l) low (l_subs n)))
            else upd_lay (upd_lay st low (fun l => with_parent l (Some me))) me (fun n => with_subs n (l_subs n ++ [(l_real l, Some low)]))
        end
  end.

Section Files.
(** nxt_path.full_file_expand(path, start) (C60), load_file_data of its result,
    and os.path.dirname. *)
Variables (expand : pystr -> pystr -> pystr) (read : pystr -> opened) (dirname : pystr -> pystr).

(** stage.py 260-266: the file a reference leads to.  load_file_data never
    returns nothing (nxt_io.py 107-112). *)
Definition open_ref (dir p : pystr) : opened :=
  match read (expand p dir) with
  | Loaded d => Loaded {| f_real := expand p dir; f_file := p; f_refs := f_refs d |}
  | r => r
  end.

(** stage.py 209-272.  The loop of lines 257-267 runs over the new layer's own
    entries; nothing it does changes how many they are.  The answer has the
    layers saved (line 269, reached whenever the loop ends). *)
Fixpoint new_sublayer (fuel : nat) (st : stg) (d : fdata) (parent : option nat) (idx : nat) : outcome (stg * list nat) :=
  match fuel with
  | 0 => OutOfFuel
  | S f =>
      let me := length (lays st) in
      let st1 := {| lays := lays st ++ [new_lay d parent]; order := insert_at idx me (order st) |} in
      let st2 := match parent with
                 | Some p => upd_lay st1 p (link_child (f_file d) me)
                 | None => fold_left (adopt me (above idx (order st1))) (skipn (S idx) (order st1)) st1
                 end in
      let n := match nth_error (lays st2) me with Some l => length (l_subs l) | None => 0 end in
      match
        (fix refs ks (st : stg) (saved : list nat) : outcome (stg * list nat) :=
           match ks with
           | [] => Done (st, saved)
           | k :: ks' =>
               match nth_error (lays st) me with
               | None => Crash IndexError
               | Some l =>
                   match nth_error (l_subs l) k with
                   | Some (p, None) =>
                       match open_ref (dirname (f_real d)) p with
                       | Loaded d' =>
                           match new_sublayer f st d' (Some me) (S idx) with
                           | Done (st', more) => refs ks' st' (saved ++ more)
                           | r => r
                           end
                       | Nothing => Crash TypeError
                       | Missing => Crash IOError
                       | Broken e => Crash e
                       end
                   | _ => refs ks' st saved
                   end
               end
           end) (seq 0 n) st2 []
      with
      | Done (st3, saved) => Done (st3, saved ++ [me])
      | r => r
      end
  end.
End Files.
