(** Model of writing the layers of a stage to one folder: Stage.save_to_temp
    (nxt/stage.py 4015-4055), with SpecLayer.get_cwd (nxt_layer.py 147-154).

    The layers are those of LayerIO.v.  The folder is a dict of file names; a
    file holds the save data.  A layer has a real path. *)

From Coq Require Import String List NArith Bool.
From Verif Require Import PyStr Dict NxtPath PyVal NodeIO NodeIOSpec LayerIO.
Import ListNotations.

Definition K_CWD := lit "cwd".

(** A layer with its cwd (empty or not) and its real path. *)
Record tlayer := { t_layer : layer; t_cwd : pystr; t_real : pystr }.

(** nxt_layer.py 147-154. *)
Definition get_cwd (dirname : pystr -> pystr) (l : tlayer) : pystr :=
  match t_cwd l with [] => dirname (t_real l) | c => c end.

(** [l[i] = v] *)
Fixpoint set_item {A} (l : list A) (i : nat) (v : A) : list A :=
  match l, i with
  | [], _ => []
  | _ :: t, 0 => v :: t
  | x :: t, S j => x :: set_item t j v
  end.

(** stage.py 4038-4048.  The list that is looped over is the one written to; an
    item is written no later than it is read, so the loop reads what the list
    was ([todo]).  At most one override has the path [ref]. *)
Fixpoint rename_refs (todo refs : list pystr) (overs : dict pyval) (idx : nat) : list pystr * dict pyval :=
  match todo with
  | [] => (refs, overs)
  | ref :: rest =>
      let ref_file_name := basename ref in
      if str_eqb ref_file_name ref then rename_refs rest refs overs idx
      else
        let overs := match dget ref overs with
                     | Some over => dset ref_file_name over (ddel ref overs)
                     | None => overs
                     end in
        rename_refs rest (set_item refs idx ref_file_name) overs (S idx)
  end.

(** stage.py 4034-4048: the data of one file.  References and overrides are
    changed in place, so only if the data has them. *)
Definition temp_data (builtins : list pystr) (dirname : pystr -> pystr) (l : tlayer) : dict pyval :=
  let data := dset K_CWD (VStr (get_cwd dirname l)) (get_save_data builtins (t_layer l)) in
  let '(refs, overs) := rename_refs (l_refs (t_layer l)) (l_refs (t_layer l)) (sort_items (l_overrides (t_layer l))) 0 in
  let data := if dmem K_REFERENCES data then dset K_REFERENCES (VStrs refs) data else data in
  if dmem K_OVERRIDES data then dset K_OVERRIDES (VDict overs) data else data.

Section Files.
(** Has the name a known extension (nxt_io.py 126-131)? *)
Variable known : pystr -> bool.

(** stage.py 4033-4051, 4055: the files and the name of the top one.  Writing
    raises a TypeError if the extension is not known or the data is no JSON. *)
Definition save_to_temp (builtins : list pystr) (dirname : pystr -> pystr) (layers : list tlayer)
  : res (dict (dict pyval) * pystr) :=
  bind (fold_res (fun (acc : dict (dict pyval) * option pystr) l =>
          let file_name := basename (t_real l) in
          let data := temp_data builtins dirname l in
          if negb (known file_name) then Raise TypeError
          else if negb (json_ok (VDict data)) then Raise TypeError
          else Ok (dset file_name data (fst acc), Some file_name)) (rev layers) ([], None))
       (fun r => match snd r with Some top => Ok (fst r, top) | None => Raise AttributeError end).
End Files.
