(** What it means to copy the layers of a stage to one folder, independent of the
    code. *)

From Coq Require Import String List NArith Bool.
From Verif Require Import PyStr Dict NxtPath PyVal NodeIO StageLoad StageLoadSpec LayerIO.
Import ListNotations.

(** A path with a folder part. *)
Definition slash : N := 47%N.
Definition foldered (p : pystr) : Prop := In slash p.
Definition folderedb (p : pystr) : bool := existsb (N.eqb slash) p.
(** The paths with folders come first. *)
Definition folders_first (refs : list pystr) : Prop :=
  exists a b, refs = a ++ b /\ Forall foldered a /\ Forall (fun p => ~ foldered p) b.

(** Every reference that can be opened leads to a file of that name, and those
    with folders come first; no name is empty. *)
Fixpoint tidy (t : ftree) : Prop :=
  match t with
  | File d refs =>
      folders_first (map found_path (filter kept refs)) /\
      (fix all refs := match refs with
                       | [] => True
                       | Opened p t :: rest => basename p <> [] /\ basename p = basename (f_real (root_of t)) /\ tidy t /\ all rest
                       | Unopenable _ :: rest => all rest
                       | Empty _ :: _ => False
                       end) refs
  end.

(** The same tree of files in the folder [out]: every file under its name,
    referencing by name the files that could be opened. *)
Fixpoint moved (out : pystr) (t : ftree) : ftree :=
  match t with
  | File d refs =>
      File {| f_real := out ++ slash :: basename (f_real d); f_file := basename (f_real d);
              f_refs := map (fun x => basename (found_path x)) (filter kept refs) |}
           ((fix go refs := match refs with
                            | [] => []
                            | Opened p t :: rest => Opened (basename p) (moved out t) :: go rest
                            | _ :: rest => go rest
                            end) refs)
  end.

(** A folder of files as the loader sees it. *)
Definition str_of (v : pyval) : pystr := match v with VStr s => s | _ => [] end.
Definition refs_in (data : dict pyval) : list pystr :=
  match dget (lit "references") data with Some (VList vs) => map str_of vs | _ => [] end.
Definition load_in (out : pystr) (files : dict (dict pyval)) (dir p : pystr) : opened :=
  match dget p files with
  | Some data => Loaded {| f_real := out ++ slash :: p; f_file := p; f_refs := refs_in data |}
  | None => Missing
  end.
