(** What adding a layer to a stage means, independent of the code. *)

From Coq Require Import String List NArith Bool Arith.
From Verif Require Import PyStr Dict PyVal StageLoad StageLoadSpec.
Import ListNotations.

(** Every reference of the file and of the files below it can be opened, and no
    file has the same reference twice. *)
Fixpoint plain (t : ftree) : Prop :=
  match t with
  | File d refs =>
      NoDup (map found_path refs) /\
      (fix all refs := match refs with
                       | [] => True
                       | Opened p t :: rest => p <> [] /\ plain t /\ all rest
                       | _ :: _ => False
                       end) refs
  end.

(** The files of a tree, a file before those it references, and the files of a
    later reference before those of an earlier one. *)
Fixpoint files_back (t : ftree) : list fdata :=
  match t with
  | File d refs => d :: (fix go refs := match refs with
                                        | [] => []
                                        | Opened _ t :: rest => go rest ++ files_back t
                                        | _ :: rest => go rest
                                        end) refs
  end.

(** The numbers of the layers of a tree when they are counted from [start] in
    depth first order, in the order of [files_back]. *)
Fixpoint stacked (start : nat) (t : ftree) : list nat :=
  match t with
  | File _ refs => start :: (fix go pos refs := match refs with
                                                | [] => []
                                                | Opened _ t :: rest => go (pos + size t) rest ++ stacked pos t
                                                | _ :: rest => go pos rest
                                                end) (S start) refs
  end.
(** The same numbers, a file after those it references. *)
Fixpoint bottom_up (start : nat) (t : ftree) : list nat :=
  match t with
  | File _ refs => (fix go pos refs := match refs with
                                       | [] => []
                                       | Opened _ t :: rest => bottom_up pos t ++ go (pos + size t) rest
                                       | _ :: rest => go pos rest
                                       end) (S start) refs ++ [start]
  end.
(** The references of a file with the numbers of their layers. *)
Fixpoint numbered (pos : nat) (refs : list found) : list (pystr * option nat) :=
  match refs with
  | [] => []
  | Opened p t :: rest => (p, Some pos) :: numbered (pos + size t) rest
  | _ :: rest => numbered pos rest
  end.
(** The layers of a tree; each knows its parent and its references' layers. *)
Fixpoint described (start : nat) (parent : option nat) (t : ftree) : list lay :=
  match t with
  | File d refs =>
      {| l_real := f_real d; l_file := f_file d; l_parent := parent;
         l_paths := map found_path refs; l_subs := numbered (S start) refs |} ::
      (fix go pos refs :=
         match refs with
         | [] => []
         | Opened _ t :: rest => described pos (Some start) t ++ go (pos + size t) rest
         | _ :: rest => go pos rest
         end) (S start) refs
  end.

(** No file of the tree has more than one reference. *)
Fixpoint single (t : ftree) : Prop :=
  match t with
  | File _ refs => length refs <= 1 /\
      (fix all refs := match refs with [] => True | Opened _ t :: rest => single t /\ all rest | _ :: rest => all rest end) refs
  end.

(** [st'] is [st] but for layer [i], which is now [l']. *)
Definition only_changed (i : nat) (l' : lay) (st st' : stg) : Prop :=
  length (lays st') = length (lays st) /\ nth_error (lays st') i = Some l' /\
  forall j, j <> i -> nth_error (lays st') j = nth_error (lays st) j.

(** Every file that is opened is filed under the reference's path, which is not
    empty. *)
Fixpoint filed (t : ftree) : Prop :=
  match t with
  | File _ refs =>
      (fix all refs := match refs with
                       | [] => True
                       | Opened p t :: rest => p <> [] /\ f_file (root_of t) = p /\ filed t /\ all rest
                       | _ :: rest => all rest
                       end) refs
  end.
