(** Specification vocabulary for layer flags and overrides. *)

From Coq Require Import List NArith Bool.
From Verif Require Import PyStr Dict LayerOver.
Import ListNotations.

(** [chain ls i up]: the layers above layer [i], nearest first, end at a root. *)
Inductive above (ls : list slayer) : nat -> list nat -> Prop :=
| above_root i l : nth_error ls i = Some l -> l_parent l = None -> above ls i []
| above_next i l j up : nth_error ls i = Some l -> l_parent l = Some j ->
                        above ls j up -> above ls i (j :: up).

(** The root-most opinion about [path] among layer [i] and the layers [up]
    above it: an opinion further up hides the ones below. *)
Inductive strongest {V} (table : slayer -> dict V) (ls : list slayer)
          (path : pystr) : list nat -> option V -> Prop :=
| strongest_none : strongest table ls path [] None
| strongest_up i up v : strongest table ls path up (Some v) ->
                        strongest table ls path (i :: up) (Some v)
| strongest_here i up l : strongest table ls path up None ->
                          nth_error ls i = Some l ->
                          strongest table ls path (i :: up) (dget path (table l)).

(** No layer has two entries for the same path (dict keys are unique). *)
Definition tables_ok (ls : list slayer) : Prop :=
  Forall (fun l => NoDup (dkeys (l_over l)) /\ NoDup (dkeys (l_aliases l)) /\
                   NoDup (dkeys (l_colors l)) /\ NoDup (dkeys (l_locks l))) ls.

(** Override entry objects exist and are never shared between two paths, as
    when loaded from files. *)
Definition entries_ok (s : store) : Prop :=
  (forall l p a, In l (layers s) -> In (p, a) (l_over l) -> a < length (objs s)) /\
  (forall l1 l2 p q a, In l1 (layers s) -> In l2 (layers s) ->
     In (p, a) (l_over l1) -> In (q, a) (l_over l2) -> p = q).

(** Every layer hangs below some root through finitely many parents. *)
Definition rooted (ls : list slayer) : Prop :=
  forall i l, nth_error ls i = Some l -> exists up, above ls i up.

(** The well-formed stores the theorems are about. *)
Definition store_ok (s : store) : Prop :=
  tables_ok (layers s) /\ entries_ok s /\ rooted (layers s).

(** The calls a user can make on the layers of a stage. *)
Inductive layer_call :=
| MuteOver (i : nat) (path : pystr) (b : bool)
| SoloOver (i : nat) (path : pystr) (b : bool)
| AliasOver (i : nat) (v : option pystr)
| ColorOver (i : nat) (v : option pystr)
| LockOver (i : nat) (v : option bool).

(** The store after one call; a call that raises leaves it alone. *)
Definition call (s : store) (c : layer_call) : store :=
  let fuel := length (layers s) in
  let r := match c with
           | MuteOver i p b => set_mute_over fuel s i p b
           | SoloOver i p b => set_solo_over fuel s i p b
           | AliasOver i v => set_alias_over fuel s i v
           | ColorOver i v => set_color_over fuel s i v
           | LockOver i v => set_locked_over fuel s i v
           end in
  match r with Some s' => s' | None => s end.
