(** C39, C40: loading the layers of a stage and removing one. *)

From Coq Require Import String List NArith Bool Arith Lia.
From Verif Require Import PyStr PyStrFacts Dict PyVal StageLoad StageLoadSpec StageLoadProofs.
Import ListNotations.
Open Scope string_scope.

(** Whenever the references of a file lead to a finite tree of files, loading
    it ends, adds one layer for every occurrence of a file in that tree, a file
    before the files it references and those in the order of the references,
    each knowing its parent and the references that could be opened, and leaves
    the working directory as it was. *)
Theorem C39_loaded_in_order :
  forall load dirname t, brings load dirname t ->
  forall fuel st cwd parent, depth t <= fuel ->
  load_from_file load dirname fuel st cwd (root_of t) parent =
  Done ({| lays := lays st ++ listing (length (lays st)) parent t;
           order := order st ++ seq (length (lays st)) (size t) |}, cwd).
Proof. exact load_tree. Qed.
Print Assumptions C39_loaded_in_order.

(** The layers of the tree are its files in depth first order. *)
Theorem C39_depth_first :
  forall t start parent,
  map (fun l => (l_real l, l_file l)) (listing start parent t) = map (fun d => (f_real d, f_file d)) (files t).
Proof. exact listing_files. Qed.
Print Assumptions C39_depth_first.

(** Such a tree exists for every file from which no endless chain of references
    starts, as long as no file makes the reader crash. *)
Theorem C39_acyclic_ends :
  forall load dirname d, Acc (refers load dirname) d ->
  (forall d', sound load dirname d') -> exists t, root_of t = d /\ brings load dirname t.
Proof. exact acyclic_tree. Qed.
Print Assumptions C39_acyclic_ends.

(** Files that reference each other in a circle are loaded without end: nothing
    checks for it. *)
Theorem C39_cycle_endless_refuted :
  forall load dirname (circle : fdata -> Prop),
  (forall dir p e, load dir p <> Broken e) ->
  (forall d, circle d -> exists d', circle d' /\ refers load dirname d' d) ->
  forall d, circle d -> forall fuel st cwd parent, load_from_file load dirname fuel st cwd d parent = OutOfFuel.
Proof. exact cycle_endless. Qed.
Print Assumptions C39_cycle_endless_refuted.

(** The check that exists (and is not used) is right: it tells whether a path is
    that of the layer or of a layer above it. *)
Theorem C39_cycle_check :
  forall st path up layer, lineage st layer up ->
  forall fuel, length up <= fuel ->
  ref_cycle fuel st layer path = Some (existsb (fun l => str_eqb (l_real l) path) up).
Proof. exact ref_cycle_spec. Qed.
Print Assumptions C39_cycle_check.

(** A top file that references two files and one that is missing, the first of
    which references a third one. *)
Definition file (name : pystr) (refs : list pystr) : fdata := {| f_real := name; f_file := name; f_refs := refs |}.
Definition disk (dir p : pystr) : opened :=
  if str_eqb p (lit "a") then Loaded (file (lit "a") [lit "c"])
  else if str_eqb p (lit "b") then Loaded (file (lit "b") [])
  else if str_eqb p (lit "c") then Loaded (file (lit "c") [])
  else if str_eqb p (lit "loop") then Loaded (file (lit "loop") [lit "b"; lit "loop"])
  else Missing.
Definition home (p : pystr) : pystr := lit "/".
Definition top : fdata := file (lit "top") [lit "a"; lit "gone"; lit "b"].
Definition top_tree : ftree :=
  File top [Opened (lit "a") (File (file (lit "a") [lit "c"]) [Opened (lit "c") (File (file (lit "c") []) [])]);
            Unopenable (lit "gone"); Opened (lit "b") (File (file (lit "b") []) [])].

Example C39_ex_tree : brings disk home top_tree.
Proof. repeat (constructor; try reflexivity). Qed.
Example C39_ex_loaded :
  load_from_file disk home 5 {| lays := []; order := [] |} (lit "/x") top None =
  Done ({| lays :=
     [ {| l_real := lit "top"; l_file := lit "top"; l_parent := None;
          l_paths := [lit "a"; lit "b"]; l_subs := [(lit "a", None); (lit "b", None)] |};
       {| l_real := lit "a"; l_file := lit "a"; l_parent := Some 0; l_paths := [lit "c"]; l_subs := [(lit "c", None)] |};
       {| l_real := lit "c"; l_file := lit "c"; l_parent := Some 1; l_paths := []; l_subs := [] |};
       {| l_real := lit "b"; l_file := lit "b"; l_parent := Some 0; l_paths := []; l_subs := [] |} ];
     order := [0; 1; 2; 3] |}, lit "/x").
Proof. reflexivity. Qed.
Example C39_ex_acyclic : Acc (refers disk home) top.
Proof.
  assert (Hleaf : forall n, Acc (refers disk home) (file n [])). { intros n. constructor. intros d (p & [] & _). }
  assert (Ha : Acc (refers disk home) (file (lit "a") [lit "c"])).
  { constructor. intros d (p & [<-|[]] & E). vm_compute in E. injection E as <-. apply (Hleaf (lit "c")). }
  constructor. intros d (p & [<-|[<-|[<-|[]]]] & E); vm_compute in E; try discriminate; injection E as <-.
  - exact Ha.
  - apply (Hleaf (lit "b")).
Qed.
Example C39_ex_sound : forall d, sound disk home d.
Proof. intros d p e _. unfold disk. repeat match goal with |- (if ?b then _ else _) <> _ => destruct b end; discriminate. Qed.
Example C39_ex_circle :
  let circle d := d = file (lit "loop") [lit "b"; lit "loop"] in
  forall d, circle d -> exists d', circle d' /\ refers disk home d' d.
Proof. cbn. intros d ->. eexists. split; [reflexivity|]. exists (lit "loop"). split; [right; now left|reflexivity]. Qed.
Example C39_ex_lineage :
  match load_from_file disk home 5 {| lays := []; order := [] |} (lit "/x") top None with
  | Done (st, _) => exists up, lineage st (Some 2) up /\ length up = 3
  | _ => False
  end.
Proof.
  rewrite C39_ex_loaded. eexists. split; [|shelve].
  eapply LStep; [reflexivity|]. eapply LStep; [reflexivity|]. eapply LStep; [reflexivity|]. constructor.
  Unshelve. reflexivity.
Qed.

(** Removing a layer always ends.  It removes the layer, and otherwise only
    layers below it; the layers that stay keep their order, their parents and
    their entries for other layers. *)
Theorem C40_remove :
  forall st i fuel, i < length (lays st) -> linked st -> NoDup (order st) -> total st < fuel ->
  exists st' gone, remove_sublayer fuel st i = Done st' /\ without gone st st' /\ In i gone /\
    forall j, In j gone -> under st i j.
Proof. exact remove_general. Qed.
Print Assumptions C40_remove.

(** If neither it nor a layer below it has more than one reference, everything
    below it is removed. *)
Theorem C40_single_references :
  forall fuel st i, i < length (lays st) -> linked st -> NoDup (order st) -> total st < fuel ->
  (forall x l, under st i x -> nth_error (lays st) x = Some l -> length (l_subs l) <= 1) ->
  forall st', remove_sublayer fuel st i = Done st' -> forall j, under st i j -> ~ In j (order st').
Proof. exact remove_single. Qed.
Print Assumptions C40_single_references.

(** But of several references only the first, third, fifth... are removed. *)
Theorem C40_every_other_stays_refuted :
  forall fuel st i l0, linked st -> NoDup (order st) -> total st < fuel -> In i (order st) ->
  nth_error (lays st) i = Some l0 -> NoDup (map snd (l_subs l0)) -> Forall (leaf_entry st i) (l_subs l0) ->
  exists st', remove_sublayer fuel st i = Done st' /\
    order st' = filter (fun x => negb (existsb (Nat.eqb x) (i :: ids_of (every_other (l_subs l0))))) (order st).
Proof. exact remove_leaves. Qed.
Print Assumptions C40_every_other_stays_refuted.

Definition built (d : fdata) : stg :=
  match load_from_file disk home 5 {| lays := []; order := [] |} (lit "/x") d None with
  | Done (st, _) => assign_layer_parents st
  | _ => {| lays := []; order := [] |}
  end.
Example C40_ex_linked : linked (built top) /\ NoDup (order (built top)) /\ order (built top) = [0; 1; 2; 3].
Proof.
  split; [|split; [|reflexivity]].
  - intros x l e E He. replace (lays (built top)) with
      [ {| l_real := lit "top"; l_file := lit "top"; l_parent := None;
          l_paths := [lit "a"; lit "b"]; l_subs := [(lit "a", Some 1); (lit "b", Some 3)] |};
       {| l_real := lit "a"; l_file := lit "a"; l_parent := Some 0; l_paths := [lit "c"]; l_subs := [(lit "c", Some 2)] |};
       {| l_real := lit "c"; l_file := lit "c"; l_parent := Some 1; l_paths := []; l_subs := [] |};
       {| l_real := lit "b"; l_file := lit "b"; l_parent := Some 0; l_paths := []; l_subs := [] |} ] in * by reflexivity.
    destruct x as [|[|[|[|[|]]]]]; cbn in E; try discriminate; injection E as <-; cbn in He;
      repeat match goal with H : _ \/ _ |- _ => destruct H as [<-|H] end; try contradiction; eexists; (split; [reflexivity|cbn; lia]).
  - vm_compute. repeat constructor; cbn; intuition discriminate.
Qed.
(** Layer a goes with its one reference, the other two stay and top forgets a. *)
Example C40_ex_removed :
  match remove_sublayer 9 (built top) 1 with
  | Done st => order st = [0; 3] /\ option_map l_subs (nth_error (lays st) 0) = Some [(lit "b", Some 3)]
                /\ option_map l_paths (nth_error (lays st) 0) = Some [lit "b"]
  | _ => False
  end.
Proof. vm_compute. auto. Qed.
(** Two references: the second is left behind. *)
Example C40_ex_left_behind :
  match remove_sublayer 9 (built (file (lit "two") [lit "b"; lit "c"])) 0 with
  | Done st => order st = [2]
  | _ => False
  end.
Proof. vm_compute. auto. Qed.

(** A file referenced twice by one layer is loaded twice; after that none of the
    two copies can be removed. *)
Theorem C40_twice_referenced_refuted :
  exists d, order (built d) = [0; 1; 2] /\
    (forall fuel, remove_sublayer (S fuel) (built d) 1 = Crash KeyError) /\
    (forall fuel, remove_sublayer (S fuel) (built d) 2 = Crash KeyError).
Proof. exists (file (lit "two") [lit "b"; lit "b"]). repeat split. Qed.
Print Assumptions C40_twice_referenced_refuted.

(** And before the stage is built no referenced layer can be removed. *)
Theorem C40_unbuilt_refuted :
  exists d st, load_from_file disk home 5 {| lays := []; order := [] |} (lit "/x") d None = Done (st, lit "/x") /\
    order st = [0; 1; 2; 3] /\ forall fuel, remove_sublayer (S fuel) st 3 = Crash KeyError.
Proof. exists top. eexists. split; [exact C39_ex_loaded|]. split; [reflexivity|]. intros fuel. reflexivity. Qed.
Print Assumptions C40_unbuilt_refuted.
