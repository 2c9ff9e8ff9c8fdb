(** C68: adding a layer to a stage that is loaded. *)

From Coq Require Import String List NArith Bool Arith Lia.
From Verif Require Import PyStr PyStrFacts Dict PyVal StageLoad StageLoadSpec StageLoadProofs NewSublayer NewSublayerSpec NewSublayerProofs.
Import ListNotations.
Open Scope string_scope.

(** A file added under a parent brings the whole tree of files it references.
    Its layers are put where the layer was asked for, one after the other, and
    no other layer moves; each knows its parent and the layers of its
    references.  The parent gets a reference to the file, as its first unless it
    had one, and nothing else changes.  Every layer that was added is saved, a
    layer after those it references. *)
Theorem C68_below :
  forall expand read dirname t, brings (open_ref expand read) dirname t -> plain t ->
  forall fuel st p pl idx, depth t <= fuel -> nth_error (lays st) p = Some pl -> idx <= length (order st) ->
  new_sublayer expand read dirname fuel st (root_of t) (Some p) idx =
  Done ({| lays := set_lay (lays st) p (link_child (f_file (root_of t)) (length (lays st)) pl) ++ described (length (lays st)) (Some p) t;
           order := firstn idx (order st) ++ stacked (length (lays st)) t ++ skipn idx (order st) |},
        bottom_up (length (lays st)) t).
Proof. intros expand read dirname t B P fuel st p pl idx Hf. exact (adds_tree expand read dirname t B P fuel Hf st p pl idx). Qed.
Print Assumptions C68_below.

(** What the parent is afterwards. *)
Theorem C68_parent :
  forall file i l, ~ In file (l_paths l) -> ~ In file (map fst (l_subs l)) ->
  link_child file i l =
  {| l_real := l_real l; l_file := l_file l; l_parent := l_parent l;
     l_paths := file :: l_paths l; l_subs := (file, Some i) :: l_subs l |}.
Proof.
  intros file i l N1 N2. unfold link_child. rewrite (proj2 (MergeProofs.str_in_false _ _) N1).
  assert (E : existsb (fun e => str_eqb (fst e) file) (l_subs l) = false).
  { apply not_true_iff_false. intros E. apply existsb_exists in E as (e & He & E). apply str_eqb_eq in E. apply N2. rewrite <- E. now apply in_map. }
  now rewrite E.
Qed.
Print Assumptions C68_parent.

(** The same without a parent, behind all other layers. *)
Theorem C68_last :
  forall expand read dirname t, brings (open_ref expand read) dirname t -> plain t ->
  forall fuel st, depth t <= fuel ->
  new_sublayer expand read dirname fuel st (root_of t) None (length (order st)) =
  Done ({| lays := lays st ++ described (length (lays st)) None t; order := order st ++ stacked (length (lays st)) t |},
        bottom_up (length (lays st)) t).
Proof. intros expand read dirname t B P fuel st Hf. exact (adds_last expand read dirname t B P fuel Hf st). Qed.
Print Assumptions C68_last.

(** The layers that are added are those files, a file before the files it
    references, the last reference first. *)
Theorem C68_files :
  forall t before after parent,
  map (fun i => option_map (fun l => (l_real l, l_file l)) (nth_error (before ++ described (length before) parent t ++ after) i)) (stacked (length before) t)
  = map (fun d => Some (f_real d, f_file d)) (files_back t).
Proof. intros t A B parent. exact (stacked_files t A B (length A) parent eq_refl). Qed.
Print Assumptions C68_files.

(** So if no file has more than one reference the layers are in the order in
    which loading the file puts them (C39). *)
Theorem C68_like_loading :
  forall t, single t -> files_back t = files t.
Proof. exact single_files. Qed.
Print Assumptions C68_like_loading.

(** Otherwise not: the same file with two references, added below a layer, gives
    another order of layers than loading a file which has it as its reference. *)
Definition places (p dir : pystr) : pystr := p.
Definition shelf (p : pystr) : opened :=
  if str_eqb p (lit "a") then Loaded {| f_real := p; f_file := p; f_refs := [lit "c"] |}
  else if str_eqb p (lit "b") then Loaded {| f_real := p; f_file := p; f_refs := [] |}
  else if str_eqb p (lit "c") then Loaded {| f_real := p; f_file := p; f_refs := [] |}
  else if str_eqb p (lit "two") then Loaded {| f_real := p; f_file := p; f_refs := [lit "a"; lit "b"] |}
  else if str_eqb p (lit "bad") then Loaded {| f_real := p; f_file := p; f_refs := [lit "b"; lit "gone"] |}
  else Missing.
Definition here (p : pystr) : pystr := lit "/".
Definition fd (name : pystr) (refs : list pystr) : fdata := {| f_real := name; f_file := name; f_refs := refs |}.
Definition file_names (st : stg) : list pystr := map (file_of st) (order st).
Definition load_alone (d : fdata) : outcome (stg * pystr) :=
  load_from_file (open_ref places shelf) here 9 {| lays := []; order := [] |} (lit "/") d None.

Theorem C68_order_refuted :
  exists st0 st1 st2 saved,
    load_alone (fd (lit "top") []) = Done (st0, lit "/") /\
    new_sublayer places shelf here 9 st0 (fd (lit "two") [lit "a"; lit "b"]) (Some 0) 1 = Done (st1, saved) /\
    load_alone (fd (lit "top") [lit "two"]) = Done (st2, lit "/") /\
    file_names st1 = [lit "top"; lit "two"; lit "b"; lit "a"; lit "c"] /\
    file_names st2 = [lit "top"; lit "two"; lit "a"; lit "c"; lit "b"].
Proof. do 4 eexists. repeat split; vm_compute; reflexivity. Qed.
Print Assumptions C68_order_refuted.

(** A reference that is missing is skipped when a file is loaded, but makes the
    call fail when the file is added. *)
Theorem C68_missing_refuted :
  exists st0 st1,
    load_alone (fd (lit "top") []) = Done (st0, lit "/") /\
    load_alone (fd (lit "top") [lit "bad"]) = Done (st1, lit "/") /\ file_names st1 = [lit "top"; lit "bad"; lit "b"] /\
    new_sublayer places shelf here 9 st0 (fd (lit "bad") [lit "b"; lit "gone"]) (Some 0) 1 = Crash IOError.
Proof. do 2 eexists. repeat split; vm_compute; reflexivity. Qed.
Print Assumptions C68_missing_refuted.

(** A layer without references put above a stage whose other layers are each
    referenced by one above the last: it references the old top layer, which
    gets it as its parent, and no other layer changes. *)
Theorem C68_on_top :
  forall expand read dirname st d first l1 rest fuel,
  f_refs d = [] -> order st = first :: rest -> nth_error (lays st) first = Some l1 -> ~ In first rest -> (forall j, In j (order st) -> j < length (lays st)) ->
  (forall j l, In j rest -> nth_error (lays st) j = Some l -> exists h l', In h (removelast (order st)) /\ nth_error (lays st) h = Some l' /\ In (l_file l) (l_paths l')) ->
  (forall h l, In h (removelast (order st)) -> nth_error (lays st) h = Some l -> ~ In (l_file l1) (l_paths l)) ->
  exists st', new_sublayer expand read dirname (S fuel) st d None 0 = Done (st', [length (lays st)]) /\
    order st' = length (lays st) :: order st /\ length (lays st') = S (length (lays st)) /\
    nth_error (lays st') (length (lays st)) = Some {| l_real := f_real d; l_file := f_file d; l_parent := None; l_paths := [l_file l1]; l_subs := [(l_real l1, Some first)] |} /\
    nth_error (lays st') first = Some {| l_real := l_real l1; l_file := l_file l1; l_parent := Some (length (lays st)); l_paths := l_paths l1; l_subs := l_subs l1 |} /\
    forall j, j < length (lays st) -> j <> first -> nth_error (lays st') j = nth_error (lays st) j.
Proof. exact on_top. Qed.
Print Assumptions C68_on_top.

(** Every stage loaded from one file is such a stage, whether or not it is
    built, if no file of it references the file it was loaded from. *)
Theorem C68_loaded_qualifies :
  forall load dirname t, brings load dirname t -> filed t ->
  forall fuel cwd st0 st, load_from_file load dirname fuel {| lays := []; order := [] |} cwd (root_of t) None = Done (st0, cwd) -> depth t <= fuel ->
  order st = order st0 -> map (fun l => (l_file l, l_paths l)) (lays st) = map (fun l => (l_file l, l_paths l)) (lays st0) ->
  (forall l, In l (lays st) -> ~ In (f_file (root_of t)) (l_paths l)) ->
  exists l1 rest, order st = 0 :: rest /\ nth_error (lays st) 0 = Some l1 /\ l_file l1 = f_file (root_of t) /\ ~ In 0 rest /\ (forall j, In j (order st) -> j < length (lays st)) /\
  (forall j l, In j rest -> nth_error (lays st) j = Some l -> exists h l', In h (removelast (order st)) /\ nth_error (lays st) h = Some l' /\ In (l_file l) (l_paths l')) /\
  (forall h l, In h (removelast (order st)) -> nth_error (lays st) h = Some l -> ~ In (l_file l1) (l_paths l)).
Proof.
  intros load dirname t B F fuel cwd st0 st E Hf Eo El Nr. rewrite (load_tree load dirname t B fuel _ cwd None Hf) in E. injection E as <-. cbn [lays order app length] in *.
  assert (Pair : forall j, option_map (fun l => (l_file l, l_paths l)) (nth_error (lays st) j) = option_map (fun l => (l_file l, l_paths l)) (nth_error (listing 0 None t) j)).
  { intros j. rewrite <- !nth_error_map. now rewrite El. }
  assert (Ln : length (lays st) = size t). { rewrite <- (map_length (fun l => (l_file l, l_paths l))), El, map_length. apply listing_length. }
  assert (Sz : exists n, size t = S n) by (destruct t; cbn; eauto). destruct Sz as (n & Sz).
  rewrite Sz in Eo. cbn [seq] in Eo. destruct (lays st) as [|l1 ls] eqn:Els; [cbn in Ln; lia|]. exists l1, (seq 1 n).
  split; [exact Eo|]. split; [reflexivity|].
  assert (F1 : l_file l1 = f_file (root_of t)). { specialize (Pair 0). cbn in Pair. destruct t. cbn in Pair. now injection Pair as -> _. }
  split; [exact F1|]. split; [rewrite in_seq; lia|]. split.
  { intros j Hj. rewrite Eo in Hj. rewrite Ln, Sz. destruct Hj as [<-|Hj]; [lia|]. apply in_seq in Hj. lia. }
  assert (Rl : removelast (order st) = seq 0 n).
  { rewrite Eo. change (0 :: seq 1 n) with (seq 0 (S n)). rewrite seq_S. apply removelast_last. }
  split.
  - intros j l Hj Elj. apply in_seq in Hj. pose proof (Pair j) as Q. rewrite Elj in Q. cbn [option_map] in Q. destruct (nth_error (listing 0 None t) j) as [m|] eqn:Em; [|discriminate]. injection Q as Qf Qp.
    destruct (listing_mentions t F 0 None j m) as (h & m' & Lh & Eh & I); [lia|exact Em|]. pose proof (Pair h) as Q'. rewrite Eh in Q'. destruct (nth_error (l1 :: ls) h) as [l'|] eqn:El'; [|discriminate]. injection Q' as Q1 Q2.
    exists h, l'. split; [rewrite Rl; apply in_seq; lia|]. split; [exact El'|]. now rewrite Q2, Qf.
  - intros h l _ Elh. rewrite F1. apply Nr. exact (nth_error_In _ _ Elh).
Qed.
Print Assumptions C68_loaded_qualifies.

(** Put second instead, a layer takes over every layer below it, also those that
    are referenced by others: [c] gets it as its parent although [b] has it as a
    reference, and [b] although [a] has. *)
Definition chain : stg :=
  {| lays := [ {| l_real := lit "a"; l_file := lit "a"; l_parent := None; l_paths := [lit "b"]; l_subs := [(lit "b", Some 1)] |};
               {| l_real := lit "b"; l_file := lit "b"; l_parent := Some 0; l_paths := [lit "c"]; l_subs := [(lit "c", Some 2)] |};
               {| l_real := lit "c"; l_file := lit "c"; l_parent := Some 1; l_paths := []; l_subs := [] |} ];
     order := [0; 1; 2] |}.
Theorem C68_inserted_refuted :
  exists st saved, new_sublayer places shelf here 9 chain (fd (lit "new") []) None 1 = Done (st, saved) /\
    file_names st = [lit "a"; lit "new"; lit "b"; lit "c"] /\
    option_map l_paths (nth_error (lays st) 3) = Some [lit "b"; lit "c"] /\
    map l_parent (lays st) = [None; Some 3; Some 3; None] /\
    option_map l_subs (nth_error (lays st) 0) = Some [(lit "b", Some 1)] /\
    option_map l_subs (nth_error (lays st) 1) = Some [(lit "c", Some 2)].
Proof. do 2 eexists. repeat split; vm_compute; reflexivity. Qed.
Print Assumptions C68_inserted_refuted.

(** A layer that a new top layer took over is known to it by its real path, so
    after it is removed the new layer still has an entry for it. *)
Theorem C68_dangling_refuted :
  exists st0 st1 st2 saved,
    new_sublayer places shelf here 9 st0 (fd (lit "new") []) None 0 = Done (st1, saved) /\ order st0 = [0] /\ order st1 = [1; 0] /\
    remove_sublayer 9 st1 0 = Done st2 /\ order st2 = [1] /\
    option_map l_paths (nth_error (lays st2) 1) = Some [] /\ option_map l_subs (nth_error (lays st2) 1) = Some [(lit "/dir/a", Some 0)].
Proof.
  exists {| lays := [ {| l_real := lit "/dir/a"; l_file := lit "a"; l_parent := None; l_paths := []; l_subs := [] |} ]; order := [0] |}.
  do 3 eexists. repeat split; vm_compute; reflexivity.
Qed.
Print Assumptions C68_dangling_refuted.

(** Adding a file without references under a layer and removing it again gives
    back the stage. *)
Theorem C68_undone :
  forall expand read dirname st d p pl idx fuel fuel',
  f_refs d = [] -> nth_error (lays st) p = Some pl -> idx <= length (order st) -> linked st -> NoDup (order st) -> (forall j, In j (order st) -> j < length (lays st)) ->
  (forall x l, In x (order st) -> nth_error (lays st) x = Some l -> ~ In (f_file d) (l_paths l)) -> ~ In (f_file d) (map fst (l_subs pl)) -> S (total st) < fuel' ->
  exists st1 st2, new_sublayer expand read dirname (S fuel) st d (Some p) idx = Done (st1, [length (lays st)]) /\ remove_sublayer fuel' st1 (length (lays st)) = Done st2 /\
    order st2 = order st /\ forall x, In x (order st) -> nth_error (lays st2) x = nth_error (lays st) x.
Proof. exact added_removed. Qed.
Print Assumptions C68_undone.

(** The file [two], below the top layer of [chain]. *)
Definition two_tree : ftree :=
  File (fd (lit "two") [lit "a"; lit "b"])
    [Opened (lit "a") (File (fd (lit "a") [lit "c"]) [Opened (lit "c") (File (fd (lit "c") []) [])]);
     Opened (lit "b") (File (fd (lit "b") []) [])].
Example C68_ex_tree : brings (open_ref places shelf) here two_tree /\ plain two_tree /\ filed two_tree /\ depth two_tree = 3.
Proof.
  split; [repeat (constructor; try reflexivity)|]. split; [|split; [|reflexivity]].
  - cbn. repeat split; try discriminate; repeat constructor; cbn; intuition discriminate.
  - cbn. repeat split; discriminate.
Qed.
Example C68_ex_added :
  new_sublayer places shelf here 3 chain (root_of two_tree) (Some 0) 1 =
  Done ({| lays := [ {| l_real := lit "a"; l_file := lit "a"; l_parent := None; l_paths := [lit "two"; lit "b"]; l_subs := [(lit "two", Some 3); (lit "b", Some 1)] |};
               {| l_real := lit "b"; l_file := lit "b"; l_parent := Some 0; l_paths := [lit "c"]; l_subs := [(lit "c", Some 2)] |};
               {| l_real := lit "c"; l_file := lit "c"; l_parent := Some 1; l_paths := []; l_subs := [] |};
               {| l_real := lit "two"; l_file := lit "two"; l_parent := Some 0; l_paths := [lit "a"; lit "b"]; l_subs := [(lit "a", Some 4); (lit "b", Some 6)] |};
               {| l_real := lit "a"; l_file := lit "a"; l_parent := Some 3; l_paths := [lit "c"]; l_subs := [(lit "c", Some 5)] |};
               {| l_real := lit "c"; l_file := lit "c"; l_parent := Some 4; l_paths := []; l_subs := [] |};
               {| l_real := lit "b"; l_file := lit "b"; l_parent := Some 3; l_paths := []; l_subs := [] |} ];
           order := [0; 3; 6; 4; 5; 1; 2] |}, [5; 4; 6; 3]).
Proof. reflexivity. Qed.
Example C68_ex_single : single (File (fd (lit "a") [lit "c"]) [Opened (lit "c") (File (fd (lit "c") []) [])]).
Proof. cbn. repeat split; lia. Qed.
Definition two_built : stg := match load_alone (root_of two_tree) with Done (st, _) => assign_layer_parents st | _ => chain end.
Example C68_ex_qualifies :
  exists st0, load_alone (root_of two_tree) = Done (st0, lit "/") /\ order two_built = order st0 /\
    map (fun l => (l_file l, l_paths l)) (lays two_built) = map (fun l => (l_file l, l_paths l)) (lays st0) /\
    (forall l, In l (lays two_built) -> ~ In (f_file (root_of two_tree)) (l_paths l)).
Proof.
  eexists. split; [reflexivity|]. split; [reflexivity|]. split; [reflexivity|]. intros l Hl I. apply str_in_In in I. vm_compute in Hl.
  repeat match goal with H : _ \/ _ |- _ => destruct H as [<-|H] end; try contradiction; vm_compute in I; discriminate.
Qed.
Example C68_ex_on_top :
  match new_sublayer places shelf here 9 two_built (fd (lit "new") []) None 0 with
  | Done (st, saved) => saved = [4] /\ file_names st = [lit "new"; lit "two"; lit "a"; lit "c"; lit "b"] /\ map l_parent (lays st) = [Some 4; Some 0; Some 1; Some 0; None]
  | _ => False
  end.
Proof. vm_compute. auto. Qed.
Example C68_ex_undone :
  linked chain /\ NoDup (order chain) /\ (forall j, In j (order chain) -> j < length (lays chain)) /\
  (forall x l, In x (order chain) -> nth_error (lays chain) x = Some l -> ~ In (lit "new") (l_paths l)) /\ total chain = 2.
Proof.
  split; [|split; [|split; [|split; [|reflexivity]]]].
  - intros x l e E He. destruct x as [|[|[|x]]]; cbn in E; [| | |now destruct x]; injection E as <-; cbn in He; (destruct He as [<-|[]] || destruct He); eexists; (split; [reflexivity|cbn; lia]).
  - vm_compute. repeat constructor; cbn; intuition discriminate.
  - cbn. intuition lia.
  - intros x l Hx E I. apply str_in_In in I. destruct x as [|[|[|x]]]; cbn in E; [| | |now destruct x]; injection E as <-; vm_compute in I; discriminate.
Qed.
