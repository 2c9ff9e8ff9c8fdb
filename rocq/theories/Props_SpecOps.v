(** Property theorems C27-C31: the edits of a layer. *)

From Coq Require Import String List NArith ZArith Bool Arith Lia Permutation.
From Verif Require Import PyStr PyStrFacts NxtPath PathSpec PathProofs Dict DictFacts Layer PyVal
  Names NamesSpec NamesProofs SpecOps SpecOpsSpec SpecBase SpecMove SpecParent SpecClosed SpecReparent SpecRename
  SpecDelete SpecAdd SpecHistory SpecCor.
Import ListNotations.

(** In all theorems [ud], [uw] say which characters beyond ASCII count as
    digits and word characters, and [extra] gives the node paths other layers
    contribute to the composed stage: any choice. *)

(** *** Sample layers *)

Definition no (_ : N) := false.
Definition alone (_ : slayer) : list pystr := [].
Definition leaf := Tree [] [(lit "v", VInt 1)] VNone [].
Definition family := Tree [lit "b"; lit "a"] [(lit "w", VInt 2)] VNone
  [(Some (lit "a"), Tree [] [] VNone [(Some (lit "x"), leaf)]); (Some (lit "b"), leaf); (Some (lit "b"), leaf)].
Definition add_family := EAdd family (Some (lit "root")) (lit "/") true.
(** /root, /root/a, /root/a/x, /root/b and /root/b2. *)
Definition sample := apply_edit no no alone blank add_family.
(** The same without /root/a: /root/a/x has no parent. *)
Definition gapped := fst (delete_node sample 1 true false).

Lemma good_sample : consistent sample /\ closed sample /\ composed sample.
Proof.
  destruct blank_good as (H1 & H2 & H3).
  destruct (edit_keeps no no alone blank add_family H1 H2 H3) as (_ & H); [|exact H].
  cbn [sensible add_family]. split; [reflexivity|]. split; [discriminate|]. split.
  - cbn. repeat split; discriminate.
  - exists []. split; [constructor|]. split; [reflexivity|]. now left.
Qed.

Lemma plain_lit (s : pystr) : s <> [] -> forallb (fun c => negb (N.eqb c SLASH) && negb (N.eqb c PERIOD)) s = true -> plain s.
Proof.
  intros Hne H. rewrite forallb_forall in H. split; [split; [exact Hne|]|].
  - intros Hc. apply H in Hc. rewrite N.eqb_refl in Hc. discriminate.
  - intros Hc. apply H in Hc. rewrite N.eqb_refl, andb_false_r in Hc. discriminate.
Qed.
Ltac plains := repeat (constructor; [apply plain_lit; [discriminate|reflexivity]|]); constructor.

Lemma good_gapped : consistent gapped.
Proof.
  unfold gapped. destruct (delete_single sample 1 [lit "root"; lit "a"] true (proj1 good_sample) eq_refl)
    as (L' & E & H & _); [plains|]. rewrite E. exact H.
Qed.

(** *** C27: adding *)

Theorem C27_add :
  forall ud uw extra t L name par,
  consistent L -> composed L -> Forall plain par -> name <> Some [] -> named t ->
  exists L' nm dirty,
    add_node ud uw extra t name (abs_path par) true L = (L', Done (seq (length (objs L)) (size t), dirty)) /\
    (* the name is legal and was free; it is the wanted one if that was free *)
    legal (isdigit ud) (is_word uw) nm /\ ~ holds L (par ++ [nm]) /\
    (~ holds L (par ++ [preferred (isdigit ud) (is_word uw) name]) ->
     ~ In (abs_path (par ++ [preferred (isdigit ud) (is_word uw) name])) (extra L) ->
     nm = preferred (isdigit ud) (is_word uw) name) /\
    (* the whole tree is there with its data *)
    grown (fun _ => legal (isdigit ud) (is_word uw)) L' t name par (length (objs L)) nm /\
    (* nothing else has changed, except the parent's child order *)
    added L L' par nm (size t) /\
    (* the new paths are reported dirty *)
    covers L' (seq (length (objs L)) (size t)) dirty.
Proof. exact add_unique. Qed.
Print Assumptions C27_add.
Example C27_add_ex :
  consistent sample /\ composed sample /\
  match add_node no no alone family (Some (lit "root")) (lit "/root/b") true sample with
  | (L', Done (ids, _)) => ids = [5; 6; 7; 8; 9] /\
      map (path_of L') ids = map (fun s => Some (lit s))
        ["/root/b/root"; "/root/b/root/a"; "/root/b/root/a/x"; "/root/b/root/b"; "/root/b/root/b2"]%string /\
      option_map s_order (obj L' 5) = Some [lit "b"; lit "a"; lit "b2"]
  | _ => False
  end.
Proof. split; [apply good_sample|]. split; [apply good_sample|]. vm_compute. repeat split. Qed.

(** With fix_names=False the names are taken as they are. *)
Theorem C27_add_with_given_names :
  forall ud uw extra t L nm par,
  consistent L -> Forall plain (par ++ [nm]) -> vacant L (par ++ [nm]) -> exact t ->
  exists L' dirty,
    add_node ud uw extra t (Some nm) (abs_path par) false L = (L', Done (seq (length (objs L)) (size t), dirty)) /\
    grown (fun wanted got => wanted = Some got) L' t (Some nm) par (length (objs L)) nm /\
    added L L' par nm (size t) /\ covers L' (seq (length (objs L)) (size t)) dirty.
Proof. exact add_exact. Qed.
Print Assumptions C27_add_with_given_names.
Example C27_add_with_given_names_ex :
  vacant sample [lit "root"; lit "new"] /\
  exact (Tree [] [] VNone [(Some (lit "p"), leaf); (Some (lit "q"), leaf)]).
Proof.
  split.
  - apply closed_vacant; [apply good_sample|plains|discriminate|]. intros (k & E). vm_compute in E. discriminate.
  - split.
    + constructor; [|constructor; [intros []|constructor]]. cbn. intros [E|[]]. discriminate.
    + split; [exists (lit "p"); split; [reflexivity|apply plain_lit; [discriminate|reflexivity]]|].
      split; [split; [constructor|exact I]|].
      split; [exists (lit "q"); split; [reflexivity|apply plain_lit; [discriminate|reflexivity]]|].
      split; [split; [constructor|exact I]|exact I].
Qed.

(** Not so on a layer that is left out of the composed stage (muted, or
    another layer is soloed): the "unique" name may be taken in the layer, and
    the node that has it is overwritten. *)
Definition silenced (L : slayer) : slayer :=
  {| objs := objs L; spec_list := spec_list L; by_path := by_path L; by_node := by_node L; table := table L;
     positions := positions L; collapse := collapse L; muted := true; hidden := hidden L; top := top L |}.
Lemma silenced_consistent L : consistent L -> consistent (silenced L).
Proof. intros H. constructor; apply H. Qed.
Theorem C27_add_to_muted_layer_refuted :
  exists L, consistent L /\ muted L = true /\
    lookup L (lit "/root") = Some 0 /\
    lookup (fst (add_node no no alone leaf (Some (lit "root")) (lit "/") true L)) (lit "/root") = Some 5 /\
    ~ consistent (fst (add_node no no alone leaf (Some (lit "root")) (lit "/") true L)).
Proof.
  exists (silenced sample). split; [apply silenced_consistent, good_sample|].
  split; [reflexivity|]. split; [vm_compute; reflexivity|]. split; [vm_compute; reflexivity|].
  intros H. pose proof (proj2 (c_inverse _ H (lit "/root") 0)) as K. vm_compute in K. specialize (K eq_refl). discriminate.
Qed.
Print Assumptions C27_add_to_muted_layer_refuted.

(** Nor with fix_names=False when the name is taken. *)
Theorem C27_taken_name_overwrites_refuted :
  exists L, consistent L /\ composed L /\
    lookup L (lit "/root") = Some 0 /\
    lookup (fst (add_node no no alone leaf (Some (lit "root")) (lit "/") false L)) (lit "/root") = Some 5 /\
    ~ consistent (fst (add_node no no alone leaf (Some (lit "root")) (lit "/") false L)).
Proof.
  exists sample. split; [apply good_sample|]. split; [apply good_sample|].
  split; [vm_compute; reflexivity|]. split; [vm_compute; reflexivity|].
  intros H. pose proof (proj2 (c_inverse _ H (lit "/root") 0)) as K. vm_compute in K. specialize (K eq_refl). discriminate.
Qed.
Print Assumptions C27_taken_name_overwrites_refuted.

(** *** C28: deleting *)

Theorem C28_delete_subtree :
  forall L i ns remove_data,
  consistent L -> path_of L i = Some (abs_path ns) -> Forall plain ns -> gapless L ns ->
  exists L' gone,
    delete_node L i remove_data true = (L', Done gone) /\ consistent L' /\
    NoDup gone /\
    (forall x, In x gone <-> exists r, Forall plain r /\ x = abs_path (ns ++ r) /\ holds L (ns ++ r)) /\
    (* nothing is left at or below the node, all else is where it was *)
    (forall r, Forall plain r -> lookup L' (abs_path (ns ++ r)) = None) /\
    (forall ms, Forall plain ms -> ~ (exists r, ms = ns ++ r) ->
       lookup L' (abs_path ms) = lookup L (abs_path ms)) /\
    (* the other nodes keep name, place, data and child order; the parent's
       order loses the name *)
    stays L L' ns True /\
    (muted L = false -> forall k p m, lookup L' p = Some k -> obj L' k = Some m -> sourced m p) /\
    (NoDup (dkeys (positions L)) -> NoDup (dkeys (collapse L)) -> forall q,
       dget q (positions L') = (if remove_data && str_in q gone then None else dget q (positions L)) /\
       dget q (collapse L') = (if remove_data && str_in q gone then None else dget q (collapse L))).
Proof. exact (delete_subtree alone). Qed.
Print Assumptions C28_delete_subtree.
(** Layers in which every node's parent exists have no gaps. *)
Theorem C28_no_gaps_in_closed_layers :
  forall L ns, closed L -> Forall plain ns -> gapless L ns.
Proof. exact closed_gapless. Qed.
Print Assumptions C28_no_gaps_in_closed_layers.
Example C28_delete_subtree_ex :
  consistent sample /\ gapless sample [lit "root"; lit "a"] /\
  path_of sample 1 = Some (abs_path [lit "root"; lit "a"]) /\
  match delete_node sample 1 true true with
  | (L', Done gone) => gone = [lit "/root/a"; lit "/root/a/x"] /\
      map fst (by_path L') = [lit "/root"; lit "/root/b"; lit "/root/b2"] /\
      option_map s_order (obj L' 0) = Some [lit "b"; lit "b2"]
  | _ => False
  end.
Proof.
  split; [apply good_sample|]. split; [apply closed_gapless; [apply good_sample|plains]|].
  split; [reflexivity|]. vm_compute. repeat split.
Qed.

(** Without descendants only the node goes.  Its name stays in the parent's
    child order as long as something is below it. *)
Theorem C28_delete_single :
  forall L i ns remove_data,
  consistent L -> path_of L i = Some (abs_path ns) -> Forall plain ns ->
  exists L',
    delete_node L i remove_data false = (L', Done [abs_path ns]) /\ consistent L' /\
    lookup L' (abs_path ns) = None /\
    (forall q, q <> abs_path ns -> lookup L' q = lookup L q) /\
    stays L L' ns (forall r, Forall plain r -> r <> [] -> ~ holds L (ns ++ r)) /\
    (NoDup (dkeys (positions L)) -> NoDup (dkeys (collapse L)) -> forall q,
       dget q (positions L') = (if remove_data && str_eqb q (abs_path ns) then None else dget q (positions L)) /\
       dget q (collapse L') = (if remove_data && str_eqb q (abs_path ns) then None else dget q (collapse L))).
Proof. exact delete_single. Qed.
Print Assumptions C28_delete_single.
Example C28_delete_single_ex :
  map fst (by_path gapped) = [lit "/root"; lit "/root/a/x"; lit "/root/b"; lit "/root/b2"] /\
  option_map s_order (obj gapped 0) = Some [lit "b"; lit "a"; lit "b2"] /\
  map fst (by_path (fst (delete_node sample 4 true false))) = [lit "/root"; lit "/root/a"; lit "/root/a/x"; lit "/root/b"] /\
  option_map s_order (obj (fst (delete_node sample 4 true false)) 0) = Some [lit "b"; lit "a"].
Proof. vm_compute. repeat split. Qed.

(** With a gap below the node (a place without node, but with nodes below it)
    deletion with descendants always fails half way: the node is gone, the
    books of the layer do not agree. *)
Theorem C28_gap_refuted :
  forall L i ns remove_data r,
  consistent L -> path_of L i = Some (abs_path ns) -> Forall plain ns ->
  Forall plain r -> r <> [] -> inhabited L (ns ++ r) -> ~ holds L (ns ++ r) ->
  exists L', delete_node L i remove_data true = (L', Failed ValueError) /\
    lookup L' (abs_path ns) = None /\ ~ consistent L' /\
    (forall q, lookup L' q = None \/ lookup L' q = lookup L q) /\
    (forall ms, Forall plain ms -> ~ (exists s, ms = ns ++ s) -> lookup L' (abs_path ms) = lookup L (abs_path ms)).
Proof. exact delete_gap. Qed.
Print Assumptions C28_gap_refuted.
Example C28_gap_refuted_ex :
  consistent gapped /\ path_of gapped 0 = Some (abs_path [lit "root"]) /\
  inhabited gapped ([lit "root"] ++ [lit "a"]) /\ ~ holds gapped ([lit "root"] ++ [lit "a"]) /\
  snd (delete_node gapped 0 true true) = Failed ValueError.
Proof.
  split; [exact good_gapped|]. split; [reflexivity|]. split.
  { exists [lit "x"]. split; [plains|]. exists 2. reflexivity. }
  split; [intros (k & E); vm_compute in E; discriminate|]. vm_compute. reflexivity.
Qed.

(** *** C29: renaming *)

(** In layers without gaps that take part in the stage: always works. *)
Theorem C29_rename :
  forall ud uw extra L i po nm0 n name,
  consistent L -> closed L -> composed L -> path_of L i = Some (abs_path (po ++ [nm0])) ->
  Forall plain (po ++ [nm0]) -> obj L i = Some n -> name <> [] ->
  exists L' nm xs,
    set_node_name ud uw extra L i name false = (L', Done (abs_path (po ++ [nm]))) /\
    legal (isdigit ud) (is_word uw) nm /\ ~ holds L (po ++ [nm]) /\
    (~ holds L (po ++ [preferred (isdigit ud) (is_word uw) (Some name)]) ->
     ~ In (abs_path (po ++ [preferred (isdigit ud) (is_word uw) (Some name)])) (extra L) ->
     nm = preferred (isdigit ud) (is_word uw) (Some name)) /\
    consistent L' /\ closed L' /\ composed L' /\
    (* exactly the sub-tree has moved, and no node lost data *)
    moved (po ++ [nm0]) (po ++ [nm]) L L' /\ same_nodes L L' /\
    (forall k p m, lookup L' p = Some k -> obj L' k = Some m -> sourced m p) /\
    (* the parent's order has the new name in place of the old; the node's own
       order gains the children it did not list *)
    NoDup xs /\ (forall x, In x xs <-> plain x /\ holds L (po ++ [nm0; x])) /\
    (forall k m m', obj L k = Some m -> obj L' k = Some m' ->
      (k = i -> s_order m' = fold_left (fun l x => adding x l) xs (s_order m)) /\
      (lookup L (abs_path po) = Some k ->
       s_order m' = map (fun x => if str_eqb x nm0 then nm else x) (s_order m)) /\
      (k <> i -> lookup L (abs_path po) <> Some k -> s_order m' = s_order m)) /\
    same_flags L L' /\
    positions L' = move_key (abs_path (po ++ [nm0])) (abs_path (po ++ [nm])) (positions L).
Proof. exact set_node_name_closed. Qed.
Print Assumptions C29_rename.
Example C29_rename_ex :
  consistent sample /\ closed sample /\ composed sample /\
  match set_node_name no no alone sample 1 (lit "b") false with
  | (L', Done p) => p = lit "/root/b3" /\
      map fst (by_path L') = [lit "/root"; lit "/root/b"; lit "/root/b2"; lit "/root/b3"; lit "/root/b3/x"] /\
      option_map s_order (obj L' 0) = Some [lit "b"; lit "b3"; lit "b2"] /\
      path_of L' 2 = Some (lit "/root/b3/x")
  | _ => False
  end.
Proof. split; [apply good_sample|]. split; [apply good_sample|]. split; [apply good_sample|]. vm_compute. repeat split. Qed.

(** In any layer, forced or not, if nothing is at or below the new path: what
    becomes of every node and every child order. *)
Theorem C29_rename_any_layer :
  forall ud uw extra L i po nm0 nm n name (force : bool),
  consistent L -> path_of L i = Some (abs_path (po ++ [nm0])) -> Forall plain (po ++ [nm0]) ->
  Forall plain (po ++ [nm]) -> obj L i = Some n ->
  (if force then name = nm
   else unique_name ud uw extra L (Some name) (abs_path po) = Some (Ok nm)) ->
  vacant L (po ++ [nm]) ->
  exists L' xs,
    set_node_name ud uw extra L i name force = (L', Done (abs_path (po ++ [nm]))) /\
    consistent L' /\
    NoDup xs /\ (forall x, In x xs <-> plain x /\ holds L (po ++ [nm0; x])) /\
    renamed L i (po ++ [nm0]) (po ++ [nm]) xs L' /\ same_nodes L L' /\
    (muted L = false -> forall k p m, lookup L' p = Some k -> obj L' k = Some m -> sourced m p) /\
    (forall k m m', obj L k = Some m -> obj L' k = Some m' ->
      (k = i -> s_order m' = fold_left (fun l x => adding x l) xs (s_order m)) /\
      (lookup L (abs_path po) = Some k ->
       s_order m' = map (fun x => if str_eqb x nm0 then nm else x) (s_order m)) /\
      (k <> i -> lookup L (abs_path po) <> Some k ->
       (forall c, nearest_above L (po ++ [nm0]) k c -> s_order m' = repeat_without c (length xs) (s_order m)) /\
       ((forall c, ~ nearest_above L (po ++ [nm0]) k c) -> s_order m' = s_order m))) /\
    same_flags L L' /\
    positions L' = move_key (abs_path (po ++ [nm0])) (abs_path (po ++ [nm])) (positions L) /\
    collapse L' = fold_left (fun d x => move_key (abs_path ((po ++ [nm0]) ++ x)) (abs_path ((po ++ [nm]) ++ x)) d)
                            ([] :: map (fun x => [x]) xs) (collapse L).
Proof. exact rename_general. Qed.
Print Assumptions C29_rename_any_layer.

(** A gap below the renamed node: what is below the gap stays behind. *)
Theorem C29_gap_left_behind_refuted :
  exists L i, consistent L /\ composed L /\ path_of L i = Some (lit "/root") /\
    lookup L (lit "/root/a/x") = Some 2 /\
    match set_node_name no no alone L i (lit "new") false with
    | (L', Done p) => p = lit "/new" /\ lookup L' (lit "/new/a/x") = None /\ lookup L' (lit "/root/a/x") = Some 2 /\
                      lookup L' (lit "/new/b") = Some 3
    | _ => False
    end.
Proof.
  exists gapped, 0. split; [exact good_gapped|]. split; [split; reflexivity|].
  split; [reflexivity|]. split; [reflexivity|]. vm_compute. repeat split.
Qed.
Print Assumptions C29_gap_left_behind_refuted.
Example C29_rename_any_layer_ex :
  consistent gapped /\ vacant gapped [lit "new"] /\
  unique_name no no alone gapped (Some (lit "new")) (abs_path []) = Some (Ok (lit "new")).
Proof.
  split; [exact good_gapped|]. split; [|vm_compute; reflexivity].
  intros r Hr. unfold lookup. destruct (dget _ _) as [k|] eqn:E; [|reflexivity].
  apply dget_In in E. vm_compute in E. repeat destruct E as [E|E]; discriminate || destruct E.
Qed.

(** The unique name does not look below: a new path that is free but has
    something below it swallows nodes. *)
Definition collide :=
  let L1 := apply_edit no no alone sample (EAdd (Tree [] [] VNone [(Some (lit "x"), leaf)]) (Some (lit "c")) (lit "/root") true) in
  fst (delete_node L1 1 true false).
Theorem C29_new_path_swallows_refuted :
  exists L i j, consistent L /\ composed L /\ path_of L i = Some (lit "/root/c") /\
    lookup L (lit "/root/a/x") = Some j /\ lookup L (lit "/root/a") = None /\
    match set_node_name no no alone L i (lit "a") false with
    | (L', _) => ~ (exists p, lookup L' p = Some j) /\ path_of L' j = Some (lit "/root/a/x")
    end.
Proof.
  exists collide, 5, 2. split.
  { unfold collide. set (e := EAdd _ _ _ _). cbv zeta.
    destruct (good_sample) as (H1 & H2 & H3).
    destruct (edit_keeps no no alone sample e H1 H2 H3) as (_ & K1 & _).
    { split; [reflexivity|]. split; [discriminate|]. split; [cbn; repeat split; discriminate|].
      exists [lit "root"]. split; [plains|]. split; [reflexivity|]. right. now exists 0. }
    destruct (delete_single _ 1 [lit "root"; lit "a"] true K1) as (L' & E & H & _); [vm_compute; reflexivity|plains|].
    rewrite E. exact H. }
  split; [split; reflexivity|]. split; [vm_compute; reflexivity|]. split; [vm_compute; reflexivity|].
  split; [vm_compute; reflexivity|].
  destruct (set_node_name no no alone collide 5 (lit "a") false) as [L' r] eqn:E. vm_compute in E.
  injection E as <- <-. split; [|vm_compute; reflexivity].
  intros (p & Ep). apply dget_In in Ep. cbn in Ep. repeat destruct Ep as [Ep|Ep]; try discriminate. destruct Ep.
Qed.
Print Assumptions C29_new_path_swallows_refuted.

(** Forcing a taken name overwrites its owner. *)
Theorem C29_forced_name_overwrites_refuted :
  exists L i j, consistent L /\ closed L /\ composed L /\ i <> j /\
    lookup L (lit "/root/a") = Some i /\ lookup L (lit "/root/b") = Some j /\
    match set_node_name no no alone L i (lit "b") true with
    | (L', _) => lookup L' (lit "/root/b") = Some i /\ path_of L' j = Some (lit "/root/b") /\ ~ consistent L'
    end.
Proof.
  exists sample, 1, 3. destruct good_sample as (H1 & H2 & H3). split; [exact H1|]. split; [exact H2|]. split; [exact H3|].
  split; [discriminate|]. split; [vm_compute; reflexivity|]. split; [vm_compute; reflexivity|].
  destruct (set_node_name no no alone sample 1 (lit "b") true) as [L' r] eqn:E. vm_compute in E.
  injection E as <- <-. split; [vm_compute; reflexivity|]. split; [vm_compute; reflexivity|].
  intros H. pose proof (proj2 (c_inverse _ H (lit "/root/b") 3)) as K. vm_compute in K. specialize (K eq_refl). discriminate.
Qed.
Print Assumptions C29_forced_name_overwrites_refuted.

(** The positions of the nodes below do not follow. *)
Lemma positions_consistent L d : consistent L -> consistent (with_positions L d).
Proof. intros H. constructor; apply H. Qed.
Lemma positions_closed L d : closed L -> closed (with_positions L d).
Proof. intros H. exact H. Qed.
Definition placed_sample := with_positions sample [(lit "/root", VInt 1); (lit "/root/b", VInt 2)].
Theorem C29_positions_below_stay_refuted :
  exists L, consistent L /\ closed L /\ composed L /\ dget (lit "/root/b") (positions L) = Some (VInt 2) /\
    match set_node_name no no alone L 0 (lit "new") false with
    | (L', Done p) => p = lit "/new" /\ dget (lit "/new") (positions L') = Some (VInt 1) /\
                      dget (lit "/new/b") (positions L') = None /\
                      dget (lit "/root/b") (positions L') = Some (VInt 2)
    | _ => False
    end.
Proof.
  exists placed_sample. destruct good_sample as (H1 & H2 & H3). split; [apply positions_consistent, H1|].
  split; [apply positions_closed, H2|]. split; [split; reflexivity|]. split; [reflexivity|]. vm_compute. repeat split.
Qed.
Print Assumptions C29_positions_below_stay_refuted.

(** *** C30: reparenting *)

(** One node in any layer: the new path must have nothing at or below it. *)
Theorem C30_reparent :
  forall ud uw extra L i o n par nm,
  consistent L -> path_of L i = Some (abs_path o) -> Forall plain o -> o <> [] -> obj L i = Some n ->
  Forall plain (par ++ [nm]) -> s_name n = nm -> vacant L (par ++ [nm]) ->
  exists L',
    parent_nodes ud uw extra L [i] (abs_path par) false
    = (L', Done [(abs_path o, abs_path (par ++ [nm]))]) /\
    consistent L' /\ moved o (par ++ [nm]) L L' /\
    same_nodes L L' /\
    (muted L = false -> forall k p m, lookup L' p = Some k -> obj L' k = Some m -> sourced m p) /\
    (forall k m m', obj L k = Some m -> obj L' k = Some m' ->
       exists l1, leaves L o k (s_order m) l1 /\ joins L par nm k l1 (s_order m')) /\
    same_flags L L' /\ moved_keys (abs_path o) (abs_path (par ++ [nm])) L L'.
Proof. exact (fun ud uw extra L i o n par nm => parent_nodes_one ud uw extra L i o n par nm false). Qed.
Print Assumptions C30_reparent.

(** Any nodes, uniquely named, in layers without gaps: they all go under the
    new parent, and every other node stays in its parent. *)
Theorem C30_reparent_many :
  forall ud uw extra L ids par,
  consistent L -> closed L -> composed L -> Forall plain par -> par = [] \/ holds L par ->
  NoDup ids -> ids <> [] ->
  (forall i, In i ids -> exists o, path_of L i = Some (abs_path o) /\ Forall plain o /\ o <> [] /\
                                   ~ (exists r, par = o ++ r)) ->
  exists L' res,
    parent_nodes ud uw extra L ids (abs_path par) true = (L', Done res) /\
    consistent L' /\ closed L' /\ composed L' /\ same_nodes L L' /\
    lookup L' (abs_path par) = lookup L (abs_path par) /\
    lookup L' (abs_path []) = lookup L (abs_path []) /\
    (forall i, In i ids -> exists nm, legal (isdigit ud) (is_word uw) nm /\
       path_of L' i = Some (abs_path (par ++ [nm]))) /\
    (forall k, ~ In k ids -> keeps_place L L' k) /\
    (forall k, path_of L k = None -> path_of L' k = None).
Proof. exact parent_nodes_closed. Qed.
Print Assumptions C30_reparent_many.
Example C30_reparent_ex :
  consistent sample /\ closed sample /\ composed sample /\
  vacant sample ([lit "root"; lit "b"] ++ [lit "a"]) /\
  match parent_nodes no no alone sample [1] (lit "/root/b") false with
  | (L', Done res) => res = [(lit "/root/a", lit "/root/b/a")] /\
      path_of L' 2 = Some (lit "/root/b/a/x") /\ lookup L' (lit "/root/a") = None /\
      option_map s_order (obj L' 0) = Some [lit "b"; lit "b2"] /\ option_map s_order (obj L' 3) = Some [lit "a"]
  | _ => False
  end /\
  match parent_nodes no no alone sample [1; 3; 4] (lit "/") true with
  | (L', Done res) => map snd res = [lit "/a"; lit "/b"; lit "/b2"] /\ path_of L' 2 = Some (lit "/a/x")
  | _ => False
  end.
Proof.
  split; [apply good_sample|]. split; [apply good_sample|]. split; [apply good_sample|]. split.
  - apply closed_vacant; [apply good_sample|plains|discriminate|]. intros (k & E). vm_compute in E. discriminate.
  - vm_compute. repeat split.
Qed.

(** Below itself: nothing refuses it, and the node and all below it end up
    below a path without node. *)
Theorem C30_below_itself_refuted :
  exists L i, consistent L /\ closed L /\ composed L /\ path_of L i = Some (lit "/root/a") /\
    match parent_nodes no no alone L [i] (lit "/root/a/x") true with
    | (L', Done res) => res = [(lit "/root/a", lit "/root/a/x/a")] /\
        lookup L' (lit "/root/a") = None /\ lookup L' (lit "/root/a/x") = None /\
        path_of L' i = Some (lit "/root/a/x/a")
    | _ => False
    end.
Proof.
  exists sample, 1. destruct good_sample as (H1 & H2 & H3). split; [exact H1|]. split; [exact H2|]. split; [exact H3|].
  split; [vm_compute; reflexivity|].
  vm_compute. repeat split.
Qed.
Print Assumptions C30_below_itself_refuted.

(** Under the parent it has already: the node is renamed, or, with
    check_names=False, an error is raised. *)
Theorem C30_same_parent_refuted :
  exists L i, consistent L /\ closed L /\ composed L /\ path_of L i = Some (lit "/root/a") /\
    snd (parent_nodes no no alone L [i] (lit "/root") true) = Done [(lit "/root/a", lit "/root/a2")] /\
    snd (parent_nodes no no alone L [i] (lit "/root") false) = Failed ValueError.
Proof.
  exists sample, 1. destruct good_sample as (H1 & H2 & H3). split; [exact H1|]. split; [exact H2|]. split; [exact H3|].
  split; [vm_compute; reflexivity|].
  vm_compute. repeat split.
Qed.
Print Assumptions C30_same_parent_refuted.

(** *** C31: histories *)

(** Whatever sensible edits are made to an empty layer, in whatever order: no
    call fails, and after each the books agree and every parent exists. *)
Theorem C31_any_history :
  forall ud uw extra es, history ud uw extra blank es ->
  consistent (fold_left (apply_edit ud uw extra) es blank) /\
  closed (fold_left (apply_edit ud uw extra) es blank) /\
  composed (fold_left (apply_edit ud uw extra) es blank) /\
  forall done e rest, es = done ++ e :: rest ->
    returns ud uw extra (fold_left (apply_edit ud uw extra) done blank) e.
Proof.
  exact (fun ud uw extra es => history_keeps ud uw extra es blank (proj1 blank_good)
           (proj1 (proj2 blank_good)) (proj2 (proj2 blank_good))).
Qed.
Print Assumptions C31_any_history.
(** The same from any layer in good order. *)
Theorem C31_any_history_from :
  forall ud uw extra es L, consistent L -> closed L -> composed L -> history ud uw extra L es ->
  consistent (fold_left (apply_edit ud uw extra) es L) /\ closed (fold_left (apply_edit ud uw extra) es L) /\
  composed (fold_left (apply_edit ud uw extra) es L) /\
  forall done e rest, es = done ++ e :: rest ->
    returns ud uw extra (fold_left (apply_edit ud uw extra) done L) e.
Proof. exact history_keeps. Qed.
Print Assumptions C31_any_history_from.
Example C31_any_history_ex :
  history no no alone blank
    [add_family; ERename 1 (lit "b") false; EParent [2; 3] (lit "/") true; EDelete 0 true true].
Proof.
  cbn [history]. split.
  { split; [reflexivity|]. split; [discriminate|]. split; [cbn; repeat split; discriminate|].
    exists []. split; [constructor|]. split; [reflexivity|]. now left. }
  split.
  { split; [reflexivity|]. split; [discriminate|]. exists [lit "root"], (lit "a"). split; [plains|]. vm_compute. reflexivity. }
  split.
  { split; [reflexivity|]. split; [constructor; [intros [E|[]]; discriminate|constructor; [intros []|constructor]]|].
    exists []. split; [constructor|]. split; [reflexivity|]. split; [now left|].
    intros i [<-|[<-|[]]].
    - exists [lit "root"; lit "b3"; lit "x"]. split; [vm_compute; reflexivity|]. split; [plains|].
      split; [discriminate|]. intros (r & E). discriminate.
    - exists [lit "root"; lit "b"]. split; [vm_compute; reflexivity|]. split; [plains|].
      split; [discriminate|]. intros (r & E). discriminate. }
  split; [|exact I]. exists [lit "root"]. split; [plains|]. split; [vm_compute; reflexivity|]. now left.
Qed.

(** The restrictions are needed: a history with a deletion that leaves a gap
    ends in a layer whose books do not agree. *)
Theorem C31_with_gaps_refuted :
  exists es, ~ consistent (fold_left (apply_edit no no alone) es blank).
Proof.
  exists [add_family; EDelete 1 true false; EDelete 0 true true].
  replace (fold_left _ _ _) with (fst (delete_node gapped 0 true true)) by (vm_compute; reflexivity).
  destruct (delete_gap gapped 0 [lit "root"] true [lit "a"] good_gapped) as (L' & E & _ & H & _).
  { reflexivity. } { plains. } { plains. } { discriminate. }
  { exists [lit "x"]. split; [plains|]. exists 2. reflexivity. }
  { intros (k & Ek). vm_compute in Ek. discriminate. }
  rewrite E. exact H.
Qed.
Print Assumptions C31_with_gaps_refuted.
