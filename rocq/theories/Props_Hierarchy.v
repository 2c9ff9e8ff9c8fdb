(** Properties C18 (children and descendants), C19 (child caches) and C20
    (execution order) of a layer. *)

From Coq Require Import String List NArith ZArith Bool Lia.
From Verif Require Import PyStr PyStrFacts NxtPath PathSpec PathProofs Dict DictFacts ListMerger
  Layer LayerSpec LayerProofs DescProofs ExecOrderProofs ChildCache ChildCacheSpec
  ChildCacheProofs HierarchyProofs.
Import ListNotations.

(** *** A concrete layer *)

Definition nd (parent name : string) (order : list string) (en : option bool) (ex : option string) : cnode :=
  {| n_name := lit name; n_parent := lit parent; n_order := map lit order;
     n_enabled := en; n_exec_in := option_map lit ex |}.

(** '/a' with children b, c (order: c, b), a disabled '/a/c' with a child, a
    root '/e' that runs after '/a', and '/a/x/y' whose parent is missing. *)
Definition ex_nodes : dict cnode :=
  [ (lit "/a", nd "/" "a" ["c"; "b"]%string None None);
    (lit "/a/b", nd "/a" "b" [] None None);
    (lit "/a/c", nd "/a" "c" [] (Some false) None);
    (lit "/a/c/d", nd "/a/c" "d" [] None None);
    (lit "/e", nd "/" "e" [] None (Some "/a"%string));
    (lit "/a/x/y", nd "/a/x" "y" [] None None);
    (lit "/a/b/k", nd "/a/b" "k" [] None None) ].
Definition ex_layer : layer := {| nodes := ex_nodes; kids := []; implied := [] |}.

Ltac comps := repeat constructor; cbn; intuition discriminate.
Ltac place l nm := right; exists l, nm; split; [comps|]; repeat split; reflexivity.

Example ex_wf : wf_nodes (nodes ex_layer).
Proof.
  split.
  - repeat constructor; cbn; intuition discriminate.
  - intros k n H. cbn [nodes ex_layer ex_nodes In] in H.
    repeat (destruct H as [H|H]; [injection H as <- <-|]); [..|destruct H].
    + place (@nil pystr) (lit "a").
    + place [lit "a"] (lit "b").
    + place [lit "a"] (lit "c").
    + place [lit "a"; lit "c"] (lit "d").
    + place (@nil pystr) (lit "e").
    + place [lit "a"; lit "x"] (lit "y").
    + place [lit "a"; lit "b"] (lit "k").
Qed.

Example ex_ready : all_ready by_value ex_layer.
Proof. exact (cold_ready ex_layer). Qed.

Example ex_shallow : shallower (nodes ex_layer) 4.
Proof.
  intros ns Hc H. destruct H as [H|H].
  1: { apply (abs_path_inj [lit "a"]) in H; [subst; cbn; lia|comps|exact Hc]. }
  destruct H as [H|H].
  1: { apply (abs_path_inj [lit "a"; lit "b"]) in H; [subst; cbn; lia|comps|exact Hc]. }
  destruct H as [H|H].
  1: { apply (abs_path_inj [lit "a"; lit "c"]) in H; [subst; cbn; lia|comps|exact Hc]. }
  destruct H as [H|H].
  1: { apply (abs_path_inj [lit "a"; lit "c"; lit "d"]) in H; [subst; cbn; lia|comps|exact Hc]. }
  destruct H as [H|H].
  1: { apply (abs_path_inj [lit "e"]) in H; [subst; cbn; lia|comps|exact Hc]. }
  destruct H as [H|H].
  1: { apply (abs_path_inj [lit "a"; lit "x"; lit "y"]) in H; [subst; cbn; lia|comps|exact Hc]. }
  destruct H as [H|H].
  1: { apply (abs_path_inj [lit "a"; lit "b"; lit "k"]) in H; [subst; cbn; lia|comps|exact Hc]. }
  destruct H.
Qed.

(** *** C18: children *)

(** [all_ready] describes the layers whose caches tell the truth; a layer that
    has not been asked anything is one, whatever it contains, when strings are
    compared by value, and C19 shows which histories lead only to such
    layers. *)
Theorem C18_fresh_layers_ready : forall L, all_ready by_value (cold L).
Proof. exact cold_ready. Qed.
Print Assumptions C18_fresh_layers_ready.

Theorem C18_children :
  forall same same_name L ns,
  wf_nodes (nodes L) -> all_ready same L -> Forall component ns ->
  exists l, fst (children same same_name L (abs_path ns) RPath false false) = AList l /\
    NoDup l /\
    (forall c, In c l <-> exists nm, component nm /\ c = child ns nm /\ has (nodes L) (ns ++ [nm])) /\
    l = map fst (filter (fun kn => str_eqb (n_parent (snd kn)) (abs_path ns)) (nodes L)) /\
    fst (children same same_name L (abs_path ns) RNode false false) = AList l /\
    fst (children same same_name L (abs_path ns) RTable false false) = AList l.
Proof. exact children_exact. Qed.
Print Assumptions C18_children.
Example C18_children_ex :
  fst (children by_value by_value ex_layer (lit "/a") RPath false false)
  = AList [lit "/a/b"; lit "/a/c"].
Proof. reflexivity. Qed.

Theorem C18_children_implied :
  forall same same_name L ns,
  wf_nodes (nodes L) -> all_ready same L -> Forall component ns ->
  ns <> [] \/ ~ has (nodes L) [] ->
  exists l, fst (children same same_name L (abs_path ns) RPath false true) = AList l /\
    NoDup l /\
    (forall c, In c l <-> exists nm, component nm /\ c = child ns nm /\ known (nodes L) (ns ++ [nm])) /\
    exists extra, l = map fst (filter (fun kn => str_eqb (n_parent (snd kn)) (abs_path ns)) (nodes L)) ++ extra.
Proof. exact children_implied. Qed.
Print Assumptions C18_children_implied.
Example C18_children_implied_ex :
  fst (children by_value by_value ex_layer (lit "/a") RPath false true)
  = AList [lit "/a/b"; lit "/a/c"; lit "/a/x"].
Proof. reflexivity. Qed.

(** In child order: the names of the order that exist, then the rest. *)
Theorem C18_children_ordered :
  forall same same_name L ns incl,
  wf_nodes (nodes L) -> all_ready same L -> Forall component ns ->
  ns <> [] \/ ~ has (nodes L) [] -> incl = true \/ has (nodes L) ns ->
  exists l names,
    fst (children same same_name L (abs_path ns) RPath false incl) = AList l /\
    l = map (child ns) names /\
    fst (children same same_name L (abs_path ns) RPath true incl)
    = AList (map (child ns) (ranked (stored_order (nodes L) (abs_path ns)) names)).
Proof. exact children_ordered. Qed.
Print Assumptions C18_children_ordered.
Example C18_children_ordered_ex :
  has (nodes ex_layer) [lit "a"] /\
  fst (children by_value by_value ex_layer (lit "/a") RPath true true)
  = AList [lit "/a/c"; lit "/a/b"; lit "/a/x"].
Proof. split; [now left|reflexivity]. Qed.

Theorem C18_child_order_loses_nothing :
  forall order names nm, In nm (ranked order names) <-> In nm names.
Proof. exact ranked_perm. Qed.
Print Assumptions C18_child_order_loses_nothing.

Theorem C18_children_nodes_ordered :
  forall same L ns,
  wf_nodes (nodes L) -> all_ready same L -> Forall component ns ->
  fst (children same by_value L (abs_path ns) RNode true false)
  = fst (children same by_value L (abs_path ns) RPath true false).
Proof. exact children_nodes_ordered. Qed.
Print Assumptions C18_children_nodes_ordered.

Theorem C18_children_by_name :
  forall same same_name L ns nm c,
  wf_nodes (nodes L) -> all_ready same L -> Forall component ns ->
  exists dct, fst (children same same_name L (abs_path ns) RDict false false) = ADict dct /\
    (dget nm dct = Some c <-> component nm /\ c = child ns nm /\ has (nodes L) (ns ++ [nm])).
Proof. exact children_dict. Qed.
Print Assumptions C18_children_by_name.

Theorem C18_has_children :
  forall same same_name L ns incl,
  wf_nodes (nodes L) -> all_ready same L -> Forall component ns ->
  fst (children same same_name L (abs_path ns) RBool false incl)
  = if incl then AErr ValueError
    else ABool (existsb (fun kn => str_eqb (n_parent (snd kn)) (abs_path ns)) (nodes L)).
Proof. exact children_bool. Qed.
Print Assumptions C18_has_children.

(** *** C18: descendants *)

Theorem C18_descendants :
  forall same same_name fuel depth L ns incl,
  wf_nodes (nodes L) -> all_ready same L -> Forall component ns -> ns <> [] ->
  shallower (nodes L) depth -> depth <= fuel ->
  exists l, fst (descendants same same_name fuel L (abs_path ns) RPath false incl) = AList l /\
    NoDup l /\
    forall x, In x l <-> exists r, r <> [] /\ Forall component r /\ x = abs_path (ns ++ r) /\
                if incl then known (nodes L) (ns ++ r) else linked (nodes L) ns r.
Proof. exact descendants_exact. Qed.
Print Assumptions C18_descendants.
Example C18_descendants_ex :
  fst (descendants by_value by_value 4 ex_layer (lit "/a") RPath false true)
  = AList (map lit ["/a/b"; "/a/c"; "/a/x"; "/a/b/k"; "/a/c/d"; "/a/x/y"]%string).
Proof. reflexivity. Qed.

Theorem C18_descendants_ordered :
  forall same same_name fuel depth L ns incl,
  wf_nodes (nodes L) -> all_ready same L -> Forall component ns -> ns <> [] ->
  incl = true \/ has (nodes L) ns ->
  shallower (nodes L) depth -> 0 < fuel -> depth <= length ns + fuel ->
  exists ch l, lists_kids (nodes L) incl ch /\
    fst (descendants same same_name fuel L (abs_path ns) RPath true incl) = AList l /\
    forest ch (ch (abs_path ns)) l /\
    (forall x, In x l <-> exists r, r <> [] /\ Forall component r /\ x = abs_path (ns ++ r) /\
                if incl then known (nodes L) (ns ++ r) else linked (nodes L) ns r) /\
    (forall a b r1 r2, Forall component (r1 ++ r2) -> r1 <> [] -> r2 <> [] ->
       l = a ++ abs_path (ns ++ r1 ++ r2) :: b -> In (abs_path (ns ++ r1)) a) /\
    ((forall ms, Forall component ms -> NoDup (stored_order (nodes L) (abs_path ms))) -> NoDup l).
Proof. exact descendants_ordered. Qed.
Print Assumptions C18_descendants_ordered.
Example C18_descendants_ordered_ex :
  fst (descendants by_value by_value 4 ex_layer (lit "/a") RPath true false)
  = AList (map lit ["/a/c"; "/a/c/d"; "/a/b"; "/a/b/k"]%string).
Proof. reflexivity. Qed.

Theorem C18_descendants_ordered_missing :
  forall same same_name fuel L ns,
  all_ready same L -> Forall component ns -> ns <> [] -> 0 < fuel -> ~ has (nodes L) ns ->
  fst (descendants same same_name fuel L (abs_path ns) RPath true false) = AErr AttributeError.
Proof. exact descendants_ordered_missing. Qed.
Print Assumptions C18_descendants_ordered_missing.

Theorem C18_descendants_of_world :
  forall same same_name fuel L incl,
  wf_nodes (nodes L) ->
  exists l, descendants same same_name fuel L WORLD RPath false incl = (AList l, L) /\ NoDup l /\
  forall x, In x l <->
  exists ns, ns <> [] /\ Forall component ns /\ x = abs_path ns /\
             if incl then known (nodes L) ns else has (nodes L) ns.
Proof. exact descendants_world. Qed.
Print Assumptions C18_descendants_of_world.
Example C18_descendants_of_world_ex :
  In (lit "/a/x") (as_list (fst (descendants by_value by_value 0 ex_layer (lit "/") RPath false true))).
Proof. vm_compute. tauto. Qed.

(** *** C18: where the code departs from the property *)

(** A path string that is not the very object stored on the nodes finds no
    children on a layer that has not been asked yet. *)
Theorem C18_string_identity_refuted :
  exists L p c, wf_nodes (nodes L) /\ In c (dkeys (nodes L)) /\ get_parent_path c = p /\
    fst (children (fun _ _ => false) by_value L p RPath false false) = AList [].
Proof.
  exists ex_layer, (lit "/a"), (lit "/a/b"). split; [exact ex_wf|].
  split; [right; now left|]. split; reflexivity.
Qed.
Print Assumptions C18_string_identity_refuted.

(** The ordered NodeTable form lists every ordered child twice. *)
Theorem C18_ordered_table_duplicates_refuted :
  exists L p l, wf_nodes (nodes L) /\ all_ready by_value L /\
    fst (children by_value by_value L p RTable true false) = AList l /\ ~ NoDup l.
Proof.
  exists ex_layer, (lit "/a"), (map lit ["/a/c"; "/a/b"; "/a/b"; "/a/c"]%string).
  split; [exact ex_wf|]. split; [exact ex_ready|]. split; [reflexivity|].
  intros H. inversion H as [|? ? H1 _]. apply H1. vm_compute. tauto.
Qed.
Print Assumptions C18_ordered_table_duplicates_refuted.

(** Without implied nodes, a node whose parent is missing is not found below
    its grandparent. *)
Theorem C18_gap_hides_descendants_refuted :
  exists L p x, wf_nodes (nodes L) /\ all_ready by_value L /\
    In x (dkeys (nodes L)) /\ is_ancestor x p = true /\
    forall fuel, 4 <= fuel ->
    ~ In x (as_list (fst (descendants by_value by_value fuel L p RPath false false))).
Proof.
  exists ex_layer, (lit "/a"), (lit "/a/x/y"). split; [exact ex_wf|]. split; [exact ex_ready|].
  split; [vm_compute; tauto|]. split; [reflexivity|]. intros fuel Hf.
  destruct (descendants_exact by_value by_value fuel 4 ex_layer [lit "a"] false) as (l & E & _ & H).
  { exact ex_wf. } { exact ex_ready. } { comps. } { discriminate. } { exact ex_shallow. } { exact Hf. }
  change (lit "/a") with (abs_path [lit "a"]). rewrite E. cbn [as_list]. rewrite H.
  intros (r & Hr & Hc & Ex & Hl). change (lit "/a/x/y") with (abs_path ([lit "a"] ++ [lit "x"; lit "y"])) in Ex.
  apply abs_path_inj in Ex; [|comps|apply Forall_app; split; [comps|exact Hc]].
  apply app_inv_head in Ex. subst r.
  specialize (Hl [lit "x"] [lit "y"] eq_refl ltac:(discriminate)).
  vm_compute in Hl. intuition discriminate.
Qed.
Print Assumptions C18_gap_hides_descendants_refuted.

(** Asking for descendant nodes gives only the children. *)
Theorem C18_descendant_nodes_refuted :
  exists L p, wf_nodes (nodes L) /\ all_ready by_value L /\
    fst (descendants by_value by_value 4 L p RPath false false)
    <> fst (descendants by_value by_value 4 L p RNode false false) /\
    fst (descendants by_value by_value 4 L p RNode false false)
    = fst (children by_value by_value L p RNode false false).
Proof.
  exists ex_layer, (lit "/a"). split; [exact ex_wf|]. split; [exact ex_ready|].
  split; [discriminate|reflexivity].
Qed.
Print Assumptions C18_descendant_nodes_refuted.

(** Asking a fresh layer for descendants as a table changes what it answers
    about children afterwards. *)
Theorem C18_descendant_table_corrupts_refuted :
  exists L p, wf_nodes (nodes L) /\ all_ready by_value L /\
    let L' := snd (descendants by_value by_value 4 L p RTable false false) in
    fst (children by_value by_value L' p RTable false false)
    <> fst (children by_value by_value L p RTable false false).
Proof.
  exists ex_layer, (lit "/a"). split; [exact ex_wf|]. split; [exact ex_ready|]. discriminate.
Qed.
Print Assumptions C18_descendant_table_corrupts_refuted.

(** A layer with a world node lists the world among the world's implied
    children. *)
Theorem C18_world_own_child_refuted :
  exists L, wf_nodes (nodes L) /\ all_ready by_value L /\
    In WORLD (as_list (fst (children by_value by_value L WORLD RPath false true))).
Proof.
  exists {| nodes := [(lit "/", nd "" "" [] None None)]; kids := []; implied := [] |}.
  split; [|split].
  - split; [repeat constructor; cbn; tauto|]. intros k n [H|[]]. injection H as <- <-.
    left. split; reflexivity.
  - exact (cold_ready {| nodes := [(lit "/", nd "" "" [] None None)]; kids := []; implied := [] |}).
  - vm_compute. tauto.
Qed.
Print Assumptions C18_world_own_child_refuted.

(** *** C19: child caches *)

(** Whatever happens to a comp layer while it is being composed (nodes added at
    new paths, nodes without children removed, children and descendants asked
    for, in any order, whatever string objects are used), every children query
    answers like one that ignores the caches. *)
Theorem C19_comp_layer :
  forall same same_name ops,
  comp_history same same_name empty_layer ops ->
  let L := fold_left (comp_step same same_name) ops empty_layer in
  wf_nodes (nodes L) /\ all_ready same L /\
  forall ns rt ordered, Forall component ns ->
    fst (children same same_name L (abs_path ns) rt ordered false)
    = fst (children by_value same_name (cold L) (abs_path ns) rt ordered false).
Proof. exact comp_histories. Qed.
Print Assumptions C19_comp_layer.
Definition ex_comp_ops : list comp_op :=
  [ CAdd (lit "/a") (nd "/" "a" [] None None);
    CAsk (lit "/a") RPath true;
    CAdd (lit "/a/b") (nd "/a" "b" [] None None);
    CAdd (lit "/a/c") (nd "/a" "c" [] None None);
    CBelow 5 (lit "/a") false;
    CRemove (lit "/a/b");
    CAdd (lit "/a/d") (nd "/a" "d" [] None None) ].
Example C19_comp_layer_ex :
  comp_history (fun _ _ => false) by_value empty_layer ex_comp_ops /\
  fst (children (fun _ _ => false) by_value
         (fold_left (comp_step (fun _ _ => false) by_value) ex_comp_ops empty_layer)
         (lit "/a") RPath true false)
  = AList [lit "/a/c"; lit "/a/d"].
Proof.
  split; [|reflexivity]. unfold ex_comp_ops. cbn [comp_history]. 
  split. { split; [place (@nil pystr) (lit "a")|]. vm_compute. intuition discriminate. }
  split; [exact I|].
  split. { split; [place [lit "a"] (lit "b")|]. vm_compute. intuition discriminate. }
  split. { split; [place [lit "a"] (lit "c")|]. vm_compute. intuition discriminate. }
  split; [exact I|].
  split. { split; [vm_compute; tauto|]. split; [vm_compute; discriminate|reflexivity]. }
  split. { split; [place [lit "a"] (lit "d")|]. vm_compute. intuition discriminate. }
  exact I.
Qed.

(** Whatever happens to a loaded layer while it is edited node by node, with
    parents present and strings compared by value. *)
Theorem C19_spec_layer :
  forall same_name d ops,
  wf_nodes d ->
  let L0 := {| nodes := d; kids := []; implied := [] |} in
  spec_history by_value same_name L0 ops ->
  let L := fold_left (spec_step by_value same_name) ops L0 in
  wf_nodes (nodes L) /\ all_ready by_value L /\
  forall ns rt ordered incl, Forall component ns ->
    fst (children by_value same_name L (abs_path ns) rt ordered incl)
    = fst (children by_value same_name (cold L) (abs_path ns) rt ordered incl).
Proof. exact spec_histories. Qed.
Print Assumptions C19_spec_layer.
Definition ex_spec_ops : list spec_op :=
  [ SAsk (lit "/a") RPath false true;
    SPut (lit "/a/b/m") (nd "/a/b" "m" [] None None);
    SBelow 5 (lit "/a") true true;
    SDrop (lit "/a/b/k");
    SPut (lit "/a/n") (nd "/a" "n" [] None None) ].
Example C19_spec_layer_ex :
  spec_history by_value by_value ex_layer ex_spec_ops /\
  fst (children by_value by_value
         (fold_left (spec_step by_value by_value) ex_spec_ops ex_layer) (lit "/a") RPath false true)
  = AList [lit "/a/b"; lit "/a/c"; lit "/a/n"; lit "/a/x"].
Proof.
  split; [|reflexivity]. unfold ex_spec_ops. cbn [spec_history].
  split; [exact I|].
  split. { split; [place [lit "a"; lit "b"] (lit "m")|]. right. right. vm_compute. tauto. }
  split; [exact I|].
  split. { exists (firstn 6 ex_nodes), (nd "/a/b" "k" [] None None),
             [(lit "/a/b/m", nd "/a/b" "m" [] None None)].
           split; [reflexivity|]. right. right. vm_compute. tauto. }
  split. { split; [place [lit "a"] (lit "n")|]. right. right. vm_compute. tauto. }
  exact I.
Qed.

(** A comp layer that loses a node that still has children forgets them as
    soon as another child is added. *)
Theorem C19_remove_with_children_refuted :
  exists ops p,
    let L := fold_left (comp_step by_value by_value) ops empty_layer in
    fst (children by_value by_value L p RPath false false)
    <> fst (children by_value by_value (cold L) p RPath false false).
Proof.
  exists [ CAdd (lit "/a") (nd "/" "a" [] None None);
           CAdd (lit "/a/b") (nd "/a" "b" [] None None);
           CRemove (lit "/a");
           CAdd (lit "/a") (nd "/" "a" [] None None);
           CAdd (lit "/a/c") (nd "/a" "c" [] None None) ], (lit "/a").
  vm_compute. discriminate.
Qed.
Print Assumptions C19_remove_with_children_refuted.

(** Adding a node at a path the comp layer has lists it twice. *)
Theorem C19_add_twice_refuted :
  exists ops p,
    let L := fold_left (comp_step by_value by_value) ops empty_layer in
    fst (children by_value by_value L p RPath false false)
    <> fst (children by_value by_value (cold L) p RPath false false).
Proof.
  exists [ CAdd (lit "/a") (nd "/" "a" [] None None);
           CAdd (lit "/a/b") (nd "/a" "b" [] None None);
           CAdd (lit "/a/b") (nd "/a" "b" [] None None) ], (lit "/a").
  vm_compute. discriminate.
Qed.
Print Assumptions C19_add_twice_refuted.

(** A comp layer asked for implied children does not notice nodes added
    later: the implied cache is never cleared by an addition.  The child shows
    up only through the real children, so a new implied one is missed. *)
Theorem C19_comp_implied_refuted :
  exists L p n path,
    let L1 := snd (children by_value by_value L p RPath false true) in
    let L2 := add_node_to_comp_layer L1 path n in
    all_ready by_value L /\ placed path n /\ ~ In path (dkeys (nodes L)) /\
    fst (children by_value by_value L2 p RPath false true)
    <> fst (children by_value by_value (cold L2) p RPath false true).
Proof.
  exists ex_layer, (lit "/a"), (nd "/a/z" "q" [] None None), (lit "/a/z/q").
  split; [exact ex_ready|]. split; [place [lit "a"; lit "z"] (lit "q")|].
  split; [vm_compute; intuition discriminate|]. vm_compute. discriminate.
Qed.
Print Assumptions C19_comp_implied_refuted.

(** A spec layer that gains a node whose parent is missing keeps a stale list
    of implied children for the grandparent. *)
Theorem C19_spec_implied_refuted :
  exists ops p,
    let L := fold_left (spec_step by_value by_value) ops ex_layer in
    fst (children by_value by_value L p RPath false true)
    <> fst (children by_value by_value (cold L) p RPath false true).
Proof.
  exists [ SAsk (lit "/a") RPath false true;
           SPut (lit "/a/z/q") (nd "/a/z" "q" [] None None) ], (lit "/a").
  vm_compute. discriminate.
Qed.
Print Assumptions C19_spec_implied_refuted.

(** *** C20: execution order *)

(** The order is: the start root's listing from the start on, then the listing
    of every root that follows through execute_in, without anything disabled
    or below something disabled.  Listings are depth first, in child order. *)
Theorem C20_exec_order :
  forall same same_name fuel depth L n0 rest rs,
  wf_nodes (nodes L) -> all_ready same L ->
  Forall component (n0 :: rest) -> linked (nodes L) [] (n0 :: rest) ->
  exec_chain (nodes L) (abs_path [n0]) rs ->
  shallower (nodes L) depth -> depth <= fuel -> length (nodes L) < fuel ->
  exists ch l0 first blocks,
    lists_kids (nodes L) false ch /\
    forest ch (ch (abs_path [n0])) l0 /\
    Forall2 (block (nodes L) ch) rs blocks /\
    first = (match rest with
             | [] => if off (nodes L) (abs_path [n0]) then []
                     else abs_path [n0] :: filter (clear (nodes L) (abs_path [n0])) l0
             | _ => filter (clear (nodes L) (abs_path [n0])) (from (abs_path (n0 :: rest)) l0)
             end) /\
    fst (get_exec_order same same_name fuel L (abs_path (n0 :: rest)))
    = AList (first ++ concat blocks).
Proof. exact exec_order_whole. Qed.
Print Assumptions C20_exec_order.
Example C20_exec_order_ex :
  linked (nodes ex_layer) [] [lit "a"] /\ exec_chain (nodes ex_layer) (lit "/a") [lit "/e"] /\
  fst (get_exec_order by_value by_value 8 ex_layer (lit "/a"))
  = AList (map lit ["/a"; "/a/b"; "/a/b/k"; "/e"]%string).
Proof.
  split.
  { intros r1 r2 E Hn. destruct r1 as [|x [|y r1]]; [congruence| |discriminate].
    injection E as <- _. now left. }
  split; [|reflexivity].
  apply (chain_next ex_nodes (lit "/a") (firstn 4 ex_nodes) (lit "/e")
           (nd "/" "e" [] None (Some "/a"%string)) (skipn 5 ex_nodes)); try reflexivity.
  - intros k n H _. cbn in H.
    repeat (destruct H as [H|H]; [injection H as <- <-; discriminate|]). destruct H.
  - apply chain_end. intros k n H _. cbn [ex_nodes In] in H.
    repeat (destruct H as [H|H]; [injection H as <- <-; vm_compute; discriminate|]). destruct H.
Qed.

(** What runs: nodes of the start's root or of a following root, none of them
    disabled and none below a disabled node (the start's root itself excepted
    when the start lies below it). *)
Theorem C20_nothing_disabled_runs :
  forall same same_name fuel depth L d n0 rest rs,
  wf_nodes d -> nodes L = d -> all_ready same L ->
  Forall component (n0 :: rest) -> linked d [] (n0 :: rest) ->
  exec_chain d (abs_path [n0]) rs ->
  shallower d depth -> depth <= fuel -> length d < fuel ->
  forall x, In x (as_list (fst (get_exec_order same same_name fuel L (abs_path (n0 :: rest))))) ->
  exists top r, x = abs_path (top :: r) /\ Forall component (top :: r) /\ linked d [] (top :: r) /\
    (abs_path [top] = abs_path [n0] \/ In (abs_path [top]) rs) /\
    (forall r1 r2, r1 <> [] -> r = r1 ++ r2 -> off d (abs_path (top :: r1)) = false) /\
    (abs_path [top] = abs_path [n0] /\ rest <> [] /\ r <> [] \/ off d (abs_path [top]) = false).
Proof. exact order_member. Qed.
Print Assumptions C20_nothing_disabled_runs.

Theorem C20_starts_at_the_start :
  forall same same_name fuel depth L d n0 rest rs,
  wf_nodes d -> nodes L = d -> all_ready same L ->
  Forall component (n0 :: rest) -> linked d [] (n0 :: rest) ->
  exec_chain d (abs_path [n0]) rs ->
  shallower d depth -> depth <= fuel -> length d < fuel ->
  (forall r1 r2, r1 <> [] -> rest = r1 ++ r2 -> off d (abs_path (n0 :: r1)) = false) ->
  (rest = [] -> off d (abs_path [n0]) = false) ->
  exists t, as_list (fst (get_exec_order same same_name fuel L (abs_path (n0 :: rest))))
            = abs_path (n0 :: rest) :: t.
Proof. exact order_starts. Qed.
Print Assumptions C20_starts_at_the_start.

Theorem C20_nothing_runs_twice :
  forall same same_name fuel depth L d n0 rest rs,
  wf_nodes d -> nodes L = d -> all_ready same L ->
  Forall component (n0 :: rest) -> linked d [] (n0 :: rest) ->
  exec_chain d (abs_path [n0]) rs ->
  shallower d depth -> depth <= fuel -> length d < fuel ->
  (forall ms, Forall component ms -> NoDup (stored_order d (abs_path ms))) ->
  NoDup (as_list (fst (get_exec_order same same_name fuel L (abs_path (n0 :: rest))))).
Proof. exact order_nodup. Qed.
Print Assumptions C20_nothing_runs_twice.
Example C20_nothing_runs_twice_ex :
  forall ms, Forall component ms -> NoDup (stored_order (nodes ex_layer) (abs_path ms)).
Proof.
  intros ms _. unfold stored_order. destruct (dget (abs_path ms) (nodes ex_layer)) as [n|] eqn:E.
  - apply dget_In in E. cbn [nodes ex_layer ex_nodes In] in E.
    repeat (destruct E as [E|E]; [injection E as _ <-; cbn;
      repeat constructor; cbn; intuition discriminate|]). destruct E.
  - constructor.
Qed.

(** Starting at a path that is not reachable through existing nodes runs
    nothing. *)
Theorem C20_missing_start :
  forall same same_name fuel depth L n0 rest rs,
  wf_nodes (nodes L) -> all_ready same L ->
  Forall component (n0 :: rest) -> has (nodes L) [n0] -> ~ linked (nodes L) [] (n0 :: rest) ->
  exec_chain (nodes L) (abs_path [n0]) rs ->
  shallower (nodes L) depth -> depth <= fuel -> length (nodes L) < fuel ->
  fst (get_exec_order same same_name fuel L (abs_path (n0 :: rest))) = AList [].
Proof. exact exec_order_missing. Qed.
Print Assumptions C20_missing_start.

(** Either the roots form a chain that ends, or the query never returns. *)
Theorem C20_chain_ends_or_never_returns :
  forall same same_name fuel L n0 rest,
  wf_nodes (nodes L) -> all_ready same L -> Forall component (n0 :: rest) ->
  length (nodes L) < fuel ->
  (exists rs, exec_chain (nodes L) (abs_path [n0]) rs) \/
  (forall fuel', fst (get_exec_order same same_name fuel' L (abs_path (n0 :: rest))) = AErr Endless).
Proof. exact exec_order_cases. Qed.
Print Assumptions C20_chain_ends_or_never_returns.

(** Two roots that execute in each other: the order is never produced. *)
Definition cyc_nodes : dict cnode :=
  [ (lit "/a", nd "/" "a" [] None (Some "/b"%string));
    (lit "/b", nd "/" "b" [] None (Some "/a"%string)) ].
Theorem C20_cycle_never_returns_refuted :
  let L := {| nodes := cyc_nodes; kids := []; implied := [] |} in
  wf_nodes (nodes L) /\ all_ready by_value L /\
  forall fuel, fst (get_exec_order by_value by_value fuel L (lit "/a")) = AErr Endless.
Proof.
  intros L.
  assert (Hwf : wf_nodes (nodes L)).
  { split; [repeat constructor; cbn; intuition discriminate|]. intros k n H. cbn in H.
    destruct H as [H|[H|[]]]; injection H as <- <-;
      [place (@nil pystr) (lit "a")|place (@nil pystr) (lit "b")]. }
  assert (Hr : all_ready by_value L) by exact (cold_ready L).
  split; [exact Hwf|]. split; [exact Hr|]. intros fuel.
  unfold get_exec_order. cbn [str_eqb].
  replace (str_eqb (lit "/a") WORLD) with false by reflexivity.
  unfold get_root_exec_order.
  rewrite (root_loop_endless by_value by_value L (get_root_path (lit "/a")) Hwf Hr); [reflexivity|].
  reflexivity.
Qed.
Print Assumptions C20_cycle_never_returns_refuted.

(** A start below a disabled root runs although the root is disabled. *)
Theorem C20_disabled_root_refuted :
  exists L start, wf_nodes (nodes L) /\ all_ready by_value L /\
    off (nodes L) (get_root_path start) = true /\
    fst (get_exec_order by_value by_value 9 L start) = AList [start].
Proof.
  set (ns := [ (lit "/a", nd "/" "a" [] (Some false) None);
               (lit "/a/b", nd "/a" "b" [] None None) ]).
  exists {| nodes := ns; kids := []; implied := [] |}, (lit "/a/b"). split; [|split].
  - split; [repeat constructor; cbn; intuition discriminate|]. intros k n H. cbn in H.
    destruct H as [H|[H|[]]]; injection H as <- <-;
      [place (@nil pystr) (lit "a")|place [lit "a"] (lit "b")].
  - exact (cold_ready {| nodes := ns; kids := []; implied := [] |}).
  - split; reflexivity.
Qed.
Print Assumptions C20_disabled_root_refuted.
