(** Property theorems C01-C08 about node paths (nxt/nxt_path.py). *)

From Coq Require Import String List NArith Bool ZArith Arith.
From Verif Require Import PyStr PyStrFacts NxtPath PathSpec PathProofs.
Import ListNotations.

(** A small hierarchy used in the examples: /grp/a.b/leaf and /grp2. *)
Definition ex_names : list pystr := [lit "grp"; lit "node"; lit "leaf"].
Definition ex_ok : Forall component ex_names.
Proof. repeat constructor; try discriminate; cbn; intuition discriminate. Qed.

(** ** C01 *)
Theorem C01_namespace_of_path :
  forall ns, ns <> [] ->
  Forall (fun n => ~ In SLASH n /\ ~ In PERIOD n) ns ->
  str_path_to_node_namespace (node_namespace_to_str_path ns) = ns.
Proof. exact namespace_of_path. Qed.
Print Assumptions C01_namespace_of_path.
Example C01_namespace_of_path_ex :
  ex_names <> [] /\ Forall (fun n => ~ In SLASH n /\ ~ In PERIOD n) ex_names
  /\ node_namespace_to_str_path ex_names = lit "/grp/node/leaf".
Proof.
  repeat split; try discriminate.
  repeat constructor; cbn; intuition discriminate.
Qed.

Theorem C01_path_of_namespace :
  forall s, ~ In PERIOD s ->
  node_namespace_to_str_path (str_path_to_node_namespace (SLASH :: s))
  = SLASH :: s.
Proof. exact path_of_namespace. Qed.
Print Assumptions C01_path_of_namespace.
Example C01_path_of_namespace_ex :
  ~ In PERIOD (lit "grp/node/leaf") /\
  str_path_to_node_namespace (lit "/grp/node/leaf") = ex_names.
Proof. split; [cbn; intuition discriminate | vm_compute; reflexivity]. Qed.

Theorem C01_namespace_of_attr_path :
  forall ns a, ns <> [] -> Forall (fun n => ~ In SLASH n) ns ->
  a <> [] -> ~ In PERIOD a ->
  str_path_to_node_namespace (make_attr_path (abs_path ns) a) = ns.
Proof. exact namespace_of_attr_path. Qed.
Print Assumptions C01_namespace_of_attr_path.
Example C01_namespace_of_attr_path_ex :
  make_attr_path (abs_path ex_names) (lit "attr") = lit "/grp/node/leaf.attr".
Proof. reflexivity. Qed.

(** The rendering function of the model is the specification's rendering. *)
Theorem C01_rendering :
  forall ns, ns <> [] -> node_namespace_to_str_path ns = abs_path ns.
Proof. exact (fun ns H => eq_sym (eq_trans (abs_path_slashed ns H) (slashed_join ns H))). Qed.
Print Assumptions C01_rendering.

(** The empty namespace is the one exception: it does not survive the trip
    (the world path splits into one empty name). *)
Theorem C01_empty_namespace_refuted :
  exists ns, str_path_to_node_namespace (node_namespace_to_str_path ns) <> ns.
Proof. exists []. vm_compute. discriminate. Qed.
Print Assumptions C01_empty_namespace_refuted.

(** ** C02 *)
Theorem C02_attr_path_round_trip :
  forall p a, a <> [] -> ~ In PERIOD a ->
  path_attr_partition (make_attr_path p a) = (p, Some a).
Proof. exact path_attr_partition_make. Qed.
Print Assumptions C02_attr_path_round_trip.
Example C02_attr_path_round_trip_ex :
  path_attr_partition (lit "...attr") = (lit "..", Some (lit "attr")).
Proof. reflexivity. Qed.

Theorem C02_attr_path_inverse :
  forall s p a, path_attr_partition s = (p, Some a) ->
  s = make_attr_path p a /\ a <> [] /\ ~ In PERIOD a.
Proof. exact path_attr_partition_inv. Qed.
Print Assumptions C02_attr_path_inverse.

Theorem C02_node_path_whole :
  forall s p, path_attr_partition s = (p, None) ->
  p = s /\ (~ In PERIOD s \/ exists t, s = t ++ [PERIOD]).
Proof. exact path_attr_partition_none_inv. Qed.
Print Assumptions C02_node_path_whole.

Theorem C02_no_period : forall s, ~ In PERIOD s -> path_attr_partition s = (s, None).
Proof. exact path_attr_partition_nodot. Qed.
Print Assumptions C02_no_period.

Theorem C02_trailing_period :
  forall s, path_attr_partition (s ++ [PERIOD]) = (s ++ [PERIOD], None).
Proof. exact path_attr_partition_trailing. Qed.
Print Assumptions C02_trailing_period.

Theorem C02_projections :
  forall p a, a <> [] -> ~ In PERIOD a ->
  node_path_from_attr_path (make_attr_path p a) = p /\
  attr_name_from_attr_path (make_attr_path p a) = Some a.
Proof.
  exact (fun p a H1 H2 =>
    conj (f_equal fst (path_attr_partition_make p a H1 H2))
         (f_equal snd (path_attr_partition_make p a H1 H2))).
Qed.
Print Assumptions C02_projections.

(** A relative node path such as "../sibling" is taken for an attribute path:
    the expectation "a path naming no attribute has no attribute" is false. *)
Theorem C02_relative_node_path_refuted :
  exists p a, path_attr_partition (lit "../sibling") = (p, Some a).
Proof. exists (lit "."), (lit "/sibling"). vm_compute. reflexivity. Qed.
Print Assumptions C02_relative_node_path_refuted.

(** ** C03 *)
Theorem C03_parent_and_name :
  forall ns n, Forall component (ns ++ [n]) ->
  get_parent_path (abs_path (ns ++ [n])) = abs_path ns /\
  node_name_from_node_path (abs_path (ns ++ [n])) = n /\
  join_node_paths (abs_path ns) n = abs_path (ns ++ [n]).
Proof.
  exact (fun ns n H => conj (get_parent_path_abs ns n H)
           (conj (node_name_abs ns n H) (join_node_paths_abs ns n H))).
Qed.
Print Assumptions C03_parent_and_name.
Example C03_parent_and_name_ex :
  Forall component ([lit "grp"; lit "node"] ++ [lit "leaf"]) /\
  get_parent_path (lit "/grp/node/leaf") = lit "/grp/node".
Proof. split; [exact ex_ok | reflexivity]. Qed.

Theorem C03_world :
  get_parent_path (abs_path []) = [] /\
  node_name_from_node_path (abs_path []) = abs_path [].
Proof. exact (conj eq_refl eq_refl). Qed.
Print Assumptions C03_world.

Theorem C03_depth :
  forall ns, Forall component ns -> get_path_depth (abs_path ns) = length ns.
Proof. exact get_path_depth_abs. Qed.
Print Assumptions C03_depth.

Theorem C03_root :
  forall n ns, Forall component (n :: ns) ->
  get_root_path (abs_path (n :: ns)) = abs_path [n].
Proof. exact get_root_path_abs. Qed.
Print Assumptions C03_root.

Theorem C03_join_many :
  forall ns ms, Forall component (ns ++ ms) -> ms <> [] ->
  join_node_paths_l (abs_path ns) ms = abs_path (ns ++ ms).
Proof. exact join_node_paths_l_abs. Qed.
Print Assumptions C03_join_many.

Theorem C03_join_absolute :
  forall ns ms, Forall component (ns ++ ms) -> ns <> [] -> ms <> [] ->
  join_node_paths (abs_path ns) (abs_path ms) = abs_path (ns ++ ms).
Proof. exact join_node_paths_abs_abs. Qed.
Print Assumptions C03_join_absolute.

(** Different name lists never share a path string. *)
Theorem C03_paths_are_unambiguous :
  forall a b, Forall component a -> Forall component b ->
  abs_path a = abs_path b -> a = b.
Proof. exact abs_path_inj. Qed.
Print Assumptions C03_paths_are_unambiguous.

(** Joining an absolute path onto the world leaves a doubled separator:
    [join_node_paths('/', '/b')] is ['//b']. *)
Theorem C03_join_world_absolute_refuted :
  exists m, component m /\
  join_node_paths (abs_path []) (abs_path [m]) <> abs_path [m].
Proof.
  exists (lit "b"). split; [split; [discriminate | cbn; intuition discriminate]|].
  vm_compute. discriminate.
Qed.
Print Assumptions C03_join_world_absolute_refuted.

(** ** C04 *)
Theorem C04_ancestors_terminate :
  forall s, exists l, forall fuel, length s + 2 <= fuel ->
  all_ancestor_paths_fuel fuel s = Some l.
Proof. exact all_ancestor_paths_terminates. Qed.
Print Assumptions C04_ancestors_terminate.
Example C04_ancestors_terminate_ex :
  all_ancestor_paths_fuel 20 (lit "a//b/..//c") =
  Some [lit "a//b/../"; lit "a//b/.."; lit "a//b"; lit "a/"; lit "a"].
Proof. vm_compute. reflexivity. Qed.

Theorem C04_ancestors_exact :
  forall ns fuel, Forall component ns -> length (abs_path ns) + 2 <= fuel ->
  all_ancestor_paths_fuel fuel (abs_path ns)
  = Some (map abs_path (proper_ancestors ns)).
Proof. exact all_ancestor_paths_abs. Qed.
Print Assumptions C04_ancestors_exact.
Example C04_ancestors_exact_ex :
  Forall component ex_names /\
  map abs_path (proper_ancestors ex_names) = [lit "/grp/node"; lit "/grp"].
Proof. split; [exact ex_ok | vm_compute; reflexivity]. Qed.

(** ** C05 *)
Theorem C05_is_ancestor :
  forall a b, Forall component a -> Forall component b ->
  is_ancestor (abs_path a) (abs_path b) = true
  <-> b = [] \/ strict_prefix b a.
Proof. exact is_ancestor_abs. Qed.
Print Assumptions C05_is_ancestor.
Example C05_is_ancestor_ex :
  is_ancestor (lit "/grp2/node") (lit "/grp") = false /\
  is_ancestor (lit "/grp/node") (lit "/grp") = true.
Proof. split; reflexivity. Qed.

(** World is reported to be an ancestor of itself, so the test is not strict. *)
Theorem C05_strict_refuted :
  exists p, is_ancestor p p = true.
Proof. exists WORLD. reflexivity. Qed.
Print Assumptions C05_strict_refuted.

(** ** C06 *)
Theorem C06_trim_to_depth :
  forall ns d, Forall component ns ->
  trim_to_depth (abs_path ns) (Z.of_nat d) = abs_path (firstn d ns).
Proof. exact trim_to_depth_abs. Qed.
Print Assumptions C06_trim_to_depth.
Example C06_trim_to_depth_ex :
  Forall component ex_names /\ abs_path (firstn 2 ex_names) = lit "/grp/node".
Proof. split; [exact ex_ok | reflexivity]. Qed.

(** ** C07 *)
Theorem C07_replace_ancestor :
  forall old new r,
  Forall component old -> Forall component new -> Forall component r ->
  old <> [] ->
  replace_ancestor (abs_path (old ++ r)) (abs_path old) (abs_path new)
  = abs_path (new ++ r).
Proof. exact replace_ancestor_abs. Qed.
Print Assumptions C07_replace_ancestor.
Example C07_replace_ancestor_ex :
  replace_ancestor (lit "/a/b/a/b") (lit "/a/b") (lit "/z") = lit "/z/a/b" /\
  replace_ancestor (lit "/a/b") (lit "/a") (lit "/") = lit "/b".
Proof. split; vm_compute; reflexivity. Qed.

Lemma replace_ancestor_relative new r p :
  Forall component new -> Forall component r -> abs_path r = SLASH :: p -> r <> [] ->
  replace_ancestor p [] (abs_path new) = abs_path (new ++ r).
Proof.
  intros Hn Hr Hp Hne. unfold replace_ancestor, add_path_terminator.
  change (str_eqb ([] ++ NODE_SEP) WORLD) with true. cbv iota.
  rewrite abs_path_slashed in Hp by auto.
  rewrite <- app_assoc.
  replace (NODE_SEP ++ p ++ NODE_SEP) with (slashed r ++ [SLASH]) by (rewrite Hp; reflexivity).
  unfold drop_last. rewrite app_assoc, removelast_snoc.
  destruct new as [|n new].
  - cbn [abs_path app]. destruct r as [|m r]; [congruence|].
    cbn [slashed app]. rewrite replace_dslash_lead; [reflexivity|].
    apply no_dslash_tail. change (SLASH :: m ++ slashed r) with (slashed (m :: r)).
    now apply no_dslash_slashed.
  - rewrite abs_path_slashed by discriminate. rewrite <- slashed_app.
    rewrite replace_dslash_id; [reflexivity|].
    apply no_dslash_slashed. apply Forall_app. auto.
Qed.

(** With no old ancestor at all, a relative path is put below the new one. *)
Theorem C07_relative :
  forall new r p, Forall component new -> Forall component r -> r <> [] ->
  abs_path r = lit "/" ++ p ->
  replace_ancestor p [] (abs_path new) = abs_path (new ++ r).
Proof. intros new r p Hn Hr Hne Hp. now apply (replace_ancestor_relative new r p). Qed.
Print Assumptions C07_relative.
Example C07_relative_ex :
  replace_ancestor (lit "a/b") [] (lit "/z") = lit "/z/a/b" /\
  replace_ancestor (lit "a/b") [] (lit "/") = lit "/a/b".
Proof. split; vm_compute; reflexivity. Qed.

(** The world is not accepted as the old ancestor: the path is returned
    unchanged although the docstring promises the replacement (the code adds
    the terminator before it compares with WORLD). *)
Theorem C07_old_world_refuted :
  exists new r, Forall component new /\ Forall component r /\
  replace_ancestor (abs_path ([] ++ r)) (abs_path []) (abs_path new)
  <> abs_path (new ++ r).
Proof.
  exists [lit "z"], [lit "a"].
  split; [|split].
  - repeat constructor; try discriminate; cbn; intuition discriminate.
  - repeat constructor; try discriminate; cbn; intuition discriminate.
  - vm_compute. discriminate.
Qed.
Print Assumptions C07_old_world_refuted.

(** A path that is not under the old ancestor can be changed all the same. *)
Theorem C07_unrelated_path_refuted :
  exists p old new, is_ancestor p old = false /\ p <> old /\
  replace_ancestor p old new <> p.
Proof.
  exists (lit "/x/a/b"), (lit "/a"), (lit "/z").
  repeat split; vm_compute; discriminate || reflexivity.
Qed.
Print Assumptions C07_unrelated_path_refuted.

(** ** C08 *)
Theorem C08_relative_expansion :
  forall ns rel,
  Forall (fun n => ~ In SLASH n) ns -> ns <> [] ->
  rel <> [] -> startswith [SLASH] rel = false ->
  expand_relative_node_path rel (abs_path ns)
  = Some (slashed (walk ns (split SLASH rel))).
Proof. exact expand_relative_walk. Qed.
Print Assumptions C08_relative_expansion.
Example C08_relative_expansion_ex :
  expand_relative_node_path (lit "leaf/../.././sib") (lit "/grp/node")
  = Some (lit "/grp/sib") /\
  walk [lit "grp"; lit "node"] (split SLASH (lit "leaf/../.././sib"))
  = [lit "grp"; lit "sib"].
Proof. split; vm_compute; reflexivity. Qed.

Theorem C08_absolute_unchanged :
  forall s start, expand_relative_node_path (SLASH :: s) start = Some (SLASH :: s).
Proof. exact expand_relative_absolute. Qed.
Print Assumptions C08_absolute_unchanged.

(** Going up from a root node gives the empty string, not the world. *)
Theorem C08_parent_of_root_refuted :
  exists n, component n /\
  expand_relative_node_path (lit "..") (abs_path [n]) <> Some (abs_path []).
Proof.
  exists (lit "a"). split; [split; [discriminate | cbn; intuition discriminate]|].
  vm_compute. discriminate.
Qed.
Print Assumptions C08_parent_of_root_refuted.

(** Descending from the world always gives a doubled separator. *)
Theorem C08_from_world_refuted :
  forall n, component n -> n <> lit "." -> n <> lit ".." ->
  expand_relative_node_path n (abs_path []) = Some (SLASH :: SLASH :: n).
Proof. exact expand_from_world_child. Qed.
Print Assumptions C08_from_world_refuted.
