(** The theorems of [Props_Hierarchy] in the form they are stated there. *)

From Coq Require Import String List NArith ZArith Bool Lia.
From Verif Require Import PyStr PyStrFacts NxtPath PathSpec PathProofs Dict DictFacts ListMerger
  Layer LayerSpec LayerProofs DescProofs ExecOrderProofs ChildCache ChildCacheSpec ChildCacheProofs.
Import ListNotations.

Lemma all_paths_real d p : all_paths d p false = real d p.
Proof. reflexivity. Qed.

Lemma ranked_perm order names nm :
  In nm (ranked order names) <-> In nm names.
Proof.
  unfold ranked. rewrite in_app_iff, !filter_In, str_in_In, negb_true_iff.
  rewrite <- not_true_iff_false, str_in_In. split; [tauto|].
  intros H. destruct (in_dec (list_eq_dec N.eq_dec) nm order); tauto.
Qed.

Section H.
Variables (same same_name : pystr -> pystr -> bool).

Lemma children_exact L ns :
  wf_nodes (nodes L) -> all_ready same L -> Forall component ns ->
  exists l, fst (children same same_name L (abs_path ns) RPath false false) = AList l /\
    NoDup l /\
    (forall c, In c l <-> exists nm, component nm /\ c = child ns nm /\ has (nodes L) (ns ++ [nm])) /\
    l = map fst (filter (fun kn => str_eqb (n_parent (snd kn)) (abs_path ns)) (nodes L)) /\
    fst (children same same_name L (abs_path ns) RNode false false) = AList l /\
    fst (children same same_name L (abs_path ns) RTable false false) = AList l.
Proof.
  intros Hwf Hr Hc. exists (real (nodes L) (abs_path ns)).
  assert (G : forall rt, rt = RPath \/ (rt = RTable \/ rt = RNode) /\ false = false ->
     fst (children same same_name L (abs_path ns) rt false false) = AList (real (nodes L) (abs_path ns))).
  { intros rt H. destruct (children_refines same same_name L (abs_path ns) rt false false)
      as (L' & E & _); auto using proper_abs. rewrite E. cbn [fst].
    rewrite pure_children_unordered by auto. reflexivity. }
  split; [apply G; auto|]. split; [apply real_nodup; apply Hwf|].
  split; [|split; [reflexivity|split; apply G; auto]].
  intros c. rewrite real_in by auto. split.
  - intros (H1 & nm & H2 & ->). eauto.
  - intros (nm & H2 & -> & H1). eauto.
Qed.

Lemma children_implied L ns :
  wf_nodes (nodes L) -> all_ready same L -> Forall component ns ->
  ns <> [] \/ ~ has (nodes L) [] ->
  exists l, fst (children same same_name L (abs_path ns) RPath false true) = AList l /\
    NoDup l /\
    (forall c, In c l <-> exists nm, component nm /\ c = child ns nm /\ known (nodes L) (ns ++ [nm])) /\
    exists extra, l = map fst (filter (fun kn => str_eqb (n_parent (snd kn)) (abs_path ns)) (nodes L)) ++ extra.
Proof.
  intros Hwf Hr Hc Hw. exists (all_paths (nodes L) (abs_path ns) true).
  destruct (children_refines same same_name L (abs_path ns) RPath false true)
      as (L' & E & _); auto using proper_abs. rewrite E. cbn [fst].
  rewrite pure_children_unordered by auto. split; [reflexivity|].
  split; [apply all_paths_nodup; apply Hwf|]. split.
  - intros c. rewrite all_paths_in by auto. reflexivity.
  - unfold all_paths. rewrite add_missing_app by apply scan_implied_nodup. unfold real. eauto.
Qed.

Lemma children_ordered L ns incl :
  wf_nodes (nodes L) -> all_ready same L -> Forall component ns ->
  ns <> [] \/ ~ has (nodes L) [] -> incl = true \/ has (nodes L) ns ->
  exists l names,
    fst (children same same_name L (abs_path ns) RPath false incl) = AList l /\
    l = map (child ns) names /\
    fst (children same same_name L (abs_path ns) RPath true incl)
    = AList (map (child ns) (ranked (stored_order (nodes L) (abs_path ns)) names)).
Proof.
  intros Hwf Hr Hc Hw Hi. exists (all_paths (nodes L) (abs_path ns) incl).
  destruct (och_names (nodes L) ns incl) as (names & E1 & E2 & E3 & E4); auto.
  exists names.
  destruct (children_refines same same_name L (abs_path ns) RPath false incl)
      as (L' & E & _); auto using proper_abs. rewrite E. cbn [fst].
  rewrite pure_children_unordered by auto.
  destruct (children_refines same same_name L (abs_path ns) RPath true incl)
      as (L2 & E5 & _); auto using proper_abs. rewrite E5. cbn [fst].
  rewrite pure_children_ordered by auto. rewrite E4. auto.
Qed.

Lemma children_bool L ns incl :
  wf_nodes (nodes L) -> all_ready same L -> Forall component ns ->
  fst (children same same_name L (abs_path ns) RBool false incl)
  = if incl then AErr ValueError
    else ABool (existsb (fun kn => str_eqb (n_parent (snd kn)) (abs_path ns)) (nodes L)).
Proof.
  intros Hwf Hr Hc.
  destruct (children_refines same same_name L (abs_path ns) RBool false incl)
      as (L' & E & _); auto using proper_abs. rewrite E. cbn [fst].
  destruct incl; [reflexivity|]. unfold pure_children. cbn [rtype_eqb negb andb].
  rewrite all_paths_real. f_equal. unfold real.
  clear. generalize (nodes L) as d. intros d.
  induction d as [|[k n] t IH]; [reflexivity|]. cbn [filter existsb snd].
  destruct (str_eqb (n_parent n) (abs_path ns)) eqn:E1; [reflexivity|]. cbn [orb].
  exact IH.
Qed.

Lemma dget_name_list d (ks : list pystr) nm c :
  NoDup (map (fun k => option_map n_name (dget k d)) ks) ->
  (forall k, In k ks -> exists n, dget k d = Some n) ->
  dget nm (map (fun k => (match dget k d with Some n => n_name n | None => [] end, k)) ks) = Some c <->
  In c ks /\ option_map n_name (dget c d) = Some nm.
Proof.
  induction ks as [|k ks IH]; intros Hn Hs.
  - cbn. split; [discriminate|intros [[] _]].
  - cbn [map] in *. inversion Hn as [|? ? N1 N2]; subst.
    destruct (Hs k (or_introl eq_refl)) as (n & En). rewrite En. cbn [dget].
    destruct (str_eqb (n_name n) nm) eqn:E.
    + apply str_eqb_eq in E. subst nm. split.
      * intros H. injection H as <-. split; [now left|]. now rewrite En.
      * intros [[->|H] H2]; [reflexivity|]. exfalso. apply N1. rewrite En. cbn.
        rewrite <- H2. now apply (in_map (fun k => option_map n_name (dget k d))).
    + apply str_eqb_neq in E. rewrite IH; auto; [|intros; apply Hs; now right]. split.
      * intros [H1 H2]. split; [now right|auto].
      * intros [[->|H] H2]; [|auto]. rewrite En in H2. cbn in H2. congruence.
Qed.

Lemma children_dict L ns nm c :
  wf_nodes (nodes L) -> all_ready same L -> Forall component ns ->
  exists dct, fst (children same same_name L (abs_path ns) RDict false false) = ADict dct /\
    (dget nm dct = Some c <-> component nm /\ c = child ns nm /\ has (nodes L) (ns ++ [nm])).
Proof.
  intros Hwf Hr Hc.
  destruct (children_refines same same_name L (abs_path ns) RDict false false)
      as (L' & E & _); auto using proper_abs. rewrite E. cbn [fst].
  eexists. split; [reflexivity|].
  assert (Hs : forall k, In k (real (nodes L) (abs_path ns)) -> exists n, dget k (nodes L) = Some n).
  { intros k Hk. apply real_keys in Hk. apply dget_some_key in Hk. exact Hk. }
  rewrite name_dict_map; auto using real_names_nodup.
  rewrite dget_name_list; auto using real_names_nodup.
  rewrite real_in by auto. split.
  - intros [(H1 & m & H2 & ->) H3]. destruct (dget (child ns m) (nodes L)) as [n|] eqn:En; [|discriminate].
    apply dget_In in En. destruct Hwf as [Hnd Hp]. apply Hp in En.
    apply placed_parent in En as [_ En]; [|apply Forall_app; auto]. cbn in H3. injection H3 as <-.
    rewrite En. auto.
  - intros (H1 & -> & H2). split; [split; [exact H2|eauto]|].
    destruct (Hs (child ns nm)) as (n & En).
    { apply real_in; auto. split; [exact H2|eauto]. }
    rewrite En. apply dget_In in En. destruct Hwf as [Hnd Hp]. apply Hp in En.
    apply placed_parent in En as [_ En]; [|apply Forall_app; auto]. cbn. now rewrite En.
Qed.

End H.

Lemma children_nodes_ordered same L ns :
  wf_nodes (nodes L) -> all_ready same L -> Forall component ns ->
  fst (children same by_value L (abs_path ns) RNode true false)
  = fst (children same by_value L (abs_path ns) RPath true false).
Proof.
  intros Hwf Hr Hc.
  destruct (children_refines same by_value L (abs_path ns) RNode true false)
      as (L' & E & _); auto using proper_abs. rewrite E. cbn [fst].
  destruct (children_refines same by_value L (abs_path ns) RPath true false)
      as (L2 & E5 & _); auto using proper_abs. rewrite E5. cbn [fst].
  unfold pure_children. cbn [rtype_eqb negb andb]. rewrite all_paths_real.
  destruct (dget (abs_path ns) (nodes L)) as [n|]; [|reflexivity].
  destruct (n_order n) as [|o os]; [reflexivity|]. f_equal. unfold order_nodes, order_paths.
  f_equal. apply flat_map_ext_in. intros nm _. apply filter_ext_in. intros k Hk.
  pose proof Hk as Hk2. apply real_keys in Hk. apply dget_some_key in Hk as (m & Em). rewrite Em.
  unfold by_value. rewrite andb_true_r. f_equal. apply dget_In in Em.
  apply real_in in Hk2 as (_ & x & Hx & ->); auto.
  destruct Hwf as [Hnd Hp]. apply Hp in Em. unfold child in Em.
  apply placed_parent in Em as [_ Em]; [|apply Forall_app; auto]. rewrite Em.
  symmetry. apply child_name. apply Forall_app; auto.
Qed.

Section H2.
Variables (same same_name : pystr -> pystr -> bool).

(** Descendants. *)
Lemma descendants_exact fuel depth L ns incl :
  wf_nodes (nodes L) -> all_ready same L -> Forall component ns -> ns <> [] ->
  shallower (nodes L) depth -> depth <= fuel ->
  exists l, fst (descendants same same_name fuel L (abs_path ns) RPath false incl) = AList l /\
    NoDup l /\
    forall x, In x l <-> exists r, r <> [] /\ Forall component r /\ x = abs_path (ns ++ r) /\
                if incl then known (nodes L) (ns ++ r) else linked (nodes L) ns r.
Proof.
  intros Hwf Hr Hc Hne Hd Hf.
  destruct (descendants_path same same_name fuel depth L ns incl) as (L' & E & _ & _); auto.
  rewrite E. eexists. split; [reflexivity|]. split.
  - apply NoDup_concat_levels; auto.
  - intros x. rewrite (below_all_in _ _ _ Hwf Hc Hne fuel depth); auto.
    destruct incl; reflexivity.
Qed.

Lemma descendants_ordered fuel depth L ns incl :
  wf_nodes (nodes L) -> all_ready same L -> Forall component ns -> ns <> [] ->
  incl = true \/ has (nodes L) ns ->
  shallower (nodes L) depth -> 0 < fuel -> depth <= length ns + fuel ->
  exists ch l, lists_kids (nodes L) incl ch /\
    fst (descendants same same_name fuel L (abs_path ns) RPath true incl) = AList l /\
    forest ch (ch (abs_path ns)) l /\
    (forall x, In x l <-> exists r, r <> [] /\ Forall component r /\ x = abs_path (ns ++ r) /\
                if incl then known (nodes L) (ns ++ r) else linked (nodes L) ns r) /\
    (forall a b r1 r2, Forall component (r1 ++ r2) -> r1 <> [] -> r2 <> [] ->
       l = a ++ abs_path (ns ++ r1 ++ r2) :: b -> In (abs_path (ns ++ r1)) a) /\
    ((forall ms, Forall component ms -> NoDup (stored_order (nodes L) (abs_path ms))) -> NoDup l).
Proof.
  intros Hwf Hr Hc Hne Hi Hd Hf0 Hf.
  destruct (ordered_desc_refines same same_name (nodes L) incl fuel depth ns L) as (l & L' & E & Hfo & _ & _);
    auto.
  exists (och (nodes L) incl), l. split; [now apply och_lists_kids|]. split.
  { unfold descendants. rewrite abs_neq_world by auto. cbn [rtype_eqb negb]. now rewrite E. }
  split; [exact Hfo|].
  assert (Hk : forall c, In c (och (nodes L) incl (abs_path ns)) -> exists nm, component nm /\ c = child ns nm).
  { now apply forall_kids. }
  split; [|split].
  - intros x. rewrite (forest_below (nodes L) incl Hwf ns l x) by auto. unfold below, good.
    destruct incl; reflexivity.
  - intros a b r1 r2. intros. eapply (forest_parent_first (nodes L) incl Hwf); eauto.
  - intros Ho. apply (forest_nodup (nodes L) incl Hwf _ l ns Ho Hfo); auto.
    apply och_nodup; auto.
Qed.

Lemma descendants_ordered_missing fuel L ns :
  all_ready same L -> Forall component ns -> ns <> [] -> 0 < fuel -> ~ has (nodes L) ns ->
  fst (descendants same same_name fuel L (abs_path ns) RPath true false) = AErr AttributeError.
Proof.
  intros Hr Hc Hne Hf Hn. unfold descendants. rewrite abs_neq_world by auto. cbn [rtype_eqb negb].
  now apply ordered_missing.
Qed.

Lemma descendants_world fuel L incl :
  wf_nodes (nodes L) ->
  exists l, descendants same same_name fuel L WORLD RPath false incl = (AList l, L) /\ NoDup l /\
  forall x, In x l <->
  exists ns, ns <> [] /\ Forall component ns /\ x = abs_path ns /\
             if incl then known (nodes L) ns else has (nodes L) ns.
Proof.
  intros Hwf. unfold descendants. cbn [str_eqb]. rewrite str_eqb_refl.
  pose proof (fun x => world_desc_in (nodes L) incl x Hwf) as G.
  unfold world_descendants in *. cbn [nodes rtype_eqb negb] in *. rewrite andb_false_r in *.
  destruct incl; (eexists; split; [reflexivity|]); (split; [|exact G]).
  - apply add_missing_nodup, add_missing_nodup. constructor.
  - apply NoDup_filter. apply Hwf.
Qed.

(** Execution order. *)
Lemma exec_order_whole fuel depth L n0 rest rs :
  wf_nodes (nodes L) -> all_ready same L ->
  Forall component (n0 :: rest) -> linked (nodes L) [] (n0 :: rest) ->
  exec_chain (nodes L) (abs_path [n0]) rs ->
  shallower (nodes L) depth -> depth <= fuel -> length (nodes L) < fuel ->
  exists ch l0 first blocks,
    lists_kids (nodes L) false ch /\
    forest ch (ch (abs_path [n0])) l0 /\
    Forall2 (block (nodes L) ch) rs blocks /\
    first = (match rest with
             | [] => if off (nodes L) (abs_path [n0]) then []
                     else abs_path [n0] :: filter (clear (nodes L) (abs_path [n0])) l0
             | _ => filter (clear (nodes L) (abs_path [n0])) (from (abs_path (n0 :: rest)) l0)
             end) /\
    fst (get_exec_order same same_name fuel L (abs_path (n0 :: rest)))
    = AList (first ++ concat blocks).
Proof.
  intros Hwf Hr Hc Hl Hch Hd Hf Hlen.
  destruct (exec_order_exact same same_name fuel depth L (nodes L) n0 rest rs)
    as (l0 & first & blocks & L' & E & H1 & H2 & H3); auto.
  exists (och (nodes L) false), l0, first, blocks. rewrite E.
  split; [now apply och_lists_kids|auto].
Qed.

Lemma exec_order_world fuel L :
  fst (get_exec_order same same_name fuel L WORLD) = AList [].
Proof. reflexivity. Qed.

Lemma exec_order_cases fuel L n0 rest :
  wf_nodes (nodes L) -> all_ready same L -> Forall component (n0 :: rest) ->
  length (nodes L) < fuel ->
  (exists rs, exec_chain (nodes L) (abs_path [n0]) rs) \/
  (forall fuel', fst (get_exec_order same same_name fuel' L (abs_path (n0 :: rest))) = AErr Endless).
Proof.
  intros Hwf Hr Hc Hf.
  destruct (root_loop same same_name (S (length (nodes L))) L (abs_path [n0])) as [[rs L']|] eqn:E.
  - left. exists rs. eapply root_loop_sound; eauto. apply Hwf.
  - right. intros fuel'. unfold get_exec_order.
    rewrite abs_neq_world by (auto; discriminate). unfold get_root_exec_order.
    rewrite get_root_path_abs by auto.
    rewrite (root_loop_endless same same_name L (abs_path [n0]) Hwf Hr E). reflexivity.
Qed.

Lemma exec_order_missing fuel depth L n0 rest rs :
  wf_nodes (nodes L) -> all_ready same L ->
  Forall component (n0 :: rest) -> has (nodes L) [n0] -> ~ linked (nodes L) [] (n0 :: rest) ->
  exec_chain (nodes L) (abs_path [n0]) rs ->
  shallower (nodes L) depth -> depth <= fuel -> length (nodes L) < fuel ->
  fst (get_exec_order same same_name fuel L (abs_path (n0 :: rest))) = AList [].
Proof.
  intros Hwf Hr Hc Hh Hl Hch Hd Hf Hlen. unfold get_exec_order.
  rewrite abs_neq_world by (auto; discriminate). unfold get_root_exec_order.
  rewrite get_root_path_abs by auto.
  destruct (root_loop_complete same same_name fuel L (abs_path [n0]) rs (nodes L))
    as (L' & E & EL & HL'); auto.
  { apply Hwf. } { pose proof (chain_length _ _ _ Hwf Hch). lia. }
  rewrite E.
  destruct (exec_roots_never same same_name fuel depth L' (nodes L) (n0 :: rest) (abs_path [n0] :: rs))
    as (L2 & E2); auto; try discriminate.
  - intros r [<-|Hi].
    + exists n0. inversion Hc; auto.
    + eapply chain_roots; eauto.
  - now rewrite E2.
Qed.
End H2.

(** Histories. *)
Lemma comp_histories same same_name ops :
  comp_history same same_name empty_layer ops ->
  let L := fold_left (comp_step same same_name) ops empty_layer in
  wf_nodes (nodes L) /\ all_ready same L /\
  forall ns rt ordered, Forall component ns ->
    fst (children same same_name L (abs_path ns) rt ordered false)
    = fst (children by_value same_name (cold L) (abs_path ns) rt ordered false).
Proof.
  intros H L. assert (G : comp_inv L) by (apply comp_history_inv; auto using comp_inv_empty).
  split; [apply G|]. split; [now apply comp_inv_ready|]. intros.
  apply ready_like_cold; [now apply comp_inv_ready|now apply proper_abs].
Qed.

Lemma spec_histories same_name d ops :
  wf_nodes d ->
  let L0 := {| nodes := d; kids := []; implied := [] |} in
  spec_history by_value same_name L0 ops ->
  let L := fold_left (spec_step by_value same_name) ops L0 in
  wf_nodes (nodes L) /\ all_ready by_value L /\
  forall ns rt ordered incl, Forall component ns ->
    fst (children by_value same_name L (abs_path ns) rt ordered incl)
    = fst (children by_value same_name (cold L) (abs_path ns) rt ordered incl).
Proof.
  intros Hd L0 H L. assert (G : spec_inv L) by (apply spec_history_inv; [now apply spec_inv_cold|exact H]).
  split; [apply G|]. split; [apply G|]. intros.
  apply ready_like_cold; [apply G|now apply proper_abs].
Qed.
