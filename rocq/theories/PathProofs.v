(** Proofs about [NxtPath]. *)

From Coq Require Import String List NArith Bool ZArith Lia Arith.
From Verif Require Import PyStr PyStrFacts NxtPath PathSpec.
Import ListNotations.

Lemma slashed_app a b : slashed (a ++ b) = slashed a ++ slashed b.
Proof.
  induction a as [|n a IH]; cbn; auto.
  now rewrite IH, <- app_assoc.
Qed.

Lemma slashed_snoc a n : slashed (a ++ [n]) = slashed a ++ SLASH :: n.
Proof. rewrite slashed_app. cbn. now rewrite app_nil_r. Qed.

Lemma abs_path_slashed ns : ns <> [] -> abs_path ns = slashed ns.
Proof. destruct ns; [congruence|reflexivity]. Qed.

Lemma abs_path_snoc ns n : abs_path (ns ++ [n]) = slashed ns ++ SLASH :: n.
Proof.
  rewrite abs_path_slashed; [apply slashed_snoc|]. destruct ns; discriminate.
Qed.

Lemma slashed_join ns :
  ns <> [] -> slashed ns = SLASH :: join [SLASH] ns.
Proof.
  induction ns as [|n ns IH]; intros H; [congruence|].
  destruct ns as [|m ns].
  - cbn. now rewrite app_nil_r.
  - cbn [slashed]. cbn [slashed] in IH. rewrite IH by discriminate.
    rewrite (join_cons [SLASH] n (m :: ns)) by discriminate. reflexivity.
Qed.

Lemma slashed_nil_inv ns : slashed ns = [] -> ns = [].
Proof. destruct ns; [auto|discriminate]. Qed.

(** abs_path of a non-empty list of components is not the world. *)
Lemma abs_path_not_world n ns :
  component n -> abs_path (n :: ns) <> WORLD.
Proof.
  intros [Hn _] H. cbn in H. injection H as H.
  apply app_eq_nil in H as [H _]. auto.
Qed.

Lemma abs_path_snoc_not_world ns n :
  Forall component (ns ++ [n]) -> abs_path (ns ++ [n]) <> WORLD.
Proof.
  intros H. destruct ns as [|m ns]; cbn [app] in *;
    inversion H; subst; now apply abs_path_not_world.
Qed.

Lemma abs_path_neqb ns :
  Forall component ns -> ns <> [] -> str_eqb (abs_path ns) WORLD = false.
Proof.
  intros H Hne. apply str_eqb_neq. destruct ns; [congruence|].
  inversion H; subst. now apply abs_path_not_world.
Qed.

(** *** C01 *)

Lemma ns_no_dot_join c d l :
  c <> d -> Forall (fun n => ~ In d n) l -> ~ In d (join [c] l).
Proof.
  intros Hcd. induction l as [|n l IH]; intros H; cbn; auto.
  inversion H; subst. destruct l as [|m l]; auto.
  rewrite in_app_iff. intros [Hi|Hi]; [auto|].
  cbn [app] in Hi. destruct Hi as [Hi|Hi]; [congruence|].
  now apply IH in Hi.
Qed.

Lemma path_attr_partition_nodot s :
  ~ In ATTR_SEP_C s -> path_attr_partition s = (s, None).
Proof.
  intros H. unfold path_attr_partition, is_attr_path.
  apply contains_char_false in H. unfold ATTR_SEP. now rewrite H.
Qed.

Lemma path_attr_partition_trailing s :
  path_attr_partition (s ++ [ATTR_SEP_C]) = (s ++ [ATTR_SEP_C], None).
Proof.
  unfold path_attr_partition.
  destruct (negb _); auto. now rewrite last_char_snoc, N.eqb_refl.
Qed.

Lemma path_attr_partition_make p a :
  a <> [] -> ~ In ATTR_SEP_C a ->
  path_attr_partition (make_attr_path p a) = (p, Some a).
Proof.
  intros Hne Ha. unfold path_attr_partition, is_attr_path, make_attr_path.
  rewrite <- app_assoc. cbn [app ATTR_SEP].
  assert (Hc : contains [ATTR_SEP_C] (p ++ ATTR_SEP_C :: a) = true).
  { apply contains_char, in_or_app. right; now left. }
  unfold ATTR_SEP. rewrite Hc. cbn [negb].
  change (p ++ ATTR_SEP_C :: a) with (p ++ [ATTR_SEP_C] ++ a).
  rewrite app_assoc, last_char_app by auto.
  destruct (last_char a) as [c|] eqn:E.
  - pose proof (last_char_In _ _ E) as Hi.
    destruct (N.eqb_spec c ATTR_SEP_C) as [->|_]; [contradiction|].
    rewrite <- app_assoc. cbn [app]. now rewrite rpartition_char_found.
  - rewrite <- app_assoc. cbn [app]. now rewrite rpartition_char_found.
Qed.

Lemma path_attr_partition_inv s p a :
  path_attr_partition s = (p, Some a) ->
  s = make_attr_path p a /\ a <> [] /\ ~ In ATTR_SEP_C a.
Proof.
  unfold path_attr_partition, is_attr_path.
  destruct (negb (contains ATTR_SEP s)) eqn:E; [discriminate|].
  apply negb_false_iff in E.
  destruct (last_char s) as [c|] eqn:El.
  2:{ unfold last_char in El. destruct (rev s) eqn:Er; [|discriminate].
      apply (f_equal (@rev N)) in Er. rewrite rev_involutive in Er. subst s.
      cbn in E. discriminate. }
  destruct (N.eqb_spec c ATTR_SEP_C) as [->|Hc]; [discriminate|].
  unfold rpartition.
  destruct (rpartition_opt ATTR_SEP s) as [[b a']|] eqn:Er.
  2:{ apply rpartition_opt_none in Er. congruence. }
  intros H; injection H as -> ->.
  apply rpartition_opt_some in Er as [-> Hl].
  specialize (Hl ltac:(discriminate)). cbn in Hl.
  apply contains_char_false in Hl.
  unfold make_attr_path. rewrite <- app_assoc. repeat split; auto.
  intros ->. rewrite app_nil_r in El. unfold ATTR_SEP in El.
  rewrite last_char_snoc in El. congruence.
Qed.

Lemma path_attr_partition_none_inv s p :
  path_attr_partition s = (p, None) ->
  p = s /\ (~ In ATTR_SEP_C s \/ exists t, s = t ++ [ATTR_SEP_C]).
Proof.
  unfold path_attr_partition, is_attr_path.
  destruct (negb (contains ATTR_SEP s)) eqn:E.
  - intros H; injection H as <-. split; auto. left.
    apply negb_true_iff in E. now apply contains_char_false in E.
  - destruct (last_char s) as [c|] eqn:El.
    + destruct (N.eqb_spec c ATTR_SEP_C) as [->|Hc].
      * intros H; injection H as <-. split; auto. right.
        unfold last_char in El. destruct (rev s) as [|x r] eqn:Er; [discriminate|].
        injection El as ->. exists (rev r).
        apply (f_equal (@rev N)) in Er. rewrite rev_involutive in Er. exact Er.
      * destruct (rpartition ATTR_SEP s) as [[? ?] ?]. discriminate.
    + destruct (rpartition ATTR_SEP s) as [[? ?] ?]. discriminate.
Qed.

Lemma namespace_of_path ns :
  ns <> [] ->
  Forall (fun n => ~ In SLASH n /\ ~ In PERIOD n) ns ->
  str_path_to_node_namespace (node_namespace_to_str_path ns) = ns.
Proof.
  intros Hne H. unfold str_path_to_node_namespace, node_namespace_to_str_path.
  rewrite path_attr_partition_nodot.
  - cbn [NODE_SEP app startswith]. rewrite N.eqb_refl. cbn [andb].
    assert (Hs : startswith [] (join [NODE_SEP_C] ns) = true) by reflexivity.
    cbn [startswith]. unfold split at 1. cbn.
    fold (split NODE_SEP_C (join [NODE_SEP_C] ns)).
    apply split_join; auto.
    eapply Forall_impl; [|exact H]. cbn. tauto.
  - cbn [NODE_SEP app]. intros [Hi|Hi]; [discriminate|].
    revert Hi. apply ns_no_dot_join; [discriminate|].
    eapply Forall_impl; [|exact H]. cbn. tauto.
Qed.

Lemma path_of_namespace s :
  ~ In PERIOD s ->
  node_namespace_to_str_path (str_path_to_node_namespace (SLASH :: s))
  = SLASH :: s.
Proof.
  intros H. unfold str_path_to_node_namespace.
  rewrite path_attr_partition_nodot.
  2:{ intros [Hi|Hi]; [discriminate|auto]. }
  cbn [startswith NODE_SEP]. change SLASH with NODE_SEP_C.
  rewrite N.eqb_refl. cbn [andb].
  unfold node_namespace_to_str_path, NODE_SEP. cbn [split].
  rewrite N.eqb_refl. cbn [skipn app].
  now rewrite join_split.
Qed.

Lemma slashed_starts ns r : ns <> [] -> exists t, slashed ns ++ r = SLASH :: t.
Proof. destruct ns; [congruence|]. cbn. eauto. Qed.

Lemma namespace_of_attr_path ns a :
  ns <> [] -> Forall (fun n => ~ In SLASH n) ns ->
  a <> [] -> ~ In PERIOD a ->
  str_path_to_node_namespace (make_attr_path (abs_path ns) a) = ns.
Proof.
  intros Hne H Ha Hd. unfold str_path_to_node_namespace.
  rewrite path_attr_partition_make by auto.
  rewrite abs_path_slashed, slashed_join by auto.
  cbn [startswith NODE_SEP]. change SLASH with NODE_SEP_C.
  rewrite N.eqb_refl. cbn. apply split_join; auto.
Qed.

(** *** C03 *)

Lemma rpartition_slash_snoc ns n :
  ~ In SLASH n ->
  rpartition NODE_SEP (slashed ns ++ SLASH :: n) = (slashed ns, NODE_SEP, n).
Proof. intros H. now apply rpartition_char_found. Qed.

Lemma get_parent_path_abs ns n :
  Forall component (ns ++ [n]) ->
  get_parent_path (abs_path (ns ++ [n])) = abs_path ns.
Proof.
  intros H. unfold get_parent_path.
  rewrite abs_path_neqb; auto; [|destruct ns; discriminate].
  rewrite abs_path_snoc, rpartition_slash_snoc.
  2:{ apply Forall_app in H as [_ H]. inversion H as [|? ? [_ Hn]]; auto. }
  destruct ns; reflexivity.
Qed.

Lemma node_name_abs ns n :
  Forall component (ns ++ [n]) ->
  node_name_from_node_path (abs_path (ns ++ [n])) = n.
Proof.
  intros H. unfold node_name_from_node_path.
  rewrite abs_path_neqb; auto; [|destruct ns; discriminate].
  rewrite abs_path_snoc, rpartition_slash_snoc; auto.
  apply Forall_app in H as [_ H]. inversion H as [|? ? [_ Hn]]; auto.
Qed.

(** "no double slash" for rendered paths. *)
Definition dslash : pystr := [SLASH; SLASH].

Lemma no_dslash_cons_name n s :
  n <> [] -> ~ In SLASH n -> contains dslash s = false ->
  contains dslash (n ++ s) = false.
Proof.
  intros Hne Hn Hs. induction n as [|x n IH]; [congruence|].
  destruct n as [|y n].
  - cbn [app contains]. rewrite Hs, orb_false_r.
    apply startswith_false_iff. intros r Hr. injection Hr as -> _.
    apply Hn. now left.
  - change ((x :: y :: n) ++ s) with (x :: (y :: n) ++ s). cbn [contains].
    rewrite IH; [|discriminate|intros Hi; apply Hn; now right].
    rewrite orb_false_r. apply startswith_false_iff. intros r Hr.
    injection Hr as -> _. apply Hn. now left.
Qed.

Lemma no_dslash_slashed ns :
  Forall component ns -> contains dslash (slashed ns) = false.
Proof.
  induction ns as [|n ns IH]; intros H; [reflexivity|].
  inversion H as [|? ? [Hne Hn] Hf]; subst. cbn [slashed contains].
  rewrite no_dslash_cons_name by auto. rewrite orb_false_r.
  apply startswith_false_iff. intros r Hr. injection Hr as Hr.
  destruct n as [|x n]; [congruence|]. injection Hr as -> _.
  apply Hn. now left.
Qed.

Lemma no_dslash_abs ns :
  Forall component ns -> contains dslash (abs_path ns) = false.
Proof.
  destruct ns; [reflexivity|]. apply no_dslash_slashed.
Qed.

Lemma replace_dslash_id s :
  contains dslash s = false -> replace (NODE_SEP ++ NODE_SEP) NODE_SEP s = s.
Proof. intros H. apply replace_none; [discriminate|]. exact H. Qed.

(** A leading double slash is collapsed when nothing else is doubled. *)
Lemma replace_dslash_lead s :
  contains dslash s = false ->
  replace (NODE_SEP ++ NODE_SEP) NODE_SEP (SLASH :: SLASH :: s) = SLASH :: s.
Proof.
  intros H. unfold replace. cbn [app NODE_SEP].
  change (SLASH :: SLASH :: s) with ([NODE_SEP_C; NODE_SEP_C] ++ s).
  rewrite replace_aux_hit; [|discriminate|discriminate].
  cbn [option_map]. rewrite replace_aux_none; auto.
Qed.

Lemma slashed_names_join ns :
  ns <> [] -> SLASH :: join NODE_SEP ns = slashed ns.
Proof. intros H. symmetry. now apply slashed_join. Qed.

Lemma no_dslash_tail s : contains dslash (SLASH :: s) = false -> contains dslash s = false.
Proof. cbn. intros H. apply orb_false_iff in H as [_ H]. exact H. Qed.

Lemma join_node_paths_l_abs ns ms :
  Forall component (ns ++ ms) -> ms <> [] ->
  join_node_paths_l (abs_path ns) ms = abs_path (ns ++ ms).
Proof.
  intros H Hm. unfold join_node_paths_l.
  rewrite (join_cons NODE_SEP (abs_path ns) ms) by auto.
  assert (E : NODE_SEP ++ join NODE_SEP ms = slashed ms)
    by (symmetry; now apply slashed_join).
  rewrite E.
  rewrite (abs_path_slashed (ns ++ ms)) by (destruct ns, ms; (congruence || discriminate)).
  destruct ns as [|n ns].
  - cbn [abs_path app]. destruct ms as [|m ms]; [congruence|].
    cbn [slashed].
    rewrite replace_dslash_lead; auto.
    apply no_dslash_tail.
    change (SLASH :: m ++ slashed ms) with (slashed (m :: ms)).
    now apply no_dslash_slashed.
  - rewrite (abs_path_slashed (n :: ns)) by discriminate.
    rewrite <- slashed_app. apply replace_dslash_id.
    now apply no_dslash_slashed.
Qed.

Lemma join_node_paths_abs ns n :
  Forall component (ns ++ [n]) ->
  join_node_paths (abs_path ns) n = abs_path (ns ++ [n]).
Proof. intros H. apply join_node_paths_l_abs; auto. discriminate. Qed.

Lemma join_node_paths_abs_abs ns ms :
  Forall component (ns ++ ms) -> ns <> [] -> ms <> [] ->
  join_node_paths (abs_path ns) (abs_path ms) = abs_path (ns ++ ms).
Proof.
  intros H Hn Hm. unfold join_node_paths, join_node_paths_l.
  cbn [join]. rewrite !abs_path_slashed; auto; [|destruct ns; [congruence|discriminate]].
  apply Forall_app in H as [H1 H2].
  pose proof (no_dslash_slashed ms H2) as Hd.
  destruct ms as [|m ms]; [congruence|].
  rewrite slashed_app. cbn [slashed] in *.
  remember (m ++ slashed ms) as t eqn:Et. clear Et.
  change (slashed ns ++ NODE_SEP ++ SLASH :: t)
    with (slashed ns ++ dslash ++ t).
  change (NODE_SEP ++ NODE_SEP) with dslash.
  unfold replace. change (replace_aux dslash NODE_SEP None 0 (slashed ns ++ dslash ++ t)
                          = slashed ns ++ SLASH :: t).
  rewrite replace_aux_step.
  - f_equal.
    rewrite replace_aux_hit; [|discriminate|discriminate].
    cbn [option_map]. rewrite replace_aux_none; auto.
    now apply no_dslash_tail.
  - intros a1 a2 Ha Hne.
    apply startswith_false_iff. intros r Hr.
    (* the first doubled slash of [slashed ns ++ "//..."] is not inside ns *)
    assert (Hlast : exists x, a2 = [x] /\ x <> SLASH \/ contains dslash a2 = true).
    { destruct a2 as [|x [|y a2]]; [congruence| |].
      - exists x. left. split; auto. intros ->.
        destruct (exists_last Hn) as (ns' & n & ->).
        rewrite slashed_snoc in Ha.
        apply Forall_app in H1 as [_ H1].
        inversion H1 as [|? ? [Hn1 Hn2] _]; subst.
        destruct (exists_last Hn1) as (n' & z & ->).
        change (slashed ns' ++ SLASH :: n' ++ [z])
          with (slashed ns' ++ (SLASH :: n') ++ [z]) in Ha.
        rewrite app_assoc in Ha. apply app_inj_tail in Ha as [_ Hz].
        apply Hn2. apply in_or_app. right. rewrite Hz. now left.
      - exists x. right. cbn in Hr. injection Hr as -> -> _.
        cbn [contains]. apply orb_true_iff. left.
        apply startswith_iff. now exists a2. }
    destruct Hlast as (x & [[-> Hx]|Hc]).
    + cbn in Hr. injection Hr as Hr _. auto.
    + pose proof (no_dslash_slashed ns H1) as Hd1. rewrite Ha in Hd1.
      apply contains_iff in Hc as (u & v & Hu).
      assert (contains dslash (a1 ++ a2) = true).
      { apply contains_iff. exists (a1 ++ u), v. rewrite Hu.
        now rewrite <- app_assoc. }
      congruence.
Qed.

Lemma get_path_depth_abs ns :
  Forall component ns -> get_path_depth (abs_path ns) = length ns.
Proof.
  intros H. unfold get_path_depth.
  destruct ns as [|n ns]; [reflexivity|].
  rewrite abs_path_neqb; auto; [|discriminate].
  rewrite abs_path_slashed by discriminate.
  induction H as [|m ms [Hne Hm] Hf IH]; auto.
  cbn [slashed count_char length]. change NODE_SEP_C with SLASH in *.
  rewrite N.eqb_refl, count_char_app, IH, count_char_notin by auto. lia.
Qed.

Lemma get_root_path_abs n ns :
  Forall component (n :: ns) -> get_root_path (abs_path (n :: ns)) = abs_path [n].
Proof.
  intros H. inversion H as [|? ? [Hne Hn] Hf]; subst.
  unfold get_root_path. cbn [abs_path slashed skipn].
  rewrite app_nil_r.
  destruct ns as [|m ns].
  - cbn [slashed]. rewrite app_nil_r.
    unfold NODE_SEP. rewrite partition_char_none by auto. reflexivity.
  - cbn [slashed]. unfold NODE_SEP.
    change SLASH with NODE_SEP_C.
    rewrite partition_char_found by auto. reflexivity.
Qed.

(** *** C04 *)

Lemma rpartition_opt_length sep s b a :
  rpartition_opt sep s = Some (b, a) ->
  length s = length b + length sep + length a.
Proof.
  intros H. apply rpartition_opt_some in H as [-> _].
  rewrite !app_length. lia.
Qed.

Lemma get_parent_path_length s :
  s <> WORLD -> get_parent_path s = WORLD \/ length (get_parent_path s) < length s.
Proof.
  intros Hw. unfold get_parent_path.
  apply str_eqb_neq in Hw. rewrite Hw.
  unfold rpartition.
  destruct (rpartition_opt NODE_SEP s) as [[b a]|] eqn:E.
  - apply rpartition_opt_length in E. cbn in E.
    destruct b as [|x b]; cbn [is_empty]; [now left|right; lia].
  - now left.
Qed.

Lemma ancestors_loop_terminates f s :
  length s < f -> s <> [] -> exists l, ancestors_loop f s = Some l.
Proof.
  revert s. induction f as [|f IH]; intros s Hl Hne; [lia|].
  cbn [ancestors_loop]. destruct (str_eqb_spec s WORLD) as [->|Hw]; [eauto|].
  destruct (get_parent_path_length s Hw) as [Hp|Hp].
  - rewrite Hp. destruct f; [destruct s; [congruence|cbn in Hl; lia]|].
    cbn. eauto.
  - destruct (IH (get_parent_path s)) as [l ->]; [lia| |cbn; eauto].
    unfold get_parent_path. apply str_eqb_neq in Hw. rewrite Hw.
    destruct (rpartition NODE_SEP s) as [[p m] a].
    destruct p; cbn; discriminate.
Qed.

Lemma ancestors_loop_mono f g s l :
  ancestors_loop f s = Some l -> f <= g -> ancestors_loop g s = Some l.
Proof.
  revert g s l. induction f as [|f IH]; intros g s l H Hle; [discriminate|].
  destruct g as [|g]; [lia|]. cbn [ancestors_loop] in *.
  destruct (str_eqb s WORLD); auto.
  destruct (ancestors_loop f (get_parent_path s)) as [l'|] eqn:E; [|discriminate].
  rewrite (IH g _ _ E) by lia. exact H.
Qed.

Lemma all_ancestor_paths_terminates s :
  exists l, forall fuel, length s + 2 <= fuel ->
                         all_ancestor_paths_fuel fuel s = Some l.
Proof.
  unfold all_ancestor_paths_fuel.
  destruct (str_eqb_spec s WORLD) as [->|Hw]; [eauto|].
  assert (Hp : get_parent_path s <> []).
  { unfold get_parent_path. apply str_eqb_neq in Hw. rewrite Hw.
    destruct (rpartition NODE_SEP s) as [[p m] a].
    destruct p; cbn; discriminate. }
  assert (Hl : length (get_parent_path s) < length s + 2).
  { destruct (get_parent_path_length s Hw) as [->|]; cbn; lia. }
  destruct (ancestors_loop_terminates (length s + 2) (get_parent_path s)) as [l El];
    auto.
  exists l. intros fuel Hf. eapply ancestors_loop_mono; eauto.
Qed.

Lemma proper_ancestors_snoc ns n :
  ns <> [] -> proper_ancestors (ns ++ [n]) = ns :: proper_ancestors ns.
Proof.
  intros H. unfold proper_ancestors.
  rewrite app_length. cbn [length].
  assert (E : length ns + 1 - 1 = S (length ns - 1)).
  { destruct ns; [congruence|]. cbn. lia. }
  rewrite E, seq_S, rev_app_distr. cbn [rev app map].
  f_equal.
  - replace (1 + (length ns - 1)) with (length ns)
      by (destruct ns; [congruence|cbn; lia]).
    rewrite firstn_app, Nat.sub_diag. cbn. now rewrite app_nil_r, firstn_all.
  - apply map_ext_in. intros k Hk. apply in_rev, in_seq in Hk.
    rewrite firstn_app. replace (k - length ns) with 0 by lia.
    cbn. now rewrite app_nil_r.
Qed.

Lemma ancestors_loop_abs ns f :
  Forall component ns -> length ns < f ->
  ancestors_loop f (abs_path ns)
  = Some (map abs_path (match ns with [] => [] | _ => ns :: proper_ancestors ns end)).
Proof.
  revert f. induction ns as [|n ns IH] using rev_ind; intros f H Hf.
  - destruct f; [cbn in Hf; lia|]. reflexivity.
  - destruct f as [|f]; [lia|].
    cbn [ancestors_loop].
    rewrite abs_path_neqb; auto; [|destruct ns; discriminate].
    rewrite get_parent_path_abs by auto.
    rewrite app_length in Hf. cbn in Hf.
    apply Forall_app in H as [H _].
    rewrite IH by (auto; lia).
    destruct (ns ++ [n]) as [|y ys] eqn:E; [destruct ns; discriminate|].
    rewrite <- E. cbn [option_map map].
    destruct ns as [|m ms]; [injection E as <- <-; reflexivity|].
    now rewrite proper_ancestors_snoc by discriminate.
Qed.

Lemma slashed_length ns : length ns <= length (slashed ns).
Proof. induction ns; cbn; auto. rewrite app_length. lia. Qed.

Lemma all_ancestor_paths_abs ns fuel :
  Forall component ns -> length (abs_path ns) + 2 <= fuel ->
  all_ancestor_paths_fuel fuel (abs_path ns)
  = Some (map abs_path (proper_ancestors ns)).
Proof.
  intros H Hf. unfold all_ancestor_paths_fuel.
  destruct ns as [|n ns] using rev_ind; [reflexivity|].
  clear IHns. rewrite abs_path_neqb; auto; [|destruct ns; discriminate].
  rewrite get_parent_path_abs by auto.
  assert (length ns < fuel).
  { rewrite abs_path_slashed in Hf by (destruct ns; discriminate).
    pose proof (slashed_length (ns ++ [n])) as Hs.
    rewrite app_length in Hs. lia. }
  apply Forall_app in H as [H _].
  rewrite ancestors_loop_abs by auto.
  destruct ns as [|m ns]; auto.
  now rewrite proper_ancestors_snoc by discriminate.
Qed.

Lemma all_ancestor_paths_abs' ns :
  Forall component ns ->
  all_ancestor_paths (abs_path ns) = map abs_path (proper_ancestors ns).
Proof.
  intros H. unfold all_ancestor_paths.
  now rewrite all_ancestor_paths_abs.
Qed.

(** *** injectivity of rendering *)

Lemma name_slashed_inj n m r s :
  ~ In SLASH n -> ~ In SLASH m ->
  n ++ slashed r = m ++ slashed s -> n = m /\ slashed r = slashed s.
Proof.
  revert m. induction n as [|x n IH]; intros [|y m] Hn Hm H; cbn in H.
  - auto.
  - destruct r as [|k r]; cbn in H; [discriminate|].
    injection H as <- _. exfalso. apply Hm. now left.
  - destruct s as [|k s]; cbn in H; [discriminate|].
    injection H as -> _. exfalso. apply Hn. now left.
  - injection H as -> H. destruct (IH m) as [-> ?]; auto.
    + intros Hi. apply Hn. now right.
    + intros Hi. apply Hm. now right.
Qed.

Lemma slashed_inj a b :
  Forall component a -> Forall component b -> slashed a = slashed b -> a = b.
Proof.
  revert b. induction a as [|n a IH]; intros [|m b] Ha Hb H; auto; try discriminate.
  inversion Ha as [|? ? [? ?] ?]; inversion Hb as [|? ? [? ?] ?]; subst.
  cbn in H. injection H as H. apply name_slashed_inj in H as [-> H]; auto.
  f_equal. now apply IH.
Qed.

Lemma abs_path_inj a b :
  Forall component a -> Forall component b -> abs_path a = abs_path b -> a = b.
Proof.
  intros Ha Hb H.
  destruct a as [|n a], b as [|m b]; auto.
  - exfalso. inversion Hb; subst. eapply abs_path_not_world; eauto.
  - exfalso. inversion Ha; subst. eapply abs_path_not_world; eauto.
  - now apply slashed_inj.
Qed.

(** *** C05 *)

Lemma slashed_prefix b a r :
  Forall component b -> Forall component a ->
  slashed a = slashed b ++ SLASH :: r ->
  exists n c, a = b ++ n :: c /\ SLASH :: r = slashed (n :: c).
Proof.
  revert a. induction b as [|m b IH]; intros a Hb Ha H.
  - cbn in H. destruct a as [|n c]; [discriminate|].
    exists n, c. auto.
  - cbn in H. destruct a as [|n a]; [discriminate|].
    cbn in H. injection H as H.
    inversion Hb as [|? ? [Hm1 Hm2] Hb']; inversion Ha as [|? ? [Hn1 Hn2] Ha']; subst.
    (* n ++ slashed a = m ++ slashed b ++ "/" ++ r *)
    rewrite <- app_assoc in H.
    assert (Hgen : forall n m t, ~ In SLASH n -> ~ In SLASH m ->
              n ++ slashed a = m ++ SLASH :: t -> n = m /\ slashed a = SLASH :: t).
    { clear. induction n as [|x n IH]; intros [|y m] t Hn Hm H; cbn in H.
      - auto.
      - destruct a as [|k a]; cbn in H; [discriminate|].
        injection H as <- _. exfalso. apply Hm. now left.
      - injection H as -> _. exfalso. apply Hn. now left.
      - injection H as -> H. destruct (IH m t) as [-> ?]; auto.
        + intros Hi. apply Hn. now right.
        + intros Hi. apply Hm. now right. }
    assert (Hs : exists t, slashed b ++ SLASH :: r = SLASH :: t)
      by (destruct b; cbn; eauto).
    destruct Hs as [t Ht]. rewrite Ht in H.
    destruct (Hgen n m t Hn2 Hm2 H) as [-> Hst].
    rewrite <- Ht in Hst.
    destruct (IH a Hb' Ha' Hst) as (k & c & -> & ->).
    exists k, c. auto.
Qed.

Lemma is_ancestor_abs a b :
  Forall component a -> Forall component b ->
  is_ancestor (abs_path a) (abs_path b) = true
  <-> b = [] \/ strict_prefix b a.
Proof.
  intros Ha Hb. unfold is_ancestor.
  destruct b as [|m b].
  - cbn. split; auto.
  - rewrite abs_path_neqb; auto; [|discriminate].
    rewrite startswith_iff. rewrite (abs_path_slashed (m :: b)) by discriminate.
    split.
    + intros (r & H). right.
      rewrite <- app_assoc in H. cbn [NODE_SEP app] in H.
      assert (Hne : a <> []).
      { intros ->. cbn in H. inversion Hb as [|? ? [? ?] ?]; subst.
        destruct m; [congruence|]. discriminate. }
      rewrite abs_path_slashed in H by auto.
      change NODE_SEP_C with SLASH in H.
      apply slashed_prefix in H as (n & c & -> & _); auto.
      exists (n :: c). split; [discriminate|reflexivity].
    + intros [H|(r & Hr & ->)]; [discriminate|].
      rewrite abs_path_slashed by discriminate.
      rewrite slashed_app. destruct r as [|n r]; [congruence|].
      exists (n ++ slashed r). rewrite <- app_assoc. reflexivity.
Qed.

(** *** C06 *)

Lemma rsplit_aux_slashed k ns acc :
  Forall component ns -> k <= length ns ->
  rsplit_aux NODE_SEP_C k (slashed ns) acc
  = slashed (firstn (length ns - k) ns) :: skipn (length ns - k) ns ++ acc.
Proof.
  revert ns acc. induction k as [|k IH]; intros ns acc H Hk.
  - rewrite Nat.sub_0_r, firstn_all, skipn_all. reflexivity.
  - destruct ns as [|n ns] using rev_ind; [cbn in Hk; lia|]. clear IHns.
    cbn [rsplit_aux]. rewrite slashed_snoc.
    apply Forall_app in H as [H Hn]. inversion Hn as [|? ? [_ Hn2] _]; subst.
    change NODE_SEP_C with SLASH.
    rewrite rpartition_opt_char_found by auto.
    rewrite app_length in *. cbn [length] in *.
    rewrite IH by (auto; lia).
    replace (length ns + 1 - S k) with (length ns - k) by lia.
    rewrite firstn_app, skipn_app.
    replace (length ns - k - length ns) with 0 by lia.
    cbn. now rewrite app_nil_r, <- app_assoc.
Qed.

Lemma trim_to_depth_abs ns d :
  Forall component ns ->
  trim_to_depth (abs_path ns) (Z.of_nat d) = abs_path (firstn d ns).
Proof.
  intros H. unfold trim_to_depth.
  destruct d as [|d]; [reflexivity|].
  destruct (Z.eqb_spec (Z.of_nat (S d)) 0); [lia|].
  rewrite get_path_depth_abs by auto.
  destruct (Z.leb_spec (Z.of_nat (length ns)) (Z.of_nat (S d))) as [Hl|Hl].
  - rewrite firstn_all2; auto. lia.
  - unfold rsplit.
    replace (Z.to_nat (Z.of_nat (length ns) - Z.of_nat (S d)))
      with (length ns - S d) by lia.
    rewrite abs_path_slashed by (destruct ns; cbn in Hl; [lia|discriminate]).
    rewrite rsplit_aux_slashed by (auto; lia).
    replace (length ns - (length ns - S d)) with (S d) by lia.
    rewrite abs_path_slashed; auto.
    destruct ns; [cbn in Hl; lia|discriminate].
Qed.

(** *** C07 *)

Lemma replace_ancestor_abs old new r :
  Forall component old -> Forall component new -> Forall component r ->
  old <> [] ->
  replace_ancestor (abs_path (old ++ r)) (abs_path old) (abs_path new)
  = abs_path (new ++ r).
Proof.
  intros Ho Hn Hr Hne. unfold replace_ancestor, add_path_terminator.
  assert (Hw : str_eqb (abs_path old ++ NODE_SEP) WORLD = false).
  { apply str_eqb_neq. intros E. destruct old as [|o old]; [congruence|].
    cbn in E. injection E as E. destruct o; [|discriminate].
    inversion Ho as [|? ? [? ?] ?]; congruence. }
  rewrite Hw.
  rewrite (abs_path_slashed (old ++ r)) by (destruct old; [congruence|discriminate]).
  rewrite (abs_path_slashed old) by auto.
  (* the text after the replaced prefix *)
  assert (Hsplit : exists t, slashed (old ++ r) ++ NODE_SEP
                    = (slashed old ++ NODE_SEP) ++ t /\
                    SLASH :: t = slashed r ++ [SLASH]).
  { rewrite slashed_app. destruct r as [|n r]; cbn [slashed].
    - exists []. split; [|reflexivity]. now rewrite app_nil_r, app_nil_r.
    - exists ((n ++ slashed r) ++ [SLASH]). split; [|reflexivity].
      rewrite <- !app_assoc. cbn [app NODE_SEP]. now rewrite <- app_assoc. }
  destruct Hsplit as (t & -> & Ht).
  unfold replace_once. rewrite replace_aux_hit.
  2:{ destruct (slashed old); discriminate. }
  2:{ discriminate. }
  cbn [option_map pred]. rewrite replace_aux_zero.
  rewrite <- app_assoc. cbn [NODE_SEP app].
  change NODE_SEP_C with SLASH. rewrite Ht.
  unfold drop_last. rewrite app_assoc, removelast_snoc.
  destruct new as [|n new].
  - cbn [abs_path app]. destruct r as [|m r]; [reflexivity|].
    cbn [slashed app]. rewrite replace_dslash_lead; [reflexivity|].
    apply no_dslash_tail. change (SLASH :: m ++ slashed r) with (slashed (m :: r)).
    now apply no_dslash_slashed.
  - rewrite abs_path_slashed by discriminate. rewrite <- slashed_app.
    rewrite replace_dslash_id.
    + reflexivity.
    + apply no_dslash_slashed. apply Forall_app. auto.
Qed.

(** *** C08 *)

Lemma removelast_snoc' {A} (l : list A) : l = [] \/ exists l' x, l = l' ++ [x].
Proof.
  destruct l using rev_ind; [auto|]. right. eauto.
Qed.

Lemma rpartition_slashed cur :
  Forall (fun n => ~ In SLASH n) cur ->
  fst (fst (rpartition NODE_SEP (slashed cur))) = slashed (removelast cur).
Proof.
  intros H. destruct (removelast_snoc' cur) as [->|(c & x & ->)].
  - reflexivity.
  - rewrite slashed_snoc, removelast_snoc.
    apply Forall_app in H as [_ H]. inversion H; subst.
    now rewrite rpartition_slash_snoc.
Qed.

Lemma Forall_removelast {A} (P : A -> Prop) l : Forall P l -> Forall P (removelast l).
Proof.
  intros H. destruct (removelast_snoc' l) as [->|(c & x & ->)]; auto.
  rewrite removelast_snoc. now apply Forall_app in H as [H _].
Qed.

Lemma expand_loop_walk dirs cur :
  Forall (fun n => ~ In SLASH n) cur -> Forall (fun n => ~ In SLASH n) dirs ->
  expand_loop (slashed cur) dirs = slashed (walk cur dirs).
Proof.
  revert cur. induction dirs as [|d dirs IH]; intros cur Hc Hd; auto.
  inversion Hd; subst. cbn [expand_loop]. unfold walk. cbn [fold_left].
  fold (walk (walk_step cur d) dirs).
  unfold walk_step at 1. change (lit "..") with DOTDOT. change (lit ".") with DOT.
  destruct (str_eqb d DOTDOT).
  - pose proof (rpartition_slashed cur Hc) as Hr.
    destruct (rpartition NODE_SEP (slashed cur)) as [[b m] a]. cbn in Hr. subst b.
    apply IH; auto. now apply Forall_removelast.
  - destruct (str_eqb d DOT); auto.
    destruct d as [|x d]; cbn [is_empty]; auto.
    cbn [str_eqb].
    rewrite <- app_assoc. cbn [app NODE_SEP]. change NODE_SEP_C with SLASH.
    rewrite <- slashed_snoc. apply IH; auto. apply Forall_app; auto.
Qed.

Lemma expand_relative_walk ns rel :
  Forall (fun n => ~ In SLASH n) ns -> ns <> [] ->
  rel <> [] -> startswith [SLASH] rel = false ->
  expand_relative_node_path rel (abs_path ns)
  = Some (slashed (walk ns (split SLASH rel))).
Proof.
  intros Hn Hne Hr Hs. unfold expand_relative_node_path.
  destruct rel as [|x rel]; [congruence|]. cbn [is_empty].
  change NODE_SEP with [SLASH]. rewrite Hs.
  destruct (str_eqb_spec (x :: rel) WORLD) as [E|_].
  - rewrite E in Hs. discriminate.
  - f_equal. rewrite abs_path_slashed by auto.
    apply expand_loop_walk; auto. apply split_forall_no_sep.
Qed.

Lemma expand_relative_absolute s start :
  expand_relative_node_path (SLASH :: s) start = Some (SLASH :: s).
Proof.
  unfold expand_relative_node_path. cbn [is_empty].
  destruct (str_eqb (SLASH :: s) WORLD); auto.
Qed.

(** Relative expansion from the world: [rel] stays inside strings starting
    with the extra slash. *)
Lemma expand_from_world_child n :
  component n -> n <> lit "." -> n <> lit ".." ->
  expand_relative_node_path n WORLD = Some (SLASH :: SLASH :: n).
Proof.
  intros [Hne Hn] H1 H2. unfold expand_relative_node_path.
  destruct n as [|x n]; [congruence|]. cbn [is_empty].
  destruct (str_eqb_spec (x :: n) WORLD) as [E|_].
  - exfalso. apply Hn. rewrite E. now left.
  - assert (Hs : startswith NODE_SEP (x :: n) = false).
    { apply startswith_false_iff. intros r Hr. injection Hr as -> _.
      apply Hn. now left. }
    rewrite Hs. change NODE_SEP_C with SLASH. rewrite split_no_sep by auto.
    cbn [expand_loop]. change DOTDOT with (lit ".."). change DOT with (lit ".").
    apply str_eqb_neq in H1. apply str_eqb_neq in H2.
    rewrite H1, H2. reflexivity.
Qed.
