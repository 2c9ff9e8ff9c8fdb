(** Proofs about [Layer]: descendants, breadth first and in child order. *)

From Coq Require Import String List NArith ZArith Bool Lia Arith Permutation.
From Verif Require Import PyStr PyStrFacts NxtPath PathSpec PathProofs Dict DictFacts
     ListMerger MergeProofs Layer LayerSpec LayerProofs.
Import ListNotations.

(** *** List facts *)

Lemma NoDup_app_intro {A} (a b : list A) :
  NoDup a -> NoDup b -> (forall x, In x a -> ~ In x b) -> NoDup (a ++ b).
Proof.
  intros Ha Hb. induction Ha as [|x a Hx Ha IH]; cbn; intros H; auto.
  constructor.
  - rewrite in_app_iff. intros [G|G]; [auto|]. apply (H x); auto.
  - apply IH. intros y Hy. apply H. auto.
Qed.

Lemma NoDup_flat_map {A B} (f : A -> list B) l :
  NoDup l -> (forall x, In x l -> NoDup (f x)) ->
  (forall x y z, In x l -> In y l -> In z (f x) -> In z (f y) -> x = y) ->
  NoDup (flat_map f l).
Proof.
  intros Hl. induction Hl as [|x l Hx Hl IH]; cbn; intros H1 H2; [constructor|].
  apply NoDup_app_intro.
  - apply H1. auto.
  - apply IH; intros; [apply H1; auto|]. eapply H2; eauto.
  - intros z Hz Hz2. apply in_flat_map in Hz2 as (y & Hy & Hyz).
    assert (x = y) by (eapply H2; eauto). now subst.
Qed.

(** *** What lies below a node *)

(** The node [ns ++ r] is found from [ns] going down. *)
Definition good (d : dict cnode) (incl : bool) (ns r : list pystr) : Prop :=
  if incl then known d (ns ++ r) else linked d ns r.

Lemma known_prefix d ns r : Forall component r -> known d (ns ++ r) -> known d ns.
Proof.
  intros Hr (q & Hq & H). exists (r ++ q). rewrite <- app_assoc in H.
  split; auto. apply Forall_app; auto.
Qed.

Lemma snoc_cases {A} (r : list A) : r = [] \/ exists q x, r = q ++ [x].
Proof.
  destruct r as [|y r] using rev_ind; [now left|right; eauto].
Qed.

Lemma good_snoc d incl ns r nm :
  component nm -> good d incl ns r ->
  (good d incl ns (r ++ [nm]) <->
   if incl then known d ((ns ++ r) ++ [nm]) else has d ((ns ++ r) ++ [nm])).
Proof.
  intros Hnm Hg. unfold good in *. destruct incl.
  - now rewrite app_assoc.
  - split.
    + intros H. rewrite <- app_assoc. apply (H (r ++ [nm]) []).
      * now rewrite app_nil_r.
      * now destruct r.
    + intros H r1 r2 E Hne. destruct (snoc_cases r2) as [->|(q & x & ->)].
      * rewrite app_nil_r in E. subst. now rewrite app_assoc.
      * rewrite app_assoc in E. apply app_inj_tail in E as [-> ->]. eapply Hg; eauto.
Qed.

Lemma good_prefix d incl ns r nm :
  component nm -> good d incl ns (r ++ [nm]) -> good d incl ns r.
Proof.
  intros Hnm. unfold good. destruct incl.
  - rewrite app_assoc. apply known_prefix. auto.
  - intros H r1 r2 -> Hne. apply (H r1 (r2 ++ [nm])); auto. now rewrite app_assoc.
Qed.

Lemma good_known d incl ns r :
  Forall component r -> r <> [] -> good d incl ns r -> known d (ns ++ r).
Proof.
  intros Hc Hne Hg. unfold good in *. destruct incl; auto.
  exists []. split; auto. rewrite app_nil_r. apply (Hg r []); auto. now rewrite app_nil_r.
Qed.

Section Below.
Variables (d : dict cnode) (incl : bool) (ns : list pystr).
Hypothesis (Hwf : wf_nodes d) (Hns : Forall component ns) (Hne : ns <> []).

(** [x] lies [n] levels below [ns]. *)
Definition at_level (n : nat) (x : pystr) : Prop :=
  exists r, length r = n /\ Forall component r /\ x = abs_path (ns ++ r) /\
            good d incl ns r.

(** One step down. *)
Lemma step_down (ch : pystr -> list pystr) n x :
  (forall p y, In y (ch p) <-> In y (all_paths d p incl)) ->
  (exists y, at_level n y /\ In x (ch y)) <-> at_level (S n) x.
Proof.
  intros Hch. split.
  - intros (y & (r & Hl & Hr & -> & Hg) & Hx). apply Hch in Hx.
    apply all_paths_in in Hx; auto.
    + destruct Hx as (nm & Hnm & -> & H). exists (r ++ [nm]).
      rewrite app_length, Hl. cbn. repeat split; [lia| | |].
      * apply Forall_app; auto.
      * unfold child. now rewrite app_assoc.
      * now apply good_snoc.
    + apply Forall_app; auto.
    + left. now destruct ns.
  - intros (r & Hl & Hr & -> & Hg).
    destruct (snoc_cases r) as [->|(q & nm & ->)]; [discriminate|].
    apply Forall_app in Hr as [Hq Hnm]. inversion Hnm as [|? ? Hn _]; subst.
    exists (abs_path (ns ++ q)). rewrite app_length in Hl. cbn in Hl.
    pose proof (good_prefix _ _ _ _ _ Hn Hg) as Hgq. split.
    + exists q. repeat split; auto. lia.
    + apply Hch. apply all_paths_in; auto.
      * apply Forall_app; auto.
      * left. now destruct ns.
      * exists nm. split; auto. split; [unfold child; now rewrite app_assoc|].
        now apply good_snoc in Hg.
Qed.

Lemma first_level (ch : pystr -> list pystr) x :
  (forall p y, In y (ch p) <-> In y (all_paths d p incl)) ->
  In x (ch (abs_path ns)) <-> at_level 1 x.
Proof.
  intros Hch. rewrite Hch. rewrite all_paths_in by auto. split.
  - intros (nm & Hnm & -> & H). exists [nm]. repeat split; auto.
    unfold good. destruct incl; auto. intros r1 r2 E Hn.
    destruct r1 as [|a [|b r1]]; [congruence| |]; cbn in E; [|discriminate].
    now injection E as <- _.
  - intros (r & Hl & Hr & -> & Hg). destruct r as [|nm [|? ?]]; try discriminate.
    inversion Hr; subst. exists nm. split; [assumption|]. split; [reflexivity|].
    unfold good in Hg. destruct incl; [exact Hg|]. apply (Hg [nm] []); auto. discriminate.
Qed.

(** *** Breadth first *)

Definition ch0 (p : pystr) : list pystr := all_paths d p incl.

Fixpoint level (n : nat) : list pystr :=
  match n with
  | O => ch0 (abs_path ns)
  | S m => flat_map ch0 (level m)
  end.

Lemma level_in n x : In x (level n) <-> at_level (S n) x.
Proof.
  revert x. induction n as [|n IH]; intros x; cbn [level].
  - apply first_level. reflexivity.
  - rewrite <- (step_down ch0) by reflexivity. rewrite in_flat_map. split.
    + intros (y & H1 & H2). exists y. split; auto. now apply IH.
    + intros (y & H1 & H2). exists y. split; auto. now apply IH.
Qed.

Lemma at_level_names n x : at_level n x ->
  exists r, length r = n /\ Forall component r /\ x = abs_path (ns ++ r).
Proof. intros (r & H1 & H2 & H3 & _). eauto. Qed.

Lemma at_level_inj n m x : at_level n x -> at_level m x -> n = m.
Proof.
  intros (r & H1 & H2 & -> & _) (q & G1 & G2 & E & _).
  apply abs_path_inj in E; try (apply Forall_app; auto).
  apply app_inv_head in E. subst. auto.
Qed.

Lemma level_nodup n : NoDup (level n).
Proof.
  induction n as [|n IH]; cbn [level].
  - apply all_paths_nodup. apply Hwf.
  - apply NoDup_flat_map; auto.
    + intros x _. apply all_paths_nodup. apply Hwf.
    + intros x y z Hx Hy Hzx Hzy.
      apply level_in in Hx. apply level_in in Hy.
      destruct (at_level_names _ _ Hx) as (r & Hr1 & Hr2 & ->).
      destruct (at_level_names _ _ Hy) as (q & Hq1 & Hq2 & ->).
      unfold ch0 in *.
      assert (Hn : forall r, ns ++ r <> []) by (intros; destruct ns; [congruence|discriminate]).
      apply all_paths_in in Hzx; auto; [|apply Forall_app; auto].
      apply all_paths_in in Hzy; auto; [|apply Forall_app; auto].
      destruct Hzx as (a & Ha & -> & _). destruct Hzy as (b & Hb & E & _).
      apply abs_path_inj in E.
      * apply app_inj_tail in E as [E _]. now rewrite E.
      * apply Forall_app; split; auto. apply Forall_app; auto.
      * apply Forall_app; split; auto. apply Forall_app; auto.
Qed.

Fixpoint pure_loop (fuel : nat) (acc more : list pystr) : option (list pystr) :=
  match more with
  | [] => Some acc
  | _ => match fuel with
         | O => None
         | S f => pure_loop f (acc ++ flat_map ch0 more) (flat_map ch0 more)
         end
  end.

Lemma level_empty_after n k : level n = [] -> level (n + k) = [].
Proof.
  intros H. induction k as [|k IH]; [now rewrite Nat.add_0_r|].
  rewrite Nat.add_succ_r. cbn [level]. now rewrite IH.
Qed.

Lemma pure_loop_levels fuel n acc :
  level (n + fuel) = [] ->
  pure_loop fuel acc (level n) = Some (acc ++ concat (map level (seq (S n) fuel))).
Proof.
  revert n acc. induction fuel as [|f IH]; intros n acc H.
  - rewrite Nat.add_0_r in H. rewrite H. cbn. now rewrite app_nil_r.
  - cbn [pure_loop seq map concat]. destruct (level n) as [|x l] eqn:E.
    + f_equal. assert (G : forall k, level (n + k) = []) by (intro; now apply level_empty_after).
      replace (level (S n)) with (@nil pystr)
        by (replace (S n) with (n + 1) by lia; now rewrite G).
      cbn [app]. assert (Z : forall m s, n <= s -> concat (map level (seq s m)) = []).
      { induction m as [|m IHm]; intros s Hs; cbn; auto.
        replace s with (n + (s - n)) by lia. rewrite G. cbn.
        replace (n + (s - n)) with s by lia. apply IHm. lia. }
      rewrite Z by lia. now rewrite app_nil_r.
    + replace (flat_map ch0 (x :: l)) with (level (S n)) by (cbn [level]; now rewrite E).
      rewrite IH by (replace (S n + f) with (n + S f) by lia; exact H).
      now rewrite app_assoc.
Qed.

Lemma level_deep n depth : shallower d depth -> depth <= length ns + S n -> level n = [].
Proof.
  intros Hd H. destruct (level n) as [|x l] eqn:E; auto. exfalso.
  assert (Hx : In x (level n)) by (rewrite E; now left).
  apply level_in in Hx. destruct Hx as (r & Hl & Hr & -> & Hg).
  apply good_known in Hg; auto; [|now destruct r].
  destruct Hg as (q & Hq & Hh).
  assert (length ((ns ++ r) ++ q) < depth).
  { apply Hd; auto. repeat (apply Forall_app; split); auto. }
  rewrite !app_length in *. lia.
Qed.

Definition below_all (fuel : nat) : list pystr := concat (map level (seq 0 (S fuel))).

Lemma pure_desc fuel depth :
  shallower d depth -> depth <= fuel ->
  pure_loop fuel (level 0) (level 0) = Some (below_all fuel).
Proof.
  intros Hd Hf. rewrite pure_loop_levels.
  - reflexivity.
  - apply (level_deep _ depth); auto. lia.
Qed.

Lemma below_all_in fuel depth x :
  shallower d depth -> depth <= fuel ->
  In x (below_all fuel) <->
  exists r, r <> [] /\ Forall component r /\ x = abs_path (ns ++ r) /\ good d incl ns r.
Proof.
  intros Hd Hf. unfold below_all. rewrite in_concat. split.
  - intros (l & Hl & Hx). apply in_map_iff in Hl as (n & <- & Hn).
    apply level_in in Hx. destruct Hx as (r & H1 & H2 & H3 & H4).
    exists r. repeat split; auto. now destruct r.
  - intros (r & Hr & Hc & -> & Hg). exists (level (length r - 1)). split.
    + apply in_map. apply in_seq.
      pose proof (good_known _ _ _ _ Hc Hr Hg) as (q & Hq & Hh).
      assert (length ((ns ++ r) ++ q) < depth).
      { apply Hd; auto. repeat (apply Forall_app; split); auto. }
      rewrite !app_length in *. lia.
    + apply level_in. exists r. repeat split; auto. destruct r; [congruence|cbn; lia].
Qed.

Lemma NoDup_concat_levels s m : NoDup (concat (map level (seq s m))).
Proof.
  rewrite <- flat_map_concat_map. apply NoDup_flat_map.
  - apply seq_NoDup.
  - intros. apply level_nodup.
  - intros x y z _ _ Hx Hy. apply level_in in Hx. apply level_in in Hy.
    pose proof (at_level_inj _ _ _ Hx Hy). lia.
Qed.

End Below.

(** *** descendants without child order *)

Section Refine2.
Variables (same same_name : pystr -> pystr -> bool).

Lemma all_paths_nonempty d p incl x :
  wf_nodes d -> (exists ns, Forall component ns /\ ns <> [] /\ p = abs_path ns) ->
  In x (all_paths d p incl) ->
  exists ns, Forall component ns /\ ns <> [] /\ x = abs_path ns.
Proof.
  intros Hwf (ns & H1 & H2 & ->) Hx. apply all_paths_in in Hx; auto.
  destruct Hx as (nm & Hnm & -> & _). exists (ns ++ [nm]).
  repeat split; [apply Forall_app; auto|now destruct ns].
Qed.

Lemma pure_children_unordered d p rt incl :
  rt = RPath \/ (rt = RTable \/ rt = RNode) /\ incl = false ->
  pure_children same_name d p rt false incl = AList (all_paths d p incl).
Proof. intros [->|[[->| ->] ->]]; [now destruct incl| |]; reflexivity. Qed.

Lemma children_of_all_refines rt incl ps L :
  rt = RPath \/ rt = RTable /\ incl = false ->
  all_ready same L -> Forall proper ps ->
  exists L', children_of_all same same_name L ps rt incl
             = (flat_map (ch0 (nodes L) incl) ps, L') /\
             nodes L' = nodes L /\ all_ready same L'.
Proof.
  intros Hrt. revert L. induction ps as [|p ps IH]; intros L Hr Hp; cbn [children_of_all].
  - exists L. auto.
  - inversion Hp as [|? ? Hp1 Hp2]; subst.
    destruct (children_refines same same_name L p rt false incl Hr Hp1)
      as (L1 & -> & Hn1 & Hr1).
    destruct (IH L1 Hr1 Hp2) as (L2 & -> & Hn2 & Hr2).
    exists L2. rewrite Hn1 in *. split; [|auto].
    rewrite pure_children_unordered by tauto. reflexivity.
Qed.

Lemma pure_loop_S d incl f acc more :
  more <> [] ->
  pure_loop d incl (S f) acc more
  = pure_loop d incl f (acc ++ flat_map (ch0 d incl) more) (flat_map (ch0 d incl) more).
Proof. now destruct more. Qed.

Lemma desc_loop_S f L rt incl acc more :
  more <> [] ->
  desc_loop same same_name (S f) L rt incl acc more
  = let '(tmp, L1) := match rt with
                      | RPath | RTable => children_of_all same same_name L more rt incl
                      | _ => ([], L)
                      end in
    desc_loop same same_name f L1 rt incl (acc ++ tmp) tmp.
Proof. now destruct more. Qed.

Lemma desc_loop_refines rt incl fuel L acc more :
  rt = RPath \/ rt = RTable /\ incl = false ->
  wf_nodes (nodes L) -> all_ready same L ->
  Forall (fun p => exists ns, Forall component ns /\ ns <> [] /\ p = abs_path ns) more ->
  match pure_loop (nodes L) incl fuel acc more with
  | None => desc_loop same same_name fuel L rt incl acc more = None
  | Some l => exists L', desc_loop same same_name fuel L rt incl acc more = Some (l, L') /\
                         nodes L' = nodes L /\ all_ready same L'
  end.
Proof.
  intros Hrt. revert L acc more. induction fuel as [|f IH]; intros L acc more Hwf Hr Hp.
  - destruct more; cbn; eauto.
  - destruct more as [|p ps] eqn:Em; [cbn; eauto|]. rewrite <- Em in *.
    assert (Hps : Forall proper more).
    { eapply Forall_impl; [|exact Hp]. intros x (ns & Hc & _ & ->). now apply proper_abs. }
    destruct (children_of_all_refines rt incl more L Hrt Hr Hps) as (L1 & E & Hn1 & Hr1).
    assert (Hp' : Forall (fun p => exists ns, Forall component ns /\ ns <> [] /\ p = abs_path ns)
                    (flat_map (ch0 (nodes L) incl) more)).
    { apply Forall_forall. intros x Hx. apply in_flat_map in Hx as (y & Hy & Hx).
      rewrite Forall_forall in Hp. eapply all_paths_nonempty; eauto. }
    specialize (IH L1 (acc ++ flat_map (ch0 (nodes L) incl) more)
                   (flat_map (ch0 (nodes L) incl) more)).
    rewrite Hn1 in IH. specialize (IH Hwf Hr1 Hp').
    rewrite pure_loop_S by (rewrite Em; discriminate).
    replace (desc_loop same same_name (S f) L rt incl acc more)
      with (desc_loop same same_name f L1 rt incl (acc ++ flat_map (ch0 (nodes L) incl) more)
                      (flat_map (ch0 (nodes L) incl) more)).
    + exact IH.
    + rewrite desc_loop_S by (rewrite Em; discriminate).
      destruct Hrt as [->|[-> _]]; rewrite E; reflexivity.
Qed.

Lemma abs_neq_world ns : Forall component ns -> ns <> [] -> str_eqb (abs_path ns) WORLD = false.
Proof. intros H1 H2. now apply abs_path_neqb. Qed.

Lemma descendants_path fuel depth L ns incl :
  wf_nodes (nodes L) -> all_ready same L -> Forall component ns -> ns <> [] ->
  shallower (nodes L) depth -> depth <= fuel ->
  exists L', descendants same same_name fuel L (abs_path ns) RPath false incl
             = (AList (below_all (nodes L) incl ns fuel), L') /\
             nodes L' = nodes L /\ all_ready same L'.
Proof.
  intros Hwf Hr Hc Hne Hd Hf. unfold descendants. rewrite abs_neq_world by auto.
  destruct (children_refines same same_name L (abs_path ns) RPath false incl Hr (proper_abs ns Hc))
    as (L1 & -> & Hn1 & Hr1).
  rewrite pure_children_unordered by auto. cbn iota.
  pose proof (desc_loop_refines RPath incl fuel L1 (level (nodes L) incl ns 0)
                (level (nodes L) incl ns 0) (or_introl eq_refl)) as G.
  rewrite Hn1 in G. specialize (G Hwf Hr1).
  rewrite (pure_desc _ _ _ Hwf Hc Hne fuel depth Hd Hf) in G.
  destruct G as (L2 & E & Hn2 & Hr2).
  { apply Forall_forall. intros x Hx. eapply all_paths_nonempty; eauto. }
  change (all_paths (nodes L) (abs_path ns) incl) with (level (nodes L) incl ns 0).
  rewrite E. exists L2. auto.
Qed.

Lemma descendants_table fuel depth L ns :
  wf_nodes (nodes L) -> all_ready same L -> Forall component ns -> ns <> [] ->
  shallower (nodes L) depth -> depth <= fuel ->
  exists L', descendants same same_name fuel L (abs_path ns) RTable false false
             = (AList (below_all (nodes L) false ns fuel), L') /\
             nodes L' = nodes L /\
             (dget (abs_path ns) (kids L) <> None -> all_ready same L').
Proof.
  intros Hwf Hr Hc Hne Hd Hf. unfold descendants. rewrite abs_neq_world by auto.
  destruct (children_refines same same_name L (abs_path ns) RTable false false Hr (proper_abs ns Hc))
    as (L1 & -> & Hn1 & Hr1).
  rewrite pure_children_unordered by auto. cbn iota.
  pose proof (desc_loop_refines RTable false fuel L1 (level (nodes L) false ns 0)
                (level (nodes L) false ns 0) (or_intror (conj eq_refl eq_refl))) as G.
  rewrite Hn1 in G. specialize (G Hwf Hr1).
  rewrite (pure_desc _ _ _ Hwf Hc Hne fuel depth Hd Hf) in G.
  destruct G as (L2 & E & Hn2 & Hr2).
  { apply Forall_forall. intros x Hx. eapply all_paths_nonempty; eauto. }
  change (all_paths (nodes L) (abs_path ns) false) with (level (nodes L) false ns 0).
  rewrite E. eexists. split; [reflexivity|].
  destruct (dget (abs_path ns) (kids L)) eqn:Ek.
  - split; auto.
  - destruct (negb (is_empty (abs_path ns))); [|split; [auto|congruence]].
    destruct (dget (abs_path ns) (kids L2)); (split; [exact Hn2|congruence]).
Qed.

(** Asking for nodes stops at the children. *)
Lemma descendants_node fuel L ns :
  wf_nodes (nodes L) -> all_ready same L -> Forall component ns -> ns <> [] -> 0 < fuel ->
  exists L', descendants same same_name fuel L (abs_path ns) RNode false false
             = (AList (real (nodes L) (abs_path ns)), L').
Proof.
  intros Hwf Hr Hc Hne Hf. unfold descendants. rewrite abs_neq_world by auto.
  destruct (children_refines same same_name L (abs_path ns) RNode false false Hr (proper_abs ns Hc))
    as (L1 & -> & Hn1 & Hr1).
  rewrite pure_children_unordered by auto. cbn iota.
  change (all_paths (nodes L) (abs_path ns) false) with (real (nodes L) (abs_path ns)).
  destruct fuel as [|f]; [lia|].
  destruct (real (nodes L) (abs_path ns)) as [|x l] eqn:E; cbn [desc_loop]; [eauto|].
  rewrite app_nil_r. destruct f; cbn; eauto.
Qed.

(** *** Descendants in child order *)

Definition och (d : dict cnode) (incl : bool) (p : pystr) : list pystr :=
  match stored_order d p with
  | [] => all_paths d p incl
  | o => order_paths o (all_paths d p incl)
  end.

Lemma pure_children_ordered d p incl :
  incl = true \/ In p (dkeys d) ->
  pure_children same_name d p RPath true incl = AList (och d incl p).
Proof.
  intros H. unfold pure_children, och, stored_order.
  replace (incl && negb (rtype_eqb RPath RPath)) with false by now destruct incl.
  cbn [rtype_eqb]. cbn zeta. destruct (dget p d) as [n|] eqn:E.
  - now destruct (n_order n).
  - destruct H as [->|H]; auto. apply dget_none in E. contradiction.
Qed.

Lemma och_names d ns incl :
  wf_nodes d -> Forall component ns -> ns <> [] \/ ~ has d [] ->
  exists names, all_paths d (abs_path ns) incl = map (child ns) names /\
    NoDup names /\ Forall component names /\
    och d incl (abs_path ns) =
    map (child ns) (filter (fun n => str_in n names) (stored_order d (abs_path ns)) ++
                    filter (fun n => negb (str_in n (stored_order d (abs_path ns)))) names).
Proof.
  intros Hwf Hc Hw.
  destruct (all_paths_names d ns incl Hwf Hc Hw) as (names & E & Hnd & Hf).
  exists names. repeat (split; [assumption|]). unfold och.
  destruct (stored_order d (abs_path ns)) as [|o os] eqn:Eo.
  - cbn. rewrite E. f_equal. symmetry. apply filter_id. auto.
  - rewrite E. now apply order_paths_names.
Qed.

Lemma och_in d ns incl x :
  wf_nodes d -> Forall component ns -> ns <> [] \/ ~ has d [] ->
  In x (och d incl (abs_path ns)) <-> In x (all_paths d (abs_path ns) incl).
Proof.
  intros Hwf Hc Hw. destruct (och_names d ns incl Hwf Hc Hw) as (names & E & Hnd & Hf & ->).
  rewrite E, !in_map_iff. split; intros (n & <- & H); exists n; split; auto.
  - apply in_app_iff in H as [H|H]; apply filter_In in H as [H1 H2]; auto.
    now apply str_in_In.
  - apply in_app_iff. destruct (str_in n (stored_order d (abs_path ns))) eqn:Es.
    + left. apply filter_In. split; apply str_in_In; auto.
    + right. apply filter_In. split; auto. now rewrite Es.
Qed.

Lemma och_nodup d ns incl :
  wf_nodes d -> Forall component ns -> ns <> [] \/ ~ has d [] ->
  NoDup (stored_order d (abs_path ns)) -> NoDup (och d incl (abs_path ns)).
Proof.
  intros Hwf Hc Hw Ho. destruct (och_names d ns incl Hwf Hc Hw) as (names & E & Hnd & Hf & ->).
  assert (Hall : Forall component
            (filter (fun n => str_in n names) (stored_order d (abs_path ns)) ++
             filter (fun n => negb (str_in n (stored_order d (abs_path ns)))) names)).
  { rewrite Forall_forall in *. intros x H. apply in_app_iff in H as [H|H];
      apply filter_In in H as [H1 H2]; auto. apply str_in_In in H2. auto. }
  assert (Hn : NoDup (filter (fun n => str_in n names) (stored_order d (abs_path ns)) ++
             filter (fun n => negb (str_in n (stored_order d (abs_path ns)))) names)).
  { apply NoDup_app_intro; try (now apply NoDup_filter).
    intros x H1 H2. apply filter_In in H1 as [H1 _]. apply filter_In in H2 as [_ H2].
    apply negb_true_iff in H2. apply str_in_false in H2. auto. }
  induction Hn as [|x l Hx Hn IH]; cbn; [constructor|].
  inversion Hall as [|? ? A B]; subst. constructor; auto.
  intros Hi. apply in_map_iff in Hi as (y & Ey & Hy). rewrite Forall_forall in B.
  apply child_inj in Ey; auto. now subst.
Qed.

(** The loop over the children inside [ordered_desc]. *)
Definition go_desc (f : layer -> pystr -> answer * layer) :=
  fix go (cs : list pystr) (L : layer) : answer * layer :=
    match cs with
    | [] => (AList [], L)
    | c :: t =>
        match f L c with
        | (AList d, L') =>
            match go t L' with
            | (AList r, L'') => (AList (c :: d ++ r), L'')
            | e => e
            end
        | e => e
        end
    end.

Lemma ordered_desc_S f L p incl :
  ordered_desc same same_name (S f) L p incl =
  let '(a, L1) := children same same_name L p RPath true incl in
  match a with
  | AList cs => go_desc (fun L c => ordered_desc same same_name f L c incl) cs L1
  | e => (e, L1)
  end.
Proof. reflexivity. Qed.

Lemma ordered_desc_refines d incl fuel depth ns L :
  wf_nodes d -> nodes L = d -> all_ready same L -> Forall component ns -> ns <> [] ->
  incl = true \/ has d ns ->
  shallower d depth -> 0 < fuel -> depth <= length ns + fuel ->
  exists l L', ordered_desc same same_name fuel L (abs_path ns) incl = (AList l, L') /\
               forest (och d incl) (och d incl (abs_path ns)) l /\
               nodes L' = d /\ all_ready same L'.
Proof.
  intros Hwf. revert ns L.
  induction fuel as [|f IH]; intros ns L HL Hr Hc Hne Hex Hd H0 Hf; [lia|].
  rewrite ordered_desc_S.
  destruct (children_refines same same_name L (abs_path ns) RPath true incl Hr (proper_abs ns Hc))
    as (L1 & -> & Hn1 & Hr1).
  rewrite HL in *. rewrite pure_children_ordered by exact Hex. cbn iota.
  assert (Hcs : forall c, In c (och d incl (abs_path ns)) ->
                exists nm, component nm /\ c = child ns nm /\ known d (ns ++ [nm]) /\
                           (incl = true \/ has d (ns ++ [nm]))).
  { intros c Hi. apply och_in in Hi; auto. apply all_paths_in in Hi; auto.
    destruct Hi as (nm & Hnm & -> & H). exists nm.
    split; [exact Hnm|]. split; [reflexivity|]. split.
    - destruct incl; auto. exists []. split; auto. now rewrite app_nil_r.
    - destruct incl; auto. }
  assert (G : forall cs L1, (forall c, In c cs -> In c (och d incl (abs_path ns))) ->
              nodes L1 = d -> all_ready same L1 ->
              exists l L', go_desc (fun L c => ordered_desc same same_name f L c incl) cs L1
                           = (AList l, L') /\ forest (och d incl) cs l /\
                           nodes L' = d /\ all_ready same L').
  { clear Hr1 Hn1 L1 Hr HL L.
    induction cs as [|c cs IHc]; intros L Hin HL Hr; cbn [go_desc].
    - exists [], L. split; [reflexivity|]. split; [constructor|]. auto.
    - destruct (Hcs c) as (nm & Hnm & -> & (q & Hq & Hk) & Hx); [apply Hin; now left|].
      assert (Hall : Forall component (ns ++ [nm])) by (apply Forall_app; auto).
      assert (Hlen : length ((ns ++ [nm]) ++ q) < depth)
        by (apply Hd; auto; apply Forall_app; auto).
      rewrite !app_length in Hlen. cbn in Hlen.
      destruct (IH (ns ++ [nm]) L) as (l & L2 & E & Hfo & Hn2 & Hr2); auto.
      { now destruct ns. }
      { lia. }
      { rewrite app_length. cbn. lia. }
      unfold child at 1. rewrite E.
      destruct (IHc L2) as (l2 & L3 & -> & Hfo2 & Hn3 & Hr3); auto.
      { intros c Hi. apply Hin. now right. }
      exists (child ns nm :: l ++ l2), L3. split; [reflexivity|].
      split; [constructor; auto|]. auto. }
  destruct (G (och d incl (abs_path ns)) L1) as (l & L2 & -> & H); auto.
  exists l, L2. split; auto.
Qed.

Lemma ordered_missing fuel L ns incl :
  all_ready same L -> Forall component ns -> 0 < fuel ->
  incl = false -> ~ has (nodes L) ns ->
  fst (ordered_desc same same_name fuel L (abs_path ns) incl) = AErr AttributeError.
Proof.
  intros Hr Hc Hf -> Hn. destruct fuel as [|f]; [lia|]. rewrite ordered_desc_S.
  destruct (children_refines same same_name L (abs_path ns) RPath true false Hr (proper_abs ns Hc))
    as (L1 & -> & Hn1 & Hr1).
  unfold pure_children. cbn. unfold has in Hn. apply dget_none in Hn. now rewrite Hn.
Qed.

End Refine2.

(** *** What a depth-first listing contains *)

Section Forest.
Variables (d : dict cnode) (incl : bool).
Hypothesis Hwf : wf_nodes d.
Notation ch := (och d incl).

(** Everything below [ns]. *)
Definition below (ns : list pystr) (x : pystr) : Prop :=
  exists r, r <> [] /\ Forall component r /\ x = abs_path (ns ++ r) /\ good d incl ns r.

(** [c] or something below it. *)
Definition at_or_below (ns : list pystr) (x : pystr) : Prop :=
  x = abs_path ns \/ below ns x.

Lemma below_step ns x :
  Forall component ns -> ns <> [] ->
  below ns x <-> exists nm, component nm /\ In (child ns nm) (ch (abs_path ns)) /\
                            at_or_below (ns ++ [nm]) x.
Proof.
  intros Hc Hne.
  assert (Hin : forall nm, component nm ->
    (In (child ns nm) (ch (abs_path ns)) <->
     if incl then known d (ns ++ [nm]) else has d (ns ++ [nm]))).
  { intros nm Hnm. rewrite och_in by auto. rewrite all_paths_in by auto. split.
    - intros (m & Hm & E & H). apply child_inj in E; auto. now subst.
    - intros H. eauto. }
  split.
  - intros (r & Hr & Hcr & -> & Hg). destruct r as [|nm r]; [congruence|].
    inversion Hcr as [|? ? H1 H2]; subst. exists nm. split; auto. split.
    + apply Hin; auto. unfold good in Hg. destruct incl.
      * change (nm :: r) with ([nm] ++ r) in Hg. rewrite app_assoc in Hg.
        now apply known_prefix in Hg.
      * apply (Hg [nm] r); auto. discriminate.
    + unfold at_or_below, below. destruct r as [|m r].
      * now left.
      * right. exists (m :: r). rewrite <- app_assoc. cbn [app]. repeat split; auto.
        { discriminate. }
        unfold good in *. destruct incl.
        -- now rewrite <- app_assoc.
        -- intros r1 r2 E Hn. rewrite <- app_assoc. cbn [app].
           apply (Hg (nm :: r1) r2); [now rewrite E|discriminate].
  - intros (nm & Hnm & Hi & [->|(r & Hr & Hcr & -> & Hg)]); apply Hin in Hi; auto.
    + exists [nm]. repeat split; auto; [discriminate|].
      unfold good. destruct incl; auto. intros r1 r2 E Hn.
      destruct r1 as [|a [|b r1]]; [congruence| |]; cbn in E; [|discriminate].
      now injection E as <- _.
    + exists (nm :: r). repeat split; auto; [discriminate| |].
      * now rewrite <- app_assoc.
      * unfold good in *. destruct incl.
        -- now rewrite <- app_assoc in Hg.
        -- intros r1 r2 E Hn. destruct r1 as [|a r1]; [congruence|].
           cbn in E. injection E as <- E. destruct r1 as [|b r1]; auto.
           specialize (Hg (b :: r1) r2 E ltac:(discriminate)).
           now rewrite <- app_assoc in Hg.
Qed.

(** The listing starting from some children of [ns]. *)
Lemma forest_in cs l ns x :
  forest ch cs l -> Forall component ns -> ns <> [] ->
  (forall c, In c cs -> exists nm, component nm /\ c = child ns nm) ->
  In x l <-> exists nm, component nm /\ In (child ns nm) cs /\ at_or_below (ns ++ [nm]) x.
Proof.
  intros Hf. revert ns x.
  induction Hf as [|c cs dl rl H1 IH1 H2 IH2]; intros ns x Hc Hne Hcs.
  - cbn. split; [tauto|]. now intros (nm & _ & [] & _).
  - destruct (Hcs c (or_introl eq_refl)) as (nm & Hnm & ->).
    assert (Hall : Forall component (ns ++ [nm])) by (apply Forall_app; auto).
    assert (Hne2 : ns ++ [nm] <> []) by now destruct ns.
    cbn [In]. rewrite in_app_iff.
    rewrite (IH2 ns x Hc Hne) by (intros c Hi; apply Hcs; now right).
    rewrite (IH1 (ns ++ [nm]) x Hall Hne2).
    2:{ intros c Hi. unfold child in Hi. apply och_in in Hi; auto.
        apply all_paths_in in Hi; auto.
        destruct Hi as (m & Hm & -> & _). eauto. }
    change (ch (child ns nm)) with (ch (abs_path (ns ++ [nm]))).
    rewrite <- below_step by auto. split.
    + intros [<-|[H|(m & Hm & Hi & H)]].
      * exists nm. split; [exact Hnm|]. split; [now left|]. now left.
      * exists nm. split; [exact Hnm|]. split; [now left|]. now right.
      * exists m. auto.
    + intros (m & Hm & [E|Hi] & H).
      * apply child_inj in E; auto. subst m. destruct H as [->|H]; auto.
      * right. right. eauto.
Qed.

Lemma forest_below ns l x :
  Forall component ns -> ns <> [] ->
  forest ch (ch (abs_path ns)) l -> In x l <-> below ns x.
Proof.
  intros Hc Hne Hf. rewrite below_step by auto.
  rewrite (forest_in _ _ ns x Hf); auto; [tauto|].
  intros c Hi. apply och_in in Hi; auto. apply all_paths_in in Hi; auto.
  destruct Hi as (m & Hm & -> & _). eauto.
Qed.

Lemma at_or_below_names ns x : at_or_below ns x -> exists r, Forall component r /\ x = abs_path (ns ++ r).
Proof.
  intros [->|(r & _ & Hr & -> & _)]; [exists []; rewrite app_nil_r|exists r]; auto.
Qed.

Lemma at_or_below_disjoint ns a b x :
  Forall component ns -> component a -> component b ->
  at_or_below (ns ++ [a]) x -> at_or_below (ns ++ [b]) x -> a = b.
Proof.
  intros Hc Ha Hb H1 H2.
  apply at_or_below_names in H1 as (r & Hr & ->).
  apply at_or_below_names in H2 as (q & Hq & E).
  rewrite <- !app_assoc in E. cbn [app] in E.
  apply abs_path_inj in E; try (apply Forall_app; auto).
  apply app_inv_head in E. now injection E.
Qed.

Lemma forest_nodup cs l ns :
  (forall ms, Forall component ms -> NoDup (stored_order d (abs_path ms))) ->
  forest ch cs l -> Forall component ns -> ns <> [] -> NoDup cs ->
  (forall c, In c cs -> exists nm, component nm /\ c = child ns nm) -> NoDup l.
Proof.
  intros Ho Hf. revert ns.
  induction Hf as [|c cs dl rl H1 IH1 H2 IH2]; intros ns Hc Hne Hnd Hcs; [constructor|].
  destruct (Hcs c (or_introl eq_refl)) as (nm & Hnm & ->).
  assert (Hall : Forall component (ns ++ [nm])) by (apply Forall_app; auto).
  assert (Hne2 : ns ++ [nm] <> []) by now destruct ns.
  inversion Hnd as [|? ? Hn1 Hn2]; subst.
  assert (Hcs2 : forall c, In c cs -> exists nm, component nm /\ c = child ns nm)
    by (intros c Hi; apply Hcs; now right).
  assert (Hd : forall x, In x dl <-> below (ns ++ [nm]) x)
    by (intros x; now apply forest_below).
  assert (Hr : forall x, In x rl <-> exists m, component m /\ In (child ns m) cs /\
                                              at_or_below (ns ++ [m]) x)
    by (intros x; now apply forest_in).
  assert (Hdis : forall x, at_or_below (ns ++ [nm]) x -> ~ In x rl).
  { intros x Hx Hi. apply Hr in Hi as (m & Hm & Hi & Hx2).
    pose proof (at_or_below_disjoint _ _ _ _ Hc Hnm Hm Hx Hx2). now subst. }
  constructor.
  - rewrite in_app_iff. intros [Hi|Hi].
    + apply Hd in Hi as (r & Hr1 & Hr2 & E & _). unfold child in E.
      apply abs_path_inj in E; auto; [|apply Forall_app; auto].
      apply (f_equal (@length pystr)) in E. rewrite !app_length in E. cbn in E.
      destruct r; [congruence|cbn in E; lia].
    + apply (Hdis (child ns nm)); auto. now left.
  - apply NoDup_app_intro.
    + apply (IH1 (ns ++ [nm])); auto.
      * apply och_nodup; auto.
      * intros c Hi. unfold child in Hi. apply och_in in Hi; auto.
        apply all_paths_in in Hi; auto. destruct Hi as (m & Hm & -> & _). eauto.
    + apply (IH2 ns); auto.
    + intros x Hx. apply Hdis. right. now apply Hd.
Qed.

(** Parents come before what is below them. *)
Lemma forest_parent_first cs l ns a b r1 r2 :
  forest ch cs l -> Forall component ns -> ns <> [] ->
  (forall c, In c cs -> exists nm, component nm /\ c = child ns nm) ->
  Forall component (r1 ++ r2) -> r1 <> [] -> r2 <> [] ->
  l = a ++ abs_path (ns ++ r1 ++ r2) :: b -> In (abs_path (ns ++ r1)) a.
Proof.
  intros Hf. revert ns a b r1 r2.
  induction Hf as [|c cs dl rl H1 IH1 H2 IH2]; intros ns a b r1 r2 Hc Hne Hcs Hr Hn1 Hn2 E.
  - now destruct a.
  - destruct (Hcs c (or_introl eq_refl)) as (nm & Hnm & ->).
    assert (Hall : Forall component (ns ++ [nm])) by (apply Forall_app; auto).
    assert (Hne2 : ns ++ [nm] <> []) by now destruct ns.
    destruct r1 as [|m r1]; [congruence|].
    destruct a as [|y a].
    { exfalso. cbn in E. injection E as E _. apply abs_path_inj in E; auto.
      - apply app_inv_head in E. injection E as _ E. now destruct r1; [destruct r2|].
      - apply Forall_app; auto. }
    cbn in E. injection E as <- E.
    apply app_eq_app in E as (q & [[Ea Eb]|[Ea Eb]]).
    + (* the element is in dl, or at its boundary *)
      destruct q as [|z q].
      { (* first of rl *)
        cbn in Eb. exfalso. apply (IH2 ns [] b (m :: r1) r2); auto.
        intros c Hi. apply Hcs. now right. }
      cbn in Eb. injection Eb as <- Eb.
      assert (Hb : below (ns ++ [nm]) (abs_path (ns ++ (m :: r1) ++ r2))).
      { apply (forest_below (ns ++ [nm]) dl); auto. rewrite Ea. apply in_or_app. right. now left. }
      destruct Hb as (r & Hrn & Hrc & Ep & _). rewrite <- app_assoc in Ep.
      apply abs_path_inj in Ep; [| now apply Forall_app | apply Forall_app; split; auto; constructor; auto].
      apply app_inv_head in Ep. cbn in Ep. injection Ep as -> Ep.
      destruct r1 as [|k r1].
      * left. reflexivity.
      * right. cbn in Ep.
        specialize (IH1 (ns ++ [nm]) a q (k :: r1) r2 Hall Hne2).
        rewrite <- !app_assoc in IH1. cbn [app] in IH1.
        apply IH1; auto.
        -- intros c Hi. unfold child in Hi. apply och_in in Hi; auto.
           apply all_paths_in in Hi; auto. destruct Hi as (m' & Hm & -> & _). exists m'.
           split; auto.
        -- now inversion Hr.
        -- discriminate.
    + right. subst a. apply in_or_app. right.
      eapply (IH2 ns q b); eauto. intros c Hi. apply Hcs. now right.
Qed.

End Forest.

(** *** World descendants *)

Lemma proper_ancestors_in ns a :
  In a (proper_ancestors ns) <-> a <> [] /\ strict_prefix a ns.
Proof.
  unfold proper_ancestors. rewrite in_map_iff. split.
  - intros (k & <- & Hk). apply in_rev in Hk. apply in_seq in Hk. split.
    + intros E. apply (f_equal (@length pystr)) in E. rewrite firstn_length in E. cbn in E. lia.
    + exists (skipn k ns). split; [|symmetry; apply firstn_skipn].
      intros E. apply (f_equal (@length pystr)) in E. rewrite skipn_length in E. cbn in E. lia.
  - intros (Hne & r & Hr & ->). exists (length a). split.
    + rewrite firstn_app, Nat.sub_diag, firstn_all. cbn. apply app_nil_r.
    + apply in_rev. rewrite rev_involutive. apply in_seq. rewrite app_length.
      destruct a; [congruence|]. destruct r; [congruence|]. cbn. lia.
Qed.

Lemma world_desc_in d incl x :
  wf_nodes d ->
  In x (as_list (world_descendants {| nodes := d; kids := []; implied := [] |} RPath incl)) <->
  exists ns, ns <> [] /\ Forall component ns /\ x = abs_path ns /\
             if incl then known d ns else has d ns.
Proof.
  intros Hwf. unfold world_descendants. cbn [nodes].
  replace (incl && negb (rtype_eqb RPath RPath)) with false by now destruct incl.
  cbn zeta. set (keys := filter _ _).
  assert (Hk : forall k, In k keys <-> exists ns, ns <> [] /\ Forall component ns /\
                                                 k = abs_path ns /\ has d ns).
  { intros k. unfold keys. rewrite filter_In. split.
    - intros [H1 H2]. destruct (wf_key _ _ Hwf H1) as (ns & Hc & ->). exists ns.
      repeat split; auto. intros ->. discriminate.
    - intros (ns & Hne & Hc & -> & H). split; auto. rewrite abs_neq_world; auto. }
  destruct incl; cbn [as_list].
  - rewrite !add_missing_in, in_flat_map. split.
    + intros [[[]|(k & H1 & H2)]|H].
      * apply Hk in H1 as (ns & Hne & Hc & -> & H).
        rewrite all_ancestor_paths_abs' in H2 by auto.
        apply in_map_iff in H2 as (a & <- & Ha).
        apply proper_ancestors_in in Ha as (Ha & r & Hr & ->).
        apply Forall_app in Hc as [Hc1 Hc2]. exists a. repeat split; auto.
        exists r. auto.
      * apply Hk in H as (ns & Hne & Hc & -> & H). exists ns. repeat split; auto.
        exists []. split; auto. now rewrite app_nil_r.
    + intros (ns & Hne & Hc & -> & r & Hr & H). destruct r as [|m r].
      * right. apply Hk. rewrite app_nil_r in H. eauto.
      * left. right. exists (abs_path (ns ++ m :: r)).
        assert (Hall : Forall component (ns ++ m :: r)) by (apply Forall_app; auto).
        split.
        -- apply Hk. exists (ns ++ m :: r). repeat split; auto. now destruct ns.
        -- rewrite all_ancestor_paths_abs' by auto. apply in_map.
           apply proper_ancestors_in. split; auto. exists (m :: r). split; [discriminate|auto].
  - rewrite Hk. reflexivity.
Qed.
