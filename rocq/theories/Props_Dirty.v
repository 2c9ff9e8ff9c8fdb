(** C58: the nodes reported as depending on a node. *)

From Coq Require Import String List NArith ZArith Bool Arith Lia Relations.
From Verif Require Import PyStr PyStrFacts NxtPath PathSpec PathProofs Dict DictFacts ListMerger SortRows Layer PyVal NodeIO PyClass
  Comp CompSpec CompProofs CompPostProofs CompTreeProofs CompStageProofs CompTotalProofs StageView StageViewProofs LiveSpec CompLiveProofs CompSimProofs CarrySpec CarryProofs Props_CompCases Props_Carry DirtyStageSpec DirtyStageProofs.
Import ListNotations.
Local Ltac name_ok := repeat (constructor; [split; [split; [discriminate|vm_compute; intuition discriminate]|vm_compute; intuition discriminate]|]); constructor.

(** When every node's parent is in some layer, no layer has nodes below an
    instance and no node instances a node above itself, the paths reported for a
    path other than the world's are those of the nodes of the stage that name
    the path as their instance source, themselves or through their sources. *)
Theorem C58_dirties :
  forall layers H cs d, well_formed layers -> gapless layers -> pure layers -> no_ancestor_sources layers -> stage_of layers H -> names cs -> cs <> [] ->
  In d (dirties H (abs_path cs)) <-> exists es, names es /\ d = abs_path es /\ relies H es cs.
Proof. intros layers H cs d wf Gl Pu Na (fuel & top & one & B). exact (dirties_relies layers fuel top one H wf Gl Pu Na B cs d). Qed.
Print Assumptions C58_dirties.

(** In every stage each path is reported once. *)
Theorem C58_once : forall layers H p, stage_of layers H -> NoDup (dirties H p).
Proof. intros layers H p (fuel & top & one & B). exact (stage_nodup fuel top one layers H p B). Qed.
Print Assumptions C58_once.

(** So after an edit of a node's code the nodes to look at again are the node
    and those reported: everywhere else a new composition gives the same. *)
Theorem C58_covers :
  forall cs fuel top_real one_object layers layers' H H', well_formed layers -> well_formed layers' -> gapless layers -> pure layers -> no_ancestor_sources layers -> names cs -> cs <> [] ->
  Forall2 (Forall2 (edited COMPUTE cs)) layers layers' -> build_stage fuel top_real one_object layers = Built H -> build_stage fuel top_real one_object layers' = Built H' ->
  forall es, names es -> in_stage H es -> es <> cs -> ~ In (abs_path es) (dirties H (abs_path cs)) -> reads H es COMPUTE = reads H' es COMPUTE.
Proof.
  intros cs fuel top one layers layers' H H' wf wf' Gl Pu Na Hc Hcn D B B' es He Hh Hne Hd. destruct (C57_local COMPUTE cs fuel top one layers layers' H wf wf' Hc) as (H2 & B2 & L); auto; [cbn; tauto|].
  rewrite B' in B2. injection B2 as <-. apply (L es He); auto. right. intros T. apply Hd. apply (C58_dirties layers H cs); auto; [now exists fuel, top, one|]. exists es. split; [exact He|]. split; [reflexivity|].
  clear Hd Hne L. unfold relies. apply clos_trans_t1n in T. revert He Hh.
  induction T as [es rs (A & C & E & G)|es rs cs (A & C & E & G) T IH]; intros He Hh.
  - apply t_step. split; auto.
  - apply t_trans with rs; [apply t_step; split; auto|]. apply IH; auto.
Qed.
Print Assumptions C58_covers.

(** ** Examples *)

Definition low_sources (layers : list (list layer_row)) : bool :=
  forallb (fun r => match value (snd r) INSTANCE_PATH with VStr s => negb (startswith (s ++ NODE_SEP) (node_namespace_to_str_path (fst r))) | _ => true end) (concat layers).
Lemma low_sources_spec layers : low_sources layers = true -> no_ancestor_sources layers.
Proof.
  intros L cs rs Hc Hr Hrn (m & Sp & Em) A. apply speaks_in in Sp. destruct (opinion_of _ _ _ Sp) as (r & Hin & E & <-). unfold low_sources in L. rewrite forallb_forall in L. specialize (L r Hin).
  assert (Q : startswith (abs_path rs ++ NODE_SEP) (abs_path cs) = true).
  { pose proof (is_ancestor_abs cs rs (names_comp _ Hc) (names_comp _ Hr)) as (_ & X). specialize (X (or_intror A)). unfold is_ancestor in X. destruct (str_eqb (abs_path rs) WORLD) eqn:W; [|exact X].
    apply str_eqb_eq in W. apply path_world in W; [congruence|exact Hr]. }
  pose proof (eq_ind _ (fun v => match v with VStr s => negb (startswith (s ++ NODE_SEP) (node_namespace_to_str_path (fst r))) | _ => true end = true) L _ Em) as L2. cbn beta iota in L2. rewrite E, ns_path in L2.
  rewrite Q in L2. discriminate.
Qed.
(** t and u take from s, and w from u; so do their proxies from s's children. *)
Example C58_two : well_formed two /\ gapless two /\ pure two /\ no_ancestor_sources two /\ stage_of two two_stage /\
  dirties two_stage (abs_path [s_]) = [abs_path [t_]; abs_path [r_; u_]; abs_path [r_; w_]] /\
  dirties two_stage (abs_path [s_; c_]) = [abs_path [t_; c_]; abs_path [r_; u_; c_]; abs_path [r_; w_; c_]] /\ dirties two_stage (abs_path [t_]) = [].
Proof.
  split; [exact C32_two_fits|]. split; [apply C43_two_gapless|]. split; [apply C43_two_gapless|]. split; [|split; [exact C32_two_built|split; [|split]; vm_compute; reflexivity]].
  apply low_sources_spec. vm_compute. reflexivity.
Qed.

(** ** Where the map is not exact *)

Local Ltac fits_all l := intros l0 r0 [<-|[]] Hr; unfold l in Hr; repeat destruct Hr as [<-|Hr]; try contradiction; try apply world_fits; (apply row_fits; [name_ok| |reflexivity]; try (left; reflexivity)); right.

(** A layer has a node below an instance: the node was registered with its own
    source before the composition gave it another one. *)
Theorem C58_stale_refuted :
  exists layers H cs es, well_formed layers /\ gapless layers /\ no_ancestor_sources layers /\ stage_of layers H /\ names cs /\ cs <> [] /\ names es /\
    In (abs_path es) (dirties H (abs_path cs)) /\ ~ relies H es cs.
Proof.
  exists relinked, relinked_stage, [q_], [a_; p_]. split; [|split; [|split; [|split; [|split; [|split; [|split; [|split]]]]]]].
  - fits_all relinked.
    + exists [b_]. split; [name_ok|reflexivity].
    + exists [q_]. split; [name_ok|reflexivity].
    + exists [lit "z"]. split; [name_ok|reflexivity].
  - apply gap_free_gapless. vm_compute. reflexivity.
  - apply low_sources_spec. vm_compute. reflexivity.
  - exists 9, (VStr (lit "g")), false; vm_compute; reflexivity.
  - name_ok.
  - discriminate.
  - name_ok.
  - vm_compute. tauto.
  - assert (N2 : names [b_; p_]) by name_ok. assert (N3 : names [q_]) by name_ok.
    assert (First : forall x, names x -> points relinked_stage [a_; p_] x -> x = [b_; p_]).
    { intros x Hx (_ & _ & I). assert (E : reads relinked_stage [a_; p_] INSTANCE_PATH = Some (VStr (abs_path [b_; p_]))) by (vm_compute; reflexivity). rewrite E in I.
      apply path_inj; [exact Hx|exact N2|]. congruence. }
    assert (Last : forall x, ~ points relinked_stage [b_; p_] x) by (intros x (_ & _ & I); vm_compute in I; discriminate).
    intros T. apply clos_trans_t1n in T. inversion T as [x I|x y I T2]; subst.
    + apply First in I; [discriminate|exact N3].
    + assert (Hx : names x) by (inversion T2 as [z I2|z z2 I2 _]; subst; apply I2). apply First in I; [subst x|exact Hx]. inversion T2 as [x I2|x y I2 _]; now apply Last in I2.
Qed.
Print Assumptions C58_stale_refuted.

(** ... and if nothing else is to be made it is not registered with that one:
    editing the source's code changes the node's, and it is not reported. *)
Definition unregistered : list (list layer_row) :=
  [[world_row "g"; row "g" [] "a" (instance "/b"); row "g" [a_] "p" (instance "/q"); row "g" [] "b" (instance "/z"); row "g" [b_] "p" [(lit "code", VList [VStr (lit "one")])];
    row "g" [] "q" []; row "g" [] "z" []]].
Definition unregistered_stage : heap := Eval vm_compute in match build_stage 9 (VStr (lit "g")) false unregistered with Built H => H | _ => {| specs := []; comps := []; dirty := [] |} end.
Theorem C58_missed_refuted :
  exists layers layers' H H' cs es, well_formed layers /\ well_formed layers' /\ gapless layers /\ no_ancestor_sources layers /\ Forall2 (Forall2 (edited COMPUTE cs)) layers layers' /\
    stage_of layers H /\ stage_of layers' H' /\ names cs /\ cs <> [] /\ names es /\ in_stage H es /\ es <> cs /\ points H es cs /\
    ~ In (abs_path es) (dirties H (abs_path cs)) /\ reads H es COMPUTE <> reads H' es COMPUTE.
Proof.
  set (layers' := rewrite_all COMPUTE [b_; p_] (VList [VStr (lit "two")]) unregistered).
  set (H' := match build_stage 9 (VStr (lit "g")) false layers' with Built H => H | _ => {| specs := []; comps := []; dirty := [] |} end).
  assert (wf : well_formed unregistered).
  { fits_all unregistered.
    - exists [b_]. split; [name_ok|reflexivity].
    - exists [q_]. split; [name_ok|reflexivity].
    - exists [lit "z"]. split; [name_ok|reflexivity]. }
  exists unregistered, layers', unregistered_stage, H', [b_; p_], [a_; p_]. split; [exact wf|]. split; [apply rewrite_all_fits; [vm_compute; intuition discriminate|exact wf]|].
  split; [apply gap_free_gapless; vm_compute; reflexivity|]. split; [apply low_sources_spec; vm_compute; reflexivity|]. split; [apply rewrite_all_edited|].
  split; [exists 9, (VStr (lit "g")), false; vm_compute; reflexivity|]. split; [exists 9, (VStr (lit "g")), false; vm_compute; reflexivity|]. split; [name_ok|]. split; [discriminate|]. split; [name_ok|].
  split; [vm_compute; reflexivity|]. split; [discriminate|]. split; [split; [name_ok|split; vm_compute; reflexivity]|]. split; vm_compute; [tauto|discriminate].
Qed.
Print Assumptions C58_missed_refuted.

(** A node that instances the node above it is not reported for it, though it
    has its code. *)
Definition upward : list (list layer_row) :=
  [[world_row "g"; row "g" [] "a" [(lit "code", VList [VStr (lit "one")])]; row "g" [a_] "p" (instance "/a")]].
Definition upward_stage : heap := Eval vm_compute in match build_stage 9 (VStr (lit "g")) false upward with Built H => H | _ => {| specs := []; comps := []; dirty := [] |} end.
Theorem C58_ancestor_refuted :
  exists layers layers' H H' cs es, well_formed layers /\ well_formed layers' /\ gapless layers /\ pure layers /\ Forall2 (Forall2 (edited COMPUTE cs)) layers layers' /\
    stage_of layers H /\ stage_of layers' H' /\ names cs /\ cs <> [] /\ names es /\ in_stage H es /\ es <> cs /\ points H es cs /\
    ~ In (abs_path es) (dirties H (abs_path cs)) /\ reads H es COMPUTE <> reads H' es COMPUTE.
Proof.
  set (layers' := rewrite_all COMPUTE [a_] (VList [VStr (lit "two")]) upward).
  set (H' := match build_stage 9 (VStr (lit "g")) false layers' with Built H => H | _ => {| specs := []; comps := []; dirty := [] |} end).
  assert (wf : well_formed upward).
  { fits_all upward. exists [a_]. split; [name_ok|reflexivity]. }
  exists upward, layers', upward_stage, H', [a_], [a_; p_]. split; [exact wf|]. split; [apply rewrite_all_fits; [vm_compute; intuition discriminate|exact wf]|].
  split; [apply gap_free_gapless; vm_compute; reflexivity|]. split; [apply pure_rows_pure; vm_compute; reflexivity|]. split; [apply rewrite_all_edited|].
  split; [exists 9, (VStr (lit "g")), false; vm_compute; reflexivity|]. split; [exists 9, (VStr (lit "g")), false; vm_compute; reflexivity|]. split; [name_ok|]. split; [discriminate|]. split; [name_ok|].
  split; [vm_compute; reflexivity|]. split; [discriminate|]. split; [split; [name_ok|split; vm_compute; reflexivity]|]. split; vm_compute; [tauto|discriminate].
Qed.
Print Assumptions C58_ancestor_refuted.

(** The source has a node two levels down, and no layer has the one between:
    its proxy is taken out of the stage again but is still reported. *)
Definition hollow : list (list layer_row) :=
  [[world_row "g"; row "g" [] "s" []; row "g" [s_; c_] "d" []; row "g" [] "t" (instance "/s")]].
Definition hollow_stage : heap := Eval vm_compute in match build_stage 9 (VStr (lit "g")) false hollow with Built H => H | _ => {| specs := []; comps := []; dirty := [] |} end.
Theorem C58_gone_refuted :
  exists layers H cs es, well_formed layers /\ pure layers /\ no_ancestor_sources layers /\ stage_of layers H /\ names cs /\ cs <> [] /\
    In (abs_path es) (dirties H (abs_path cs)) /\ ~ in_stage H es.
Proof.
  exists hollow, hollow_stage, [s_; c_], [t_; c_]. split; [|split; [|split; [|split; [|split; [|split; [|split]]]]]].
  - fits_all hollow. exists [s_]. split; [name_ok|reflexivity].
  - apply pure_rows_pure. vm_compute. reflexivity.
  - apply low_sources_spec. vm_compute. reflexivity.
  - exists 9, (VStr (lit "g")), false; vm_compute; reflexivity.
  - name_ok.
  - discriminate.
  - vm_compute. tauto.
  - vm_compute. discriminate.
Qed.
Print Assumptions C58_gone_refuted.
