(** C80: when rolling a node back warns that instances diverge (Diverge.v). *)

From Coq Require Import String List NArith ZArith Bool Arith Lia.
From Verif Require Runtime.
From Verif Require Import PyStr PyStrFacts NxtPath PathSpec PathProofs Dict DictFacts Resolve Layer LayerOver LayerOverProofs PyVal NodeIO PyClass Comp CompSpec CompProofs CompTreeProofs CompStageProofs
  StageView StageViewProofs DirtyStageSpec LocalSpec AttrNamesSpec LocalProofs Live Props_Comp Props_CompCases Props_Dirty Props_Infer Infer InferSpec InferProofs Diverge.
Import ListNotations.

Lemma lookup_row_in cs table : names cs -> (forall r, In r table -> fits r) -> NoDup (map fst table) ->
  forall d : data, lookup_row (abs_path cs) table = Some d <-> In d (opinions cs [table]).
Proof.
  intros Hc Hf Nd d. unfold opinions. cbn [concat]. rewrite app_nil_r.
  change (lookup_row (abs_path cs) table = Some d <-> In d (map snd (filter (at_cs cs) table))).
  induction table as [|r table IH].
  - cbn. split; [discriminate|tauto].
  - pose proof (at_cs_path cs Hc r (Hf r (or_introl eq_refl))) as Q0.
    assert (L : lookup_row (abs_path cs) (r :: table) = if at_cs cs r then Some (snd r) else lookup_row (abs_path cs) table).
    { rewrite <- Q0. destruct r as [ns dd]. unfold lookup_row. cbn [List.find fst snd]. now destruct (str_eqb (node_namespace_to_str_path ns) (abs_path cs)). }
    rewrite L. inversion Nd as [|? ? N1 N2]; subst.
    cbn [filter]. destruct (at_cs cs r) eqn:E.
    + cbn [map In]. split; [intros X; injection X as <-; now left|]. intros [<-|X]; [reflexivity|]. exfalso.
      apply in_map_iff in X as (x & _ & X). apply filter_In in X as (X & Q). unfold at_cs in E, Q.
      destruct (list_eq_dec (list_eq_dec N.eq_dec) (fst x) (ns_of cs)) as [Ex|]; [|discriminate].
      destruct (list_eq_dec (list_eq_dec N.eq_dec) (fst r) (ns_of cs)) as [Er|]; [|discriminate].
      apply N1. rewrite Er, <- Ex. now apply in_map.
    + apply IH; auto. intros x Hx. apply Hf. now right.
Qed.
Lemma opinions_split cs layers (d : data) : In d (opinions cs layers) <-> exists t, In t layers /\ In d (opinions cs [t]).
Proof.
  induction layers as [|t layers IH].
  - cbn. split; [tauto|]. intros (x & [] & _).
  - unfold opinions in *. cbn [concat]. rewrite filter_app, map_app, in_app_iff, IH. split.
    + intros [X|(x & I & X)].
      * exists t. split; [now left|]. cbn [concat]. now rewrite app_nil_r.
      * exists x. split; [now right|exact X].
    + intros (x & [<-|I] & X); [left; cbn [concat] in X; now rewrite app_nil_r in X|right; eauto].
Qed.
Lemma fits_inst cs (d : data) table : names cs -> (forall r, In r table -> fits r) -> In d (opinions cs [table]) ->
  value d INSTANCE_PATH = VNone \/ exists j, cs <> [] /\ value d INSTANCE_PATH = VStr j.
Proof.
  intros Hc Hf X. unfold opinions in X. cbn [concat] in X. rewrite app_nil_r in X. apply in_map_iff in X as (r & <- & X).
  apply filter_In in X as (X & Q). destruct (list_eq_dec (list_eq_dec N.eq_dec) (fst r) (ns_of cs)) as [E|]; [|discriminate].
  destruct (Hf r X) as (ds & Hd & Ed & _ & M).
  assert (cs = ds) as <- by (apply path_inj; auto; rewrite <- !ns_path; f_equal; transitivity (fst r); [symmetry; exact E|exact Ed]).
  destruct (rev cs) as [|nm up] eqn:R; [left; apply M|]. assert (cs <> []) by (intros ->; discriminate).
  destruct M as (_ & _ & [M|[M|(rs & _ & M)]]); eauto.
Qed.
Lemma py_eqb_str v j : Runtime.py_eqb v (VStr j) = true <-> v = VStr j.
Proof.
  destruct v; cbn; split; intros X; try discriminate; try (apply str_eqb_eq in X; now subst). injection X as ->. apply str_eqb_refl.
Qed.

(** The warning is given exactly when a node above the one rolled back has an
    instance path in the composed stage and one of the layers rolled back to has
    the node there with another one (an empty one included). *)
Theorem C80_warns :
  forall layers lower H cs, well_formed layers -> stage_of layers H -> well_formed lower -> one_each lower -> names cs -> cs <> [] ->
  check_if_inst_diverges H lower (abs_path cs) = true <->
  exists es d v j, strict_prefix es cs /\ in_stage H es /\ reads H es INSTANCE_PATH = Some v /\ truthy v = true /\
    In d (opinions es lower) /\ value d INSTANCE_PATH = VStr j /\ v <> VStr j.
Proof.
  intros layers lower H cs wf B wfl Oe Hc Hn. unfold check_if_inst_diverges. rewrite existsb_exists.
  assert (Pre : forall es, strict_prefix es cs -> names es) by (intros es (r & _ & ->); exact (proj1 (proj1 (Forall_app _ _ _) Hc))).
  assert (S : forall ap, In ap (rev (all_ancestor_paths (abs_path cs) ++ [WORLD])) <-> exists es, strict_prefix es cs /\ ap = abs_path es).
  { intros ap. rewrite <- in_rev, in_app_iff, all_ancestor_paths_abs' by (eapply Forall_impl; [|exact Hc]; intros ? [K _]; exact K). rewrite in_map_iff. split.
    - intros [(es & <- & X)|[<-|[]]].
      + apply DescProofs.proper_ancestors_in in X as (_ & X). eauto.
      + exists []. split; [exists cs; auto|reflexivity].
    - intros (es & (r & Hr & E) & ->). destruct es as [|e es]; [right; now left|]. left. exists (e :: es). split; auto.
      apply DescProofs.proper_ancestors_in. split; [discriminate|]. exists r; auto. }
  split.
  - intros (ap & I & X). apply S in I as (es & P & ->). apply existsb_exists in X as (t & It & X). pose proof (Pre es P) as He.
    unfold differs_in in X. destruct (lookup_row (abs_path es) t) as [d|] eqn:L; [|discriminate].
    apply (lookup_row_in es t He (fun r Hr => wfl t r It Hr) (Oe t It)) in L.
    apply andb_true_iff in X as (X & Y). apply andb_true_iff in Y as (Y & Z). apply negb_true_iff in X.
    unfold current_instance in *. destruct (truthy (attr H (abs_path es) INSTANCE_PATH)) eqn:T; [|discriminate].
    change (attr_or_none d INSTANCE_PATH) with (value d INSTANCE_PATH) in *.
    destruct (fits_inst es d t He (fun r Hr => wfl t r It Hr) L) as [V|(j & _ & V)]; [rewrite V in Z; discriminate|].
    assert (Hs : in_stage H es).
    { unfold in_stage, here. unfold attr in T. unfold dmem. destruct (dget (abs_path es) (comps H)); [reflexivity|discriminate]. }
    exists es, d, (attr H (abs_path es) INSTANCE_PATH), j. split; [exact P|]. split; [exact Hs|]. split; [apply (C33_internal layers H wf B es INSTANCE_PATH Hs); vm_compute; tauto|].
    split; [exact T|]. split; [apply opinions_split; eauto|]. split; [exact V|]. intros E. rewrite V in X. apply py_eqb_str in E. congruence.
  - intros (es & d & v & j & P & Hs & R & T & I & V & N). pose proof (Pre es P) as He. exists (abs_path es). split; [apply S; eauto|].
    apply existsb_exists. apply opinions_split in I as (t & It & I). exists t. split; [exact It|].
    unfold differs_in. rewrite (proj2 (lookup_row_in es t He (fun r Hr => wfl t r It Hr) (Oe t It) d) I).
    rewrite (C33_internal layers H wf B es INSTANCE_PATH Hs) in R by (vm_compute; tauto). injection R as R.
    unfold current_instance. rewrite R, T. change (attr_or_none d INSTANCE_PATH) with (value d INSTANCE_PATH). rewrite V.
    assert (Q : Runtime.py_eqb v (VStr j) = false) by (apply not_true_iff_false; intros K; apply N; now apply py_eqb_str).
    rewrite Q. cbn [negb andb has_opinion]. destruct v as [| | | |[|]| | |]; try reflexivity; discriminate.
Qed.
Print Assumptions C80_warns.

(** Nothing is said when all layers rolled back to agree with the composed
    stage above the node. *)
Theorem C80_silent :
  forall layers lower H cs, well_formed layers -> stage_of layers H -> well_formed lower -> one_each lower -> names cs -> cs <> [] ->
  (forall es d, strict_prefix es cs -> In d (opinions es lower) ->
     value d INSTANCE_PATH = VNone \/ reads H es INSTANCE_PATH = Some (value d INSTANCE_PATH)) ->
  check_if_inst_diverges H lower (abs_path cs) = false.
Proof.
  intros layers lower H cs wf B wfl Oe Hc Hn A. apply not_true_iff_false. intros X.
  apply (C80_warns layers lower H cs wf B wfl Oe Hc Hn) in X as (es & d & v & j & P & _ & R & _ & I & V & N).
  destruct (A es d P I) as [E|E]; rewrite V in E; [discriminate|]. congruence.
Qed.
Print Assumptions C80_silent.

(** t is an instance of r above and of s below. *)
Definition div_low : list (list layer_row) :=
  [[world_row "low"; row "low" [] "s" (user "x" "1"); row "low" [s_] "c" (user "y" "2"); row "low" [] "r" (user "x" "3");
    row "low" [r_] "c" (user "y" "4"); row "low" [] "t" (instance "/s")]].
Definition div_top : list (list layer_row) := [[world_row "top"; row "top" [] "t" (instance "/r")]].
Local Ltac name_ok := repeat (constructor; [split; [split; [discriminate|vm_compute; intuition discriminate]|vm_compute; intuition discriminate]|]); constructor.
Local Ltac fits_in := intros l0 r0 Hl Hr; repeat destruct Hl as [<-|Hl]; try contradiction; cbn [In] in Hr; repeat destruct Hr as [<-|Hr]; try contradiction; try apply world_fits; (apply row_fits; [name_ok| |reflexivity]; try (left; reflexivity)); right.

(** A child of it is warned about. *)
Example C80_sample : well_formed (div_top ++ div_low) /\ stage_of (div_top ++ div_low) (composed (div_top ++ div_low)) /\ well_formed div_low /\ one_each div_low /\
  names [t_; c_] /\ check_if_inst_diverges (composed (div_top ++ div_low)) div_low (lit "/t/c") = true /\
  check_if_inst_diverges (composed div_low) div_low (lit "/t/c") = false.
Proof.
  split; [fits_in; first [exists [s_]; (split; [name_ok|reflexivity])|exists [r_]; (split; [name_ok|reflexivity])]|].
  split; [apply composed_built; vm_compute; reflexivity|].
  split; [fits_in; first [exists [s_]; (split; [name_ok|reflexivity])|exists [r_]; (split; [name_ok|reflexivity])]|].
  split; [apply Props_Infer.one_each_spec; vm_compute; reflexivity|]. split; [name_ok|]. split; vm_compute; reflexivity.
Qed.

(** The node's own instance path is not looked at: the one node whose source
    changes is rolled back without a warning. *)
Theorem C80_own_refuted :
  stage_of (div_top ++ div_low) (composed (div_top ++ div_low)) /\
  reads (composed (div_top ++ div_low)) [t_] INSTANCE_PATH = Some (VStr (lit "/r")) /\
  map (fun d => value d INSTANCE_PATH) (opinions [t_] div_low) = [VStr (lit "/s")] /\
  check_if_inst_diverges (composed (div_top ++ div_low)) div_low (lit "/t") = false.
Proof. split; [apply composed_built; vm_compute; reflexivity|]. repeat split; vm_compute; reflexivity. Qed.
Print Assumptions C80_own_refuted.
