(** Proofs about giving a node of a composed stage an instance source. *)

From Coq Require Import String List NArith ZArith Bool Arith Lia Relations.
From Verif Require Import PyStr PyStrFacts NxtPath PathSpec PathProofs Dict DictFacts ListMerger SortRows Layer PyVal NodeIO NodeIOProofs PyClass PyClassSpec PyClassProofs
  Comp CompSpec CompProofs CompProxyProofs CompPostProofs CompLookProofs CompTreeProofs CompOrderProofs CompStageProofs StageView StageViewProofs DirtyStageSpec DirtyStageProofs
  Props_Comp LocalSpec MroRelProofs LocalProofs Props_Local Props_Dirty Live Arcs ArcsProofs AddNode AddNodeProofs SetInst SetInstSpec.
From Verif Require Opinions OpinionsProofs Runtime.
Import ListNotations.

(** *** The two stages *)
Section Stages.
Variables (layers layers' : list (list layer_row)) (H H' : heap) (ps : list pystr) (nm : pystr) (rs : list pystr) (rp : pystr) (d d' : data) (st wk : list data).
Let cs := ps ++ [nm].
Let p := abs_path cs.
Hypotheses (Rg : regular layers) (Rg' : regular layers') (B : stage_of layers H) (B' : stage_of layers' H').
Hypothesis Hc : names cs.
Hypothesis Hr : names rs.
Hypothesis Hrn : rs <> [].
Hypothesis Ed : redirected cs rs (VStr rp) d d'.
Hypothesis Eo : opinions cs layers = st ++ d :: wk.
Hypothesis Eo' : opinions cs layers' = st ++ d' :: wk.
Hypothesis Else : forall es, names es -> es <> cs -> opinions es layers' = opinions es layers.
Hypothesis Sil : silent INSTANCE_PATH (opinions cs layers).
Hypothesis leaf : forall xs, names xs -> xs <> [] -> ~ in_stage H (cs ++ xs).
Hypothesis bare : forall xs, names xs -> xs <> [] -> ~ in_stage H (rs ++ xs).
Hypothesis unseen : forall es, ~ points H es cs.
Let wf := r_fits layers Rg.
Let Gl := r_gapless layers Rg.
Let Pu := r_pure layers Rg.
Let wf' := r_fits layers' Rg'.
Let Gl' := r_gapless layers' Rg'.
Let Pu' := r_pure layers' Rg'.

Lemma Ho : opinions cs layers <> []. Proof. rewrite Eo. destruct st; discriminate. Qed.
Lemma Ho' : opinions cs layers' <> []. Proof. rewrite Eo'. destruct st; discriminate. Qed.
Lemma cs_here : in_stage H cs. Proof. exact (C32_conserved layers H wf B cs Hc Ho). Qed.
Lemma cs_here' : in_stage H' cs. Proof. exact (C32_conserved layers' H' wf' B' cs Hc Ho'). Qed.
Lemma nil_cs : [] <> cs. Proof. unfold cs. destruct ps; discriminate. Qed.
Lemma ps_cs : ps <> cs. Proof. unfold cs. intros E. apply (f_equal (@length _)) in E. rewrite app_length in E. cbn in E. lia. Qed.
Lemma Hps : names ps. Proof. now apply names_snoc in Hc. Qed.
Lemma Hnm : plain_name nm. Proof. now apply names_snoc in Hc. Qed.
Lemma said_else es : names es -> es <> cs -> said_alike layers layers' es.
Proof. intros He Ne. unfold said_alike. rewrite (Else es He Ne). apply near_refl. Qed.
Lemma worlds : opinions [] layers = [] <-> opinions [] layers' = [].
Proof. rewrite (Else [] (Forall_nil _) nil_cs). tauto. Qed.
Lemma new_source_in : source_in layers' cs rs.
Proof.
  exists d'. split; [|apply Ed]. exists st, wk. split; [exact Eo'|]. split; [destruct Ed as (-> & _); split; discriminate|]. intros m Hm. apply Sil. rewrite Eo. apply in_or_app. now left.
Qed.
Lemma cs_source' : reads H' cs INSTANCE_PATH = Some (VStr (abs_path rs)).
Proof. apply (C34_instance_path layers' H' wf' B' cs rs Hc (one_pure layers' Rg' cs Hc) Ho' Hr Hrn). exact new_source_in. Qed.
Lemma rs_low : ~ strict_prefix rs cs.
Proof. exact (r_low layers' Rg' cs rs Hc Hr Hrn new_source_in). Qed.
Lemma rs_not_cs : rs <> cs.
Proof.
  intros E. assert (I : instances H' cs rs) by (split; [exact Hr|]; split; [exact Hrn|]; split; [rewrite E; exact cs_here'|exact cs_source']).
  pose proof (one_source_tall layers' H' Rg' B' cs rs cs_here' I) as T. rewrite E in T. lia.
Qed.
Lemma rs_not_ps : rs <> ps.
Proof. intros E. apply rs_low. exists [nm]. split; [discriminate|]. unfold cs. now rewrite E. Qed.
Lemma no_source_yet ts : ~ instances H cs ts.
Proof.
  intros (Ht & Htn & _ & E). apply (C34_instance_path layers H wf B cs ts Hc (one_pure layers Rg cs Hc) Ho Ht Htn) in E as (m & (a & b & E & S & _) & _). apply (Sil m); [|exact S]. rewrite E. apply in_or_app. right. now left.
Qed.

(** Every other node of the new stage was there, instancing the same. *)
Lemma into : forall k es, tall H' (Co (abs_path es)) < k -> names es -> in_stage H' es -> es <> cs ->
  in_stage H es /\ forall ts, names ts -> ts <> [] -> reads H' es INSTANCE_PATH = Some (VStr (abs_path ts)) -> reads H es INSTANCE_PATH = Some (VStr (abs_path ts)).
Proof.
  induction k as [|k IH]; intros es Hk He Hh Ne; [lia|]. pose proof (said_else es He Ne) as Al. destruct (opinions es layers') as [|m l] eqn:Em.
  - destruct (removelast_snoc' es) as [->|(qs & nm' & ->)]; [exfalso; now apply (proj1 (one_root layers' H' Rg' B')) in Hh|].
    destruct (one_proxy layers' H' Rg' B' qs nm' He Hh Em) as (ts & Hq & K & I & I' & _). pose proof (parent_names H' _ _ He K) as (Hqn & _).
    assert (T1 : tall H' (Co (abs_path qs)) < k) by (pose proof (one_parent_tall layers' H' Rg' B' _ _ He Hh K); lia). pose proof (one_source_tall layers' H' Rg' B' _ _ Hq I) as T2. pose proof (one_source_tall layers' H' Rg' B' _ _ Hh I') as T3.
    pose proof I as (Ht & Htn & Hth & Et). pose proof I' as (Ht' & _ & Hth' & Et').
    assert (Hx : names [nm']) by (unfold names in *; apply Forall_app in He as (_ & He'); exact He').
    assert (Nq : qs <> cs).
    { intros Eq. rewrite Eq, cs_source' in Et. injection Et as Et. apply path_inj in Et; auto. subst ts. destruct (list_eq_dec (list_eq_dec N.eq_dec) (rs ++ [nm']) cs) as [E|N].
      - apply rs_low. exists [nm']. split; [discriminate|]. now rewrite E.
      - destruct (IH (rs ++ [nm']) ltac:(lia) Ht' Hth' N) as (Q & _). now apply (bare [nm'] Hx) in Q. }
    destruct (IH qs T1 Hqn Hq Nq) as (Q1 & Q2). specialize (Q2 ts Ht Htn Et).
    assert (Nt : ts <> cs) by (intros ->; apply (unseen qs); repeat split; auto). destruct (IH ts ltac:(lia) Ht Hth Nt) as (R1 & _).
    assert (I0 : instances H qs ts) by (repeat split; auto).
    assert (S1 : in_stage H (ts ++ [nm'])). { destruct (list_eq_dec (list_eq_dec N.eq_dec) (ts ++ [nm']) cs) as [E|N]; [rewrite E; exact cs_here|]. now apply (IH (ts ++ [nm']) ltac:(lia) Ht' Hth' N). }
    destruct (C43_mirror layers H wf B Gl Pu qs ts Hqn Q1 I0 (one_not_above layers H Rg B qs ts Hqn Q1 I0) [nm'] Hx) as (M1 & M2). apply M1 in S1. split; [exact S1|].
    intros us Hu Hun Eu. rewrite Et' in Eu. injection Eu as Eu. rewrite <- Eu. apply M2, S1.
  - assert (Hoe' : opinions es layers' <> []) by (rewrite Em; discriminate). assert (Hoe : opinions es layers <> []) by (rewrite <- (Else es He Ne); exact Hoe'). split; [now apply (C32_conserved layers H wf B)|]. intros ts Ht Htn E.
    apply (C34_instance_path layers' H' wf' B' es ts He (one_pure layers' Rg' es He) Hoe' Ht Htn) in E. apply (C34_instance_path layers H wf B es ts He (one_pure layers Rg es He) Hoe Ht Htn).
    now apply (alike_source layers' layers es ts (said_sym _ _ _ Al)).
Qed.
Lemma was_there es : names es -> in_stage H' es -> in_stage H es.
Proof.
  intros He Hh. destruct (list_eq_dec (list_eq_dec N.eq_dec) es cs) as [->|Ne]; [exact cs_here|]. exact (proj1 (into (S (tall H' (Co (abs_path es)))) es (Nat.lt_succ_diag_r _) He Hh Ne)).
Qed.
Lemma child_not es : names es -> in_stage H es -> ~ parent H es cs.
Proof.
  intros He Hh (k & K1 & K2 & _). rewrite <- (firstn_skipn k es) in Hh. rewrite <- K2 in Hh. revert Hh. apply leaf.
  - unfold names in *. rewrite <- (firstn_skipn k es) in He. now apply Forall_app in He.
  - intros Q. apply (f_equal (@length _)) in Q. rewrite skipn_length in Q. cbn in Q. lia.
Qed.
Lemma no_draw es fs : draws H es fs -> names es -> in_stage H es -> es <> cs -> fs <> cs.
Proof.
  induction 1 as [es|es qs fs K D IH|es ts fs I D IH]; intros He Hh Ne; [exact Ne| |].
  - destruct (parent_names H es qs He K) as (Hq & Hqh). apply IH; auto. intros ->. exact (child_not es He Hh K).
  - pose proof I as (Ht & _ & Hth & E). apply IH; auto. intros ->. apply (unseen es). repeat split; auto.
Qed.
Lemma else_al es : names es -> in_stage H es -> es <> cs -> forall fs, draws H es fs -> said_alike layers layers' fs.
Proof. intros He Hh Ne fs D. apply said_else; [now apply (draws_names H es fs D)|]. exact (no_draw es fs D He Hh Ne). Qed.
Lemma else_new es : names es -> in_stage H es -> es <> cs -> forall fs ts, draws H es fs -> names ts -> ts <> [] -> reads H fs INSTANCE_PATH = Some (VStr (abs_path ts)) -> in_stage H' ts -> in_stage H ts.
Proof. intros He Hh Ne fs ts _ Ht _ _ Hth. now apply was_there. Qed.
Lemma else_same es fs : names es -> in_stage H es -> es <> cs -> draws H es fs -> same layers H H' fs.
Proof. intros He Hh Ne D. exact (all_same layers layers' H H' Rg Rg' B B' worlds es He Hh (else_al es He Hh Ne) (else_new es He Hh Ne) fs D). Qed.
Lemma is_there es : names es -> in_stage H es -> in_stage H' es.
Proof. intros He Hh. destruct (list_eq_dec (list_eq_dec N.eq_dec) es cs) as [->|Ne]; [exact cs_here'|]. exact (s_here _ _ _ _ (else_same es es He Hh Ne (draws_self H es))). Qed.
Lemma else_reads es a : names es -> in_stage H es -> es <> cs -> asked a -> reads H' es a = reads H es a.
Proof.
  intros He Hh Ne Ha. destruct (C61_local layers layers' H H' es Rg Rg' B B' He Hh worlds (else_al es He Hh Ne) (else_new es He Hh Ne)) as (_ & _ & _ & C & _). now apply C.
Qed.
Lemma else_draws es fs : names es -> in_stage H es -> es <> cs -> draws H es fs <-> draws H' es fs.
Proof. intros He Hh Ne. exact (draws_same layers layers' H H' Rg Rg' B B' worlds es He Hh (else_al es He Hh Ne) (else_new es He Hh Ne) es fs (draws_self H es)). Qed.

(** Nobody relies on the node or on its parent. *)
Lemma quiet_p : dirties H p = [].
Proof. apply (no_reliers layers H Rg B cs Hc); [intros E; now apply nil_cs|exact unseen]. Qed.
Lemma quiet_pp : dirties H (abs_path ps) = [].
Proof.
  destruct (list_eq_dec (list_eq_dec N.eq_dec) ps []) as [->|Np]; [exact (world_reliers layers H B)|]. apply (no_reliers layers H Rg B ps Hps Np). intros es (He & Hh & E).
  destruct (C43_parent_there layers H wf B Gl ps nm Hc cs_here) as [Z|Hp]; [contradiction|]. assert (I : instances H es ps) by (repeat split; auto; exact Hps).
  assert (Hx : names [nm]) by (constructor; [exact Hnm|constructor]).
  destruct (C43_mirror layers H wf B Gl Pu es ps He Hh I (one_not_above layers H Rg B es ps He Hh I) [nm] Hx) as (M1 & M2). pose proof (proj2 M1 cs_here) as Q. apply M2 in Q as (_ & _ & _ & Q).
  apply (unseen (es ++ [nm])). split; [apply Forall_app; auto|]. split; [apply M1; exact cs_here|exact Q].
Qed.
End Stages.

(** *** The run *)
Definition silent_in (H : heap) (is : list nat) (a : pystr) : Prop := forall j, In j is -> has_opinion (ref_attr H (Sp j) a) = false.
Definition moved (a : pystr) : Prop := a = INSTANCE_PATH \/ a = source_of INSTANCE_PATH.
Definition free (H : heap) (is : list nat) (a : pystr) : Prop :=
  moved a \/ a = CHILD_ORDER \/ exists b, In b INSTANCE_ATTRS /\ silent_in H is b /\ (a = b \/ a = source_of b).
Section Run.
Variables (H : heap) (ps : list pystr) (nm : pystr) (rs : list pystr) (i : nat) (n0 : node) (real : pyval) (is : list nat) (rest0 : list ref).
Let cs := ps ++ [nm].
Let p := abs_path cs.
Let pp := abs_path ps.
Let q0 := abs_path rs.
Let v := VStr q0.
Let par := if here H pp then [Co pp] else [].
Let put := dset (INSTANCE_PATH ++ META_SOURCE) (VTuple [real; VStr p]) (dset INSTANCE_PATH v n0).
Hypothesis So : sound H.
Hypothesis Hc : names cs.
Hypothesis Hr : names rs.
Hypothesis Hrn : rs <> [].
Hypothesis Hrc : rs <> cs.
Hypothesis low : ~ strict_prefix rs cs.
Hypothesis Hh : here H p = true.
Hypothesis Hrh : here H q0 = true.
Hypothesis quiet_p : dirties H p = [].
Hypothesis quiet_pp : dirties H pp = [].
Hypothesis linked : ps = [] \/ here H pp = true.
Hypothesis Epp : attr H p PARENT_PATH = VStr pp.
Hypothesis Enm : attr H p NAME = VStr nm.
Hypothesis Eold : attr H p INSTANCE_PATH = VNone.
Hypothesis Ebs : bs H (Co p) = map Sp is ++ par.
Hypothesis His : In i is.
Hypothesis Ei : nth_error (specs H) i = Some n0.
Hypothesis mine : forall q, q <> p -> ~ In (Sp i) (bs H (Co q)).
Hypothesis nobody : forall q, ~ In (Co p) (bs H (Co q)).
Hypothesis Eip : path_of H (Sp i) = p.
Hypothesis Ckp : here H pp = true -> check_path H (Co pp) = pp.
Hypothesis Ckr : check_path H (Co q0) = q0.
Hypothesis Cks : forall j, In j is -> check_path H (Sp j) = p.
Hypothesis bare : forall k, here H k = true -> parent_of H k <> q0 /\ is_ancestor k q0 = false.
Hypothesis weaker : Opinions.has_stronger_opinion H p INSTANCE_PATH real = Ok false.
Hypothesis loud : forall a, In a INSTANCE_ATTRS -> silent_in H is a \/ has_opinion (attr H p a) = true.
Hypothesis Esafe : safe_bases H (map Sp is ++ par) q0 = map Sp is ++ rest0.
Hypothesis fits : forall Y, length (specs Y) = length (specs H) -> dkeys (comps Y) = dkeys (comps H) -> (forall q, q <> p -> bs Y (Co q) = bs H (Co q)) ->
  bs Y (Co p) = map Sp is ++ rest0 ++ [Co q0] -> exists l, mro_of Y (Co p) = Some l.

Record reach (Y : heap) : Prop := {
  y_specs : specs Y = specs (with_spec H i put);
  y_keys : dkeys (comps Y) = dkeys (comps H);
  y_bs : forall q, q <> p -> bs Y (Co q) = bs H (Co q);
  y_first : exists r, bs Y (Co p) = map Sp is ++ r;
  y_else : forall q a, q <> p -> own_attr Y a (Co q) = own_attr H a (Co q);
  y_own : forall a, ~ free H is a -> own_attr Y a (Co p) = own_attr H a (Co p);
  y_inst : own_attr Y INSTANCE_PATH (Co p) = Some v;
  y_src : own_attr Y (source_of INSTANCE_PATH) (Co p) = Some (VTuple [real; VStr p]) }.

Lemma q0_p : q0 <> p. Proof. intros E. apply path_inj in E; auto. Qed.
Lemma pp_p : pp <> p. Proof. exact (pp_neq ps nm Hc). Qed.
Lemma rs_ps : rs <> ps. Proof. intros E. apply low. exists [nm]. split; [discriminate|]. unfold cs. now rewrite E. Qed.
Lemma q0_pp : q0 <> pp. Proof. intros E. apply path_inj in E; auto; [now apply rs_ps|now apply Forall_app in Hc]. Qed.
Lemma i_lt : i < length (specs H). Proof. apply nth_error_Some. congruence. Qed.
Lemma y_len Y : reach Y -> length (specs Y) = length (specs H).
Proof. intros R. rewrite (y_specs _ R). now apply with_spec_length, i_lt. Qed.
Lemma y_here Y q : reach Y -> here Y q = here H q.
Proof. intros R. pose proof (y_keys _ R) as K. destruct (here H q) eqn:E; [|apply not_true_iff_false; apply not_true_iff_false in E]; rewrite here_In in *; now rewrite K. Qed.
Lemma y_spec Y j a : reach Y -> j <> i \/ ~ moved a -> own_attr Y a (Sp j) = own_attr H a (Sp j).
Proof.
  intros R N. unfold own_attr. rewrite (y_specs _ R), with_spec_nth by exact i_lt. destruct (Nat.eqb j i) eqn:E; [|reflexivity]. apply Nat.eqb_eq in E as ->. destruct N as [N|N]; [contradiction|]. rewrite Ei. unfold put.
  rewrite !dget_dset. destruct (str_eqb _ a) eqn:E; [apply str_eqb_eq in E as <-; destruct N; now right|]. destruct (str_eqb INSTANCE_PATH a) eqn:E2; [apply str_eqb_eq in E2 as <-; destruct N; now left|reflexivity].
Qed.
Lemma y_ref Y j a : reach Y -> ~ moved a -> ref_attr Y (Sp j) a = ref_attr H (Sp j) a.
Proof. intros R N. pose proof (y_spec Y j a R (or_intror N)) as E. unfold own_attr in E. unfold ref_attr, attr_or_none. destruct (nth_error (specs Y) j), (nth_error (specs H) j); rewrite ?E; auto; now rewrite <- E. Qed.
Lemma y_attr Y q a : reach Y -> q <> p -> attr Y q a = attr H q a.
Proof.
  intros R N. rewrite !attr_own, (y_else _ R q a N), (y_bs _ R q N). destruct (own_attr H a (Co q)); [reflexivity|]. destruct (bs H (Co q)) as [|[j|x] l] eqn:E; try reflexivity.
  rewrite (y_spec Y j a R); [reflexivity|]. left. intros ->. apply (mine q N). rewrite E. now left.
Qed.
Lemma moved_free a : moved a -> free H is a. Proof. intros M. now left. Qed.
Lemma y_attr_p Y a : reach Y -> ~ free H is a -> attr Y p a = attr H p a.
Proof.
  intros R N. rewrite !attr_own, (y_own _ R a N), Ebs. destruct (y_first _ R) as (r & ->). destruct (own_attr H a (Co p)); [reflexivity|]. destruct is as [|j l] eqn:El; [destruct His|]. cbn [map app]. rewrite (y_spec Y j a R); [reflexivity|]. right. intros M. apply N. now left.
Qed.
Lemma bs_set Y a w q : bs (set_attr Y p a w) (Co q) = bs Y (Co q).
Proof. unfold set_attr. rewrite bs_with. destruct (str_eqb q p) eqn:E; [|reflexivity]. unfold bs, bases_in. now destruct (dget q (comps Y)). Qed.
Lemma own_set Y a w q b : own_attr (set_attr Y p a w) b (Co q) = if str_eqb q p && here Y p && str_eqb b a then Some w else own_attr Y b (Co q).
Proof.
  unfold set_attr. rewrite own_change. destruct (str_eqb q p) eqn:E; [|reflexivity]. apply str_eqb_eq in E as ->. unfold here, dmem, own_attr. destruct (dget p (comps Y)) as [c|]; [|reflexivity]. cbn [own andb]. rewrite dget_dset, (str_eqb_sym a b). reflexivity.
Qed.
Lemma reach_set Y a w : reach Y -> free H is a -> (a = INSTANCE_PATH -> w = v) -> a <> source_of INSTANCE_PATH -> reach (set_attr Y p a w).
Proof.
  intros R Fa Ew Na. assert (Hp : here Y p = true) by (rewrite (y_here Y p R); exact Hh). constructor.
  - exact (y_specs _ R).
  - rewrite keys_set_attr. exact (y_keys _ R).
  - intros q N. rewrite bs_set. now apply (y_bs _ R).
  - rewrite bs_set. exact (y_first _ R).
  - intros q b N. rewrite own_set. destruct (str_eqb q p) eqn:E; [apply str_eqb_eq in E; contradiction|]. now apply (y_else _ R).
  - intros b Nb. rewrite own_set. destruct (str_eqb b a) eqn:E; [apply str_eqb_eq in E as ->; contradiction|]. rewrite andb_false_r. now apply (y_own _ R).
  - rewrite own_set, str_eqb_refl, Hp. cbn [andb]. destruct (str_eqb INSTANCE_PATH a) eqn:E; [|exact (y_inst _ R)]. apply str_eqb_eq in E as <-. now rewrite Ew.
  - rewrite own_set. destruct (str_eqb (source_of INSTANCE_PATH) a) eqn:E; [apply str_eqb_eq in E as <-; contradiction|]. rewrite andb_false_r. exact (y_src _ R).
Qed.
Lemma reach_dirty Y x : reach Y -> reach (with_dirty Y x).
Proof. intros [A1 A2 A3 A4 A5 A6 A7 A8]. constructor; assumption. Qed.
Lemma reach_bases Y r : reach Y -> reach (with_comps Y (change p (fun c => {| own := own c; cbases := map Sp is ++ r |}) (comps Y))).
Proof.
  intros R. assert (Hp : here Y p = true) by (rewrite (y_here Y p R); exact Hh).
  assert (O : forall q a, own_attr (with_comps Y (change p (fun c => {| own := own c; cbases := map Sp is ++ r |}) (comps Y))) a (Co q) = own_attr Y a (Co q)).
  { intros q a. rewrite own_change. destruct (str_eqb q p); [|reflexivity]. unfold own_attr. now destruct (dget q (comps Y)). }
  constructor.
  - exact (y_specs _ R).
  - cbn [comps with_comps]. rewrite dkeys_change. exact (y_keys _ R).
  - intros q N. rewrite bs_with. destruct (str_eqb q p) eqn:E; [apply str_eqb_eq in E; contradiction|]. now apply (y_bs _ R).
  - exists r. rewrite bs_with, str_eqb_refl. unfold here, dmem in Hp. destruct (dget p (comps Y)); [reflexivity|discriminate].
  - intros q a N. rewrite O. now apply (y_else _ R).
  - intros a N. rewrite O. now apply (y_own _ R).
  - rewrite O. exact (y_inst _ R).
  - rewrite O. exact (y_src _ R).
Qed.

(** The start. *)
Let Y1 := set_attr (set_attr H p INSTANCE_PATH v) p (INSTANCE_PATH ++ META_SOURCE) (VTuple [real; VStr p]).
Let Y2 := change_spec Y1 i p real v.
Lemma Y2_form : Y2 = with_spec Y1 i put.
Proof. unfold Y2, change_spec. change (specs Y1) with (specs H). rewrite Ei. reflexivity. Qed.
Lemma Y2_reach : reach Y2 /\ bs Y2 (Co p) = map Sp is ++ par.
Proof.
  rewrite Y2_form. assert (O : forall q a, own_attr (with_spec Y1 i put) a (Co q) = own_attr Y1 a (Co q)) by reflexivity. assert (Bq : forall q, bs (with_spec Y1 i put) (Co q) = bs H (Co q)) by (intros q; change (bs Y1 (Co q) = bs H (Co q)); unfold Y1; now rewrite !bs_set).
  split; [constructor|].
  - reflexivity.
  - change (dkeys (comps Y1) = dkeys (comps H)). unfold Y1. now rewrite !keys_set_attr.
  - intros q _. apply Bq.
  - exists par. rewrite Bq. exact Ebs.
  - intros q a N. rewrite O. unfold Y1. rewrite !own_set. destruct (str_eqb q p) eqn:E; [apply str_eqb_eq in E; contradiction|reflexivity].
  - intros a N. rewrite O. unfold Y1. rewrite !own_set. destruct (str_eqb a (INSTANCE_PATH ++ META_SOURCE)) eqn:E; [apply str_eqb_eq in E as ->; destruct N; left; now right|]. rewrite andb_false_r.
    destruct (str_eqb a INSTANCE_PATH) eqn:E2; [apply str_eqb_eq in E2 as ->; destruct N; left; now left|]. now rewrite andb_false_r.
  - rewrite O. unfold Y1. rewrite !own_set, here_set_attr, Hh, str_eqb_refl. reflexivity.
  - rewrite O. unfold Y1. rewrite !own_set, here_set_attr, Hh, str_eqb_refl. reflexivity.
  - rewrite Bq. exact Ebs.
Qed.
Lemma comp_step fuel : change_comp fuel H p real v = Some (Ok (Y1, dirties H [])).
Proof.
  unfold change_comp. cbv zeta. rewrite Eold. cbn [truthy]. cbv iota. cbn [bind]. unfold expanded, v. cbn [has_opinion path_str]. unfold q0 at 1. destruct (absolute rs) as (s & Es). rewrite Es. rewrite expand_relative_absolute, <- Es. cbn [bind]. rewrite app_nil_r. reflexivity.
Qed.

(** Nodes without children. *)
Lemma Y_kids Y : reach Y -> scan_real same_string (nodes (view Y)) q0 = [] /\ scan_implied (nodes (view Y)) q0 = [].
Proof.
  intros R. assert (K : dkeys (nodes (view Y)) = dkeys (comps Y)) by (unfold dkeys, view; cbn [nodes]; now rewrite map_map).
  assert (Pk : forall k, here H k = true -> parent_of Y k <> q0).
  { intros k Hk. destruct (str_eqb k p) eqn:E; [apply str_eqb_eq in E as ->|apply str_eqb_neq in E].
    - unfold parent_of. rewrite (y_attr_p Y _ R); [exact (proj1 (bare p Hk))|]. intros [[Q|Q]|[Q|(b & Hb & _ & [Q|Q])]]; try discriminate Q; cbn in Hb; repeat destruct Hb as [<-|Hb]; try destruct Hb; discriminate Q.
    - unfold parent_of. rewrite (y_attr Y k _ R E). exact (proj1 (bare k Hk)). }
  split.
  - unfold scan_real. assert (Fl : filter (fun kn => is_child same_string q0 (fst kn) (snd kn)) (nodes (view Y)) = []); [|now rewrite Fl].
    assert (A : forall x, In x (nodes (view Y)) -> is_child same_string q0 (fst x) (snd x) = false).
    { intros x Hx. unfold view in Hx. cbn [nodes] in Hx. apply in_map_iff in Hx as ((k & c) & <- & Hx). unfold is_child. cbn [fst snd n_parent]. apply andb_false_intro1. apply str_eqb_neq. apply Pk. rewrite <- (y_here Y k R). apply here_In. apply in_map_iff. exists (k, c). auto. }
    clear - A. induction (nodes (view Y)) as [|x l IH]; [reflexivity|]. cbn [filter]. rewrite A by now left. apply IH. intros y Hy. apply A. now right.
  - unfold scan_implied. rewrite K, (y_keys _ R). assert (A : forall k, In k (dkeys (comps H)) -> is_ancestor k q0 = false) by (intros k Hk; apply bare; now apply here_In).
    clear - A. induction (dkeys (comps H)) as [|x l IH]; [reflexivity|]. cbn [fold_left]. rewrite A by now left. apply IH. intros y Hy. apply A. now right.
Qed.
Lemma q0_shape : is_empty q0 = false /\ str_eqb q0 WORLD = false.
Proof. split; [unfold q0; apply abs_not_empty|]. unfold q0. apply abs_path_neqb; [now apply names_comp|exact Hrn]. Qed.
Lemma order_none o : order_paths o [] = [].
Proof. unfold order_paths. cbn [add_missing fold_left]. assert (E : forall l, flat_map (fun nm0 => filter (fun p0 => str_eqb (node_name_from_node_path p0) nm0) []) l = []) by (induction l; [reflexivity|assumption]). rewrite E. reflexivity. Qed.
Lemma no_kid_paths Y : reach Y -> kid_paths Y q0 = [].
Proof.
  intros R. destruct (Y_kids Y R) as (K1 & K2). destruct q0_shape as (S1 & S2). unfold kid_paths, children. cbn [negb rtype_eqb andb]. rewrite S1, S2. cbn [view kids implied dget]. change (nodes _) with (nodes (view Y)). rewrite K1, K2. reflexivity.
Qed.
Lemma no_descendants Y fuel : reach Y -> fst (descendants same_string same_string (S fuel) (view Y) q0 RPath true false) = AList [].
Proof.
  intros R. destruct (Y_kids Y R) as (K1 & _). destruct q0_shape as (S1 & S2). unfold descendants. rewrite S2. cbn [negb rtype_eqb ordered_desc]. unfold children. cbn [andb]. rewrite S1, S2. change (kids (view Y)) with (@nil (pystr * ccache)). cbn [dget]. rewrite K1.
  cbn [entry_of name_dict fold_left cc_paths add_missing rtype_eqb]. assert (Q : exists n, dget q0 (nodes (view Y)) = Some n).
  { assert (I : In q0 (dkeys (nodes (view Y)))) by (unfold dkeys, view; cbn [nodes]; rewrite map_map; apply here_In; rewrite (y_here Y q0 R); exact Hrh). apply dmem_In in I. unfold dmem in I. destruct (dget q0 (nodes (view Y))) as [n|]; [eauto|discriminate]. }
  destruct Q as (n & ->). destruct (n_order n) as [|x l]; [reflexivity|]. rewrite order_none. reflexivity.
Qed.

(** The instance source is found, and no nodes are made. *)
Lemma Y_inst Y : reach Y -> inst_of Y p = Some q0.
Proof. intros R. unfold inst_of. rewrite attr_own, (y_inst _ R). reflexivity. Qed.
Lemma not_free_place a : In a [PARENT_PATH; NAME; PROXY; SOURCE_LAYER; START_POINT; EXECUTE_IN] -> ~ free H is a.
Proof.
  intros Ha [[Q|Q]|[Q|(b & Hb & _ & [Q|Q])]]; subst; try (apply str_in_In in Ha; vm_compute in Ha; discriminate Ha); repeat destruct Hb as [<-|Hb]; try destruct Hb; apply str_in_In in Ha; vm_compute in Ha; discriminate Ha.
Qed.
Lemma Y_place Y : reach Y -> parent_of Y p = pp /\ name_of Y p = nm.
Proof. intros R. unfold parent_of, name_of. rewrite !(y_attr_p Y _ R) by (apply not_free_place; cbn; tauto). now rewrite Epp, Enm. Qed.
Lemma Y_path Y : reach Y -> join_node_paths (parent_of Y p) (name_of Y p) = p.
Proof. intros R. destruct (Y_place Y R) as (-> & ->). apply (join_p ps nm Hc). Qed.
Lemma discover_step one : exists Y3, discover one Y2 p = (Y3, []) /\ reach Y3 /\ bs Y3 (Co p) = map Sp is ++ par.
Proof.
  destruct Y2_reach as (R & Eb). unfold discover.
  assert (Po : possible Y2 p = Some q0).
  { apply possible_intro; auto; [now apply Y_inst| |].
    - destruct (startswith (abs_path rs ++ NODE_SEP) (abs_path cs)) eqn:S; [|reflexivity]. exfalso.
      assert (A : is_ancestor (abs_path cs) (abs_path rs) = true) by (unfold is_ancestor; now destruct (str_eqb (abs_path rs) WORLD)). apply is_ancestor_abs in A as [A|A]; [congruence|contradiction|now apply names_comp|now apply names_comp].
    - change (dirties Y2 (abs_path cs)) with (dirties Y2 p). unfold dirties. rewrite Y2_form. change (dirty (with_spec Y1 i put)) with (dirty H). change (~ In q0 (dirties H p)). rewrite quiet_p. intros []. }
  rewrite Po. cbv zeta. set (Ya := concern one (set_attr Y2 p INSTANCE_PATH (VStr q0)) q0 p).
  assert (Ra : reach Ya). { apply reach_dirty. apply reach_set; [exact R|left; now left|reflexivity|discriminate]. }
  assert (Ea : bs Ya (Co p) = map Sp is ++ par). { change (bs (set_attr Y2 p INSTANCE_PATH (VStr q0)) (Co p) = map Sp is ++ par). rewrite bs_set. exact Eb. }
  rewrite (y_here Ya q0 Ra), Hrh. set (Yb := set_order Ya p (merged (order_of Ya p) (order_of Ya q0))). assert (Rb : reach Yb) by (apply reach_set; [exact Ra|right; now left|discriminate|discriminate]).
  rewrite (no_kid_paths Yb Rb). cbn [fold_left]. exists Yb. split; [reflexivity|]. split; [exact Rb|]. unfold Yb, set_order. rewrite bs_set. exact Ea.
Qed.
Lemma proxies_run top one fuel : exists Y3, targeted_proxies top one (S fuel) Y2 p = Some (Ok (Y3, [(p, (found H pp, Some q0))])) /\ reach Y3 /\ bs Y3 (Co p) = map Sp is ++ par.
Proof.
  destruct Y2_reach as (R & Eb). destruct (discover_step one) as (Y3 & Ed & R3 & E3). exists Y3. split; [|auto]. unfold targeted_proxies. cbv zeta.
  destruct (Y_place Y2 R) as (Ep & En). rewrite Ep.
  assert (D : forall q, dirties Y2 q = dirties H q) by (intros q; unfold dirties; rewrite Y2_form; reflexivity). rewrite !D, quiet_pp, quiet_p. cbn [fold_left].
  assert (Src : new_source Y2 p = Some q0).
  { unfold new_source. rewrite (Y_inst Y2 R). unfold q0 at 1. destruct (absolute rs) as (s & Es). rewrite Es, expand_relative_absolute, <- Es. fold q0. rewrite (proj2 q0_shape). unfold found. now rewrite (y_here Y2 q0 R), Hrh. }
  assert (Par : new_parent Y2 p = found H pp).
  { unfold new_parent. rewrite Ep. assert (Z : is_empty pp = false) by apply abs_not_empty. rewrite Z.
    assert (N : nearest (S (length pp)) Y2 pp = pp). { cbn [nearest]. rewrite (y_here Y2 pp R). destruct linked as [E0|E0]; [|now rewrite E0]. unfold pp. rewrite E0. now destruct (here H (abs_path [])). }
    rewrite N. unfold found. now rewrite (y_here Y2 pp R). }
  rewrite Src, Par. rewrite (no_descendants Y2 fuel R). cbn [fold_left make_loop]. unfold discover_all. cbn [fold_left]. rewrite Ed. cbn [app fold_left drop_made bind]. reflexivity.
Qed.

(** The base classes. *)
Definition still (x y : ref) : Prop := x = y /\ x <> Co p.
Lemma still_one x y x' y' : still x x' -> still y y' -> (x = y <-> x' = y').
Proof. intros (-> & _) (-> & _). tauto. Qed.
Lemma still_bases Y : (forall q, q <> p -> bs Y (Co q) = bs H (Co q)) -> forall x x', still x x' -> Forall2 still (bs H x) (bs Y x').
Proof.
  intros K x x' (<- & N). destruct x as [j|q]; [constructor|]. rewrite (K q) by congruence. assert (A : forall r, In r (bs H (Co q)) -> still r r). { intros r Hi. split; [reflexivity|]. intros ->. exact (nobody q Hi). }
  induction (bs H (Co q)) as [|r l IH]; constructor; [apply A; now left|]. apply IH. intros r' Hr'. apply A. now right.
Qed.
Lemma still_eq l l' : Forall2 still l l' -> l = l'.
Proof. induction 1 as [|x y l l' (-> & _) _ ->]; reflexivity. Qed.
Lemma still_mro Y x : reach Y -> x <> Co p -> mro_of Y x = mro_of H x.
Proof.
  intros R N. unfold mro_of. assert (L : length (comps Y) = length (comps H)) by (rewrite <- !(map_length fst); exact (f_equal (@length _) (y_keys _ R))). rewrite (y_len Y R), L.
  pose proof (mro_alike ref_eqb ref_eqb_eq still still_one (bs H) (bs Y) (still_bases Y (y_bs _ R)) (S (length (specs H) + length (comps H))) x x (conj eq_refl N)) as M. unfold bs in M.
  destruct (mro ref_eqb (bases_in (comps H)) _ x), (mro ref_eqb (bases_in (comps Y)) _ x); cbn [RO] in M; try contradiction; [|reflexivity]. apply still_eq in M. now subst.
Qed.
Lemma q0_bases Y : reach Y -> bases_in (comps Y) (Co q0) = bases_in (comps H) (Co q0).
Proof. intros R. exact (y_bs _ R q0 q0_p). Qed.
Lemma safe_still Y cur : reach Y -> safe_bases Y cur q0 = safe_bases H cur q0.
Proof.
  intros R. unfold safe_bases. rewrite (q0_bases Y R). apply filter_ext. intros c. f_equal.
  assert (E : forall l, (forall b, In b l -> b <> Co p) -> existsb (fun b => match mro_of Y b with Some l => isin ref_eqb c l | None => false end) l = existsb (fun b => match mro_of H b with Some l => isin ref_eqb c l | None => false end) l).
  { induction l as [|b l IH]; intros A; [reflexivity|]. cbn [existsb]. rewrite (still_mro Y b R) by (apply A; now left). f_equal. apply IH. intros x Hx. apply A. now right. }
  apply E. intros b Hb ->. exact (nobody q0 Hb).
Qed.
Lemma inherit_reach a : In a INSTANCE_ATTRS -> forall Y, reach Y -> reach (inherit q0 p Y a) /\ bs (inherit q0 p Y a) (Co p) = bs Y (Co p).
Proof.
  intros Ha Y R. unfold inherit. destruct (has_opinion (attr Y p a)) eqn:E; [auto|]. assert (Si : silent_in H is a).
  { destruct (loud a Ha) as [S|O]; [exact S|]. destruct (in_dec Nat.eq_dec 0 []) as [[]|_].
    assert (D : forall l, (forall j, In j l -> has_opinion (ref_attr H (Sp j) a) = false) \/ exists j, In j l /\ has_opinion (ref_attr H (Sp j) a) = true).
    { induction l as [|j l IH]; [left; intros ? []|]. destruct (has_opinion (ref_attr H (Sp j) a)) eqn:Q; [right; exists j; split; [now left|exact Q]|]. destruct IH as [IH|(k & Hk & IH)]; [left|right; exists k; split; [now right|exact IH]]. intros k [<-|Hk]; auto. }
    destruct (D is) as [S|(j & Hj & Q)]; [exact S|]. exfalso. assert (Nf : ~ free H is a).
    { intros [[Z|Z]|[Z|(b & Hb & Sb & [Z|Z])]]; subst; try (apply str_in_In in Ha; vm_compute in Ha; discriminate Ha); [rewrite (Sb j Hj) in Q; discriminate|]. repeat destruct Hb as [<-|Hb]; try destruct Hb; apply str_in_In in Ha; vm_compute in Ha; discriminate Ha. }
    rewrite (y_attr_p Y a R Nf) in E. congruence. }
  assert (Ne : forall b, In b INSTANCE_ATTRS -> b <> INSTANCE_PATH /\ b <> source_of INSTANCE_PATH /\ source_of b <> INSTANCE_PATH /\ source_of b <> source_of INSTANCE_PATH) by (intros b Hb; repeat destruct Hb as [<-|Hb]; try destruct Hb; repeat split; discriminate).
  destruct (Ne a Ha) as (N1 & N2 & N3 & N4). split; [|now rewrite !bs_set]. apply reach_set; [apply reach_set; [exact R| |congruence|exact N2]| |intros Q; now apply N3 in Q|exact N4]; right; right; exists a; auto.
Qed.
Lemma inherits_reach Y : reach Y -> reach (fold_left (inherit q0 p) INSTANCE_ATTRS Y) /\ bs (fold_left (inherit q0 p) INSTANCE_ATTRS Y) (Co p) = bs Y (Co p).
Proof.
  intros R. cbn [INSTANCE_ATTRS fold_left]. destruct (inherit_reach ENABLED ltac:(cbn; tauto) Y R) as (R1 & E1). destruct (inherit_reach COMMENT ltac:(cbn; tauto) _ R1) as (R2 & E2). destruct (inherit_reach COMPUTE ltac:(cbn; tauto) _ R2) as (R3 & E3).
  split; [exact R3|]. now rewrite E3, E2, E1.
Qed.
Lemma isin_map_sp q l : isin ref_eqb (Co q) (map Sp l) = false.
Proof. induction l as [|j l IH]; [reflexivity|exact IH]. Qed.
Lemma isin_app x (a b : list ref) : isin ref_eqb x (a ++ b) = isin ref_eqb x a || isin ref_eqb x b.
Proof. apply existsb_app. Qed.
Lemma post_run Y3 : reach Y3 -> bs Y3 (Co p) = map Sp is ++ par -> exists Y5 ds, targeted_post Y3 [(p, (found H pp, Some q0))] = Ok (update_inherited [Parent; Instance] Y5 p, ds) /\ In p ds /\ reach Y5 /\ bs Y5 (Co p) = map Sp is ++ rest0 ++ [Co q0].
Proof.
  intros R3 E3. destruct (inherits_reach Y3 R3) as (R4 & E4). set (Y4 := fold_left (inherit q0 p) INSTANCE_ATTRS Y3) in *. rewrite E3 in E4.
  set (Y5 := with_comps Y4 (change p (fun c => {| own := own c; cbases := map Sp is ++ rest0 ++ [Co q0] |}) (comps Y4))).
  pose proof (reach_bases Y4 (rest0 ++ [Co q0]) R4) as R5. fold Y5 in R5.
  assert (E5 : bs Y5 (Co p) = map Sp is ++ rest0 ++ [Co q0]). { unfold Y5. rewrite bs_with, str_eqb_refl. pose proof (y_here Y4 p R4) as Hp. rewrite Hh in Hp. unfold here, dmem in Hp. destruct (dget p (comps Y4)); [reflexivity|discriminate]. }
  assert (P1 : exists ds, post_arc false (Y3, []) (p, (found H pp, Some q0)) = Ok (Y3, p :: ds)).
  { unfold post_arc. cbv zeta. rewrite (Y_path Y3 R3). cbn [str_in existsb app]. unfold found. destruct (here H pp) eqn:Hp; [|exists []; reflexivity]. cbv iota beta. unfold safe_add. cbv zeta. change (bases_in (comps Y3) (Co p)) with (bs Y3 (Co p)). rewrite E3.
    unfold par. rewrite isin_app. cbn [isin existsb ref_eqb]. rewrite str_eqb_refl, !orb_true_r. cbn [bind]. eexists. reflexivity. }
  destruct P1 as (ds1 & P1). assert (P2 : exists ds, post_arc true (Y3, p :: ds1) (p, (found H pp, Some q0)) = Ok (Y5, p :: ds)).
  { unfold post_arc. cbv zeta. rewrite (Y_path Y3 R3). cbn [str_in existsb]. rewrite str_eqb_refl. cbn [orb]. cbv iota beta. fold Y4. unfold safe_add. cbv zeta. change (bases_in (comps Y4) (Co p)) with (bs Y4 (Co p)). rewrite E4.
    assert (Ni : isin ref_eqb (Co q0) (map Sp is ++ par) = false). { rewrite isin_app, isin_map_sp. unfold par. destruct (here H pp); [|reflexivity]. cbn [isin existsb ref_eqb]. rewrite orb_false_r. apply str_eqb_neq. exact q0_pp. }
    rewrite Ni, (safe_still Y4 _ R4), Esafe. rewrite <- app_assoc. unfold set_bases. fold Y5.
    assert (M : all_mros Y5 = true).
    { apply all_mros_spec. intros q Hq. destruct (str_eqb q p) eqn:E; [apply str_eqb_eq in E as ->|apply str_eqb_neq in E].
      - apply fits; [exact (y_len Y5 R5)|exact (y_keys _ R5)|exact (y_bs _ R5)|exact E5].
      - rewrite (still_mro Y5 _ R5) by congruence. apply So. now rewrite <- (y_here Y5 q R5). }
    rewrite M. cbn [bind]. eexists. reflexivity. }
  destruct P2 as (ds2 & P2). exists Y5, (p :: ds2). split; [|split; [now left|auto]]. unfold targeted_post. cbn [fold_res]. rewrite P1. cbn [bind fold_res]. rewrite P2. cbn [bind fst snd dkeys map fold_left]. reflexivity.
Qed.

(** The inherited attributes. *)
Lemma idle_spec b : forall l X hd, exists hd', fold_left (update_attr p b false) l (X, hd) = (X, hd') /\ forall a, In a hd' <-> In a hd \/ (In a l /\ has_opinion (ref_attr X b a) = true).
Proof.
  induction l as [|x l IH]; intros X hd; [exists hd; split; [reflexivity|intros a; cbn; tauto]|]. cbn [fold_left]. unfold update_attr at 2. cbv iota. destruct (str_in x hd) eqn:E.
  - apply str_in_In in E. destruct (IH X hd) as (hd' & F & Q). exists hd'. split; [exact F|]. intros a. rewrite Q. cbn [In]. split; [tauto|]. intros [A|([<-|A] & O)]; tauto.
  - destruct (has_opinion (ref_attr X b x)) eqn:O.
    + destruct (IH X (hd ++ [x])) as (hd' & F & Q). exists hd'. split; [exact F|]. intros a. rewrite Q, in_app_iff. cbn [In]. split; [|intros [A|([<-|A] & O2)]; tauto]. intros [[A|[<-|[]]]|A]; tauto.
    + destruct (IH X hd) as (hd' & F & Q). exists hd'. split; [exact F|]. intros a. rewrite Q. cbn [In]. split; [tauto|]. intros [A|([<-|A] & O2)]; [tauto|congruence|tauto].
Qed.
Lemma Y_check Y r : reach Y -> r <> Co p -> check_path Y r = check_path H r.
Proof.
  intros R N. unfold check_path. destruct r as [j|q].
  - rewrite !(y_ref Y j _ R) by (intros [Q|Q]; discriminate Q). reflexivity.
  - unfold ref_attr. rewrite !(y_attr Y q _ R) by congruence. reflexivity.
Qed.
Lemma Y_path_of Y : reach Y -> path_of Y (Co p) = p.
Proof. intros R. exact (Y_path Y R). Qed.
Lemma arc_sp Y j : reach Y -> In j is -> get_arc Y p (Sp j) = Some Reference.
Proof. intros R Hj. unfold get_arc. cbv zeta. rewrite (Y_path_of Y R), (Y_check Y _ R), (Cks j Hj), str_eqb_refl by discriminate. reflexivity. Qed.
Lemma arc_pp Y : reach Y -> here H pp = true -> get_arc Y p (Co pp) = Some Parent.
Proof.
  intros R Hp. unfold get_arc. cbv zeta. rewrite (Y_path_of Y R), (Y_check Y _ R), (Ckp Hp) by (intros [= Q]; now apply pp_p). rewrite (y_attr_p Y _ R), Epp by (apply not_free_place; cbn; tauto). cbn [str_of]. rewrite str_eqb_refl.
  assert (E : str_eqb p pp = false) by (apply str_eqb_neq; intros Q; symmetry in Q; now apply pp_p). rewrite E.
  assert (An : is_ancestor p pp = true). { apply is_ancestor_abs; [apply names_comp, Hc|apply names_comp; now apply Forall_app in Hc|]. right. exists [nm]. split; [discriminate|reflexivity]. }
  rewrite An. reflexivity.
Qed.
Lemma arc_q0 Y : reach Y -> get_arc Y p (Co q0) = Some Instance.
Proof.
  intros R. unfold get_arc. cbv zeta. rewrite (Y_path_of Y R), (Y_check Y _ R), Ckr by (intros [= Q]; now apply q0_p). rewrite (y_attr_p Y _ R), Epp by (apply not_free_place; cbn; tauto). cbn [str_of].
  assert (E1 : str_eqb p q0 = false) by (apply str_eqb_neq; intros Q; symmetry in Q; now apply q0_p). assert (E2 : str_eqb pp q0 = false) by (apply str_eqb_neq; intros Q; symmetry in Q; now apply q0_pp). rewrite E1, E2. cbn [andb].
  assert (Tr : str_in q0 (trace Y p) = true).
  { apply str_in_In. unfold trace. pose proof (y_here Y q0 R) as Hb. rewrite Hrh in Hb. unfold here, dmem in Hb. destruct (comps Y) as [|c0 d0] eqn:Ec; [discriminate Hb|]. cbn [length trace_from]. rewrite (Y_inst Y R). rewrite (y_here Y q0 R), Hrh. cbn [str_in existsb negb andb app].
    assert (G : forall f q acc x, In x acc -> In x (trace_from f Y q acc)). { induction f as [|f IH]; intros q acc x Hx; cbn [trace_from]; [exact Hx|]. destruct (inst_of Y q); [|exact Hx]. destruct (_ && _); [|exact Hx]. apply IH. apply in_or_app. now left. }
    apply G. now left. }
  rewrite Tr, orb_true_r. reflexivity.
Qed.
Lemma specs_idle Y : reach Y -> forall l hd seen, (forall j, In j l -> In j is) -> exists hd' seen', fold_left (update_base p [Parent; Instance]) (map Sp l) (Y, hd, seen) = (Y, hd', seen') /\
  (forall a, In a INSTANCE_ATTRS -> In a hd' <-> In a hd \/ exists j, In j l /\ has_opinion (ref_attr H (Sp j) a) = true).
Proof.
  intros R. induction l as [|j l IH]; intros hd seen Hl; [exists hd, seen; split; [reflexivity|]; intros a _; split; [tauto|]; intros [A|(j & [] & _)]; exact A|].
  cbn [map fold_left]. unfold update_base at 2. rewrite (arc_sp Y j R) by (apply Hl; now left). change (has_arc [Parent; Instance] (Some Reference)) with false. destruct (idle_spec (Sp j) (arc_attrs (Some Reference)) Y hd) as (hd1 & -> & Q1).
  destruct (IH hd1 (seen ++ [Some Reference]) (fun k Hk => Hl k (or_intror Hk))) as (hd' & seen' & F & Q). exists hd', seen'. split; [exact F|]. intros a Ha. rewrite (Q a Ha), Q1.
  assert (Hm : ~ moved a) by (intros [->| ->]; apply str_in_In in Ha; vm_compute in Ha; discriminate Ha). rewrite (y_ref Y j a R Hm).
  assert (Hi : In a (arc_attrs (Some Reference))) by (cbn in Ha |- *; tauto). split.
  - intros [[A|(_ & O)]|(k & Hk & O)]; [now left|right; exists j; split; [now left|exact O]|right; exists k; split; [now right|exact O]].
  - intros [A|(k & [<-|Hk] & O)]; [tauto|left; right; auto|right; exists k; auto].
Qed.
Definition pick (a : pystr) : pyval := if has_opinion (attr H q0 a) then attr H q0 a else default_of a.
Lemma fill_source : forall l, NoDup l -> (forall a, In a l -> In a INSTANCE_ATTRS) -> forall Z hd, reach Z -> (forall a, In a l -> ~ In a hd -> silent_in H is a) ->
  exists X hd', fold_left (update_attr p (Co q0) true) l (Z, hd) = (X, hd') /\ reach X /\ bs X (Co p) = bs Z (Co p) /\
  forall a, own_attr X a (Co p) = if str_in a l && negb (str_in a hd) then Some (pick a) else own_attr Z a (Co p).
Proof.
  induction l as [|x l IH]; intros Nd Sub Z hd R Si; [exists Z, hd; split; [reflexivity|split; [exact R|split; [reflexivity|intros; reflexivity]]]|]. inversion Nd as [|? ? Nx Nd']; subst. cbn [fold_left]. unfold update_attr at 2. cbv iota.
  assert (Pr : forall a, str_in a (x :: l) = str_eqb a x || str_in a l) by reflexivity. destruct (str_in x hd) eqn:E.
  - destruct (IH Nd' (fun a Ha => Sub a (or_intror Ha)) Z hd R (fun a Ha => Si a (or_intror Ha))) as (X & hd' & F & RX & EX & O). exists X, hd'. split; [exact F|]. split; [exact RX|]. split; [exact EX|]. intros a. rewrite O, Pr. destruct (str_eqb a x) eqn:Ea; [|reflexivity]. apply str_eqb_eq in Ea as ->. rewrite E. cbn [negb]. now rewrite !andb_false_r.
  - assert (Hx : In x INSTANCE_ATTRS) by (apply Sub; now left). assert (Sx : silent_in H is x) by (apply Si; [now left|]; intros Q; apply str_in_In in Q; congruence).
    assert (Ev : ref_attr Z (Co q0) x = attr H q0 x) by (unfold ref_attr; apply (y_attr Z q0 x R q0_p)). rewrite Ev.
    assert (Rs : forall w, reach (set_attr Z p x w)). { intros w. apply reach_set; [exact R|right; right; exists x; auto| |]; repeat destruct Hx as [<-|Hx]; try destruct Hx; discriminate. }
    assert (Go : forall hd1, (forall a, a <> x -> str_in a hd1 = str_in a hd) -> exists X hd', fold_left (update_attr p (Co q0) true) l (set_attr Z p x (pick x), hd1) = (X, hd') /\ reach X /\ bs X (Co p) = bs Z (Co p) /\
      forall a, own_attr X a (Co p) = if str_in a (x :: l) && negb (str_in a hd) then Some (pick a) else own_attr Z a (Co p)).
    { intros hd1 Eh. destruct (IH Nd' (fun a Ha => Sub a (or_intror Ha)) (set_attr Z p x (pick x)) hd1 (Rs _)) as (X & hd' & F & RX & EX & O).
      - intros a Ha Na. apply Si; [now right|]. intros Q. apply Na. apply str_in_In in Q. apply str_in_In. rewrite Eh; [exact Q|]. intros ->. contradiction.
      - exists X, hd'. split; [exact F|]. split; [exact RX|]. split; [rewrite EX; apply bs_set|]. intros a. rewrite O, Pr, own_set, str_eqb_refl, (y_here Z p R), Hh. cbn [andb]. destruct (str_eqb a x) eqn:Ea.
        + apply str_eqb_eq in Ea as ->. rewrite E. cbn [orb negb andb]. assert (Q : str_in x l = false) by (apply not_true_iff_false; intros Q; apply str_in_In in Q; contradiction). rewrite Q. reflexivity.
        + apply str_eqb_neq in Ea. now rewrite (Eh a Ea). }
    destruct (has_opinion (attr H q0 x)) eqn:O.
    + specialize (Go (hd ++ [x])). unfold pick in Go at 1. rewrite O in Go. apply Go. intros a Na. unfold str_in. rewrite existsb_app. cbn [existsb]. apply str_eqb_neq in Na. rewrite Na. now rewrite !orb_false_r.
    + specialize (Go hd). unfold pick in Go at 1. rewrite O in Go. apply Go. reflexivity.
Qed.
Lemma update_run Y5 : reach Y5 -> bs Y5 (Co p) = map Sp is ++ rest0 ++ [Co q0] -> rest0 = par \/ rest0 = [] ->
  reach (update_inherited [Parent; Instance] Y5 p) /\ bs (update_inherited [Parent; Instance] Y5 p) (Co p) = map Sp is ++ rest0 ++ [Co q0] /\
  (forall a, ~ In a INSTANCE_ATTRS -> own_attr (update_inherited [Parent; Instance] Y5 p) a (Co p) = own_attr Y5 a (Co p)) /\
  (forall a, In a INSTANCE_ATTRS -> silent_in H is a -> own_attr (update_inherited [Parent; Instance] Y5 p) a (Co p) = Some (pick a)).
Proof.
  intros R E Er. unfold update_inherited. cbv zeta. change (bases_in (comps Y5) (Co p)) with (bs Y5 (Co p)). rewrite E.
  set (hd0 := if truthy (attr Y5 p PROXY) then [INSTANCE_PATH] else []). assert (H0 : forall a, In a INSTANCE_ATTRS -> ~ In a hd0). { intros a Ha. unfold hd0. destruct (truthy _); [|intros []]. intros [<-|[]]. apply str_in_In in Ha. vm_compute in Ha. discriminate Ha. }
  rewrite fold_left_app. destruct (specs_idle Y5 R is hd0 [] (fun j Hj => Hj)) as (hd1 & seen1 & -> & Q1).
  assert (P : exists seen2, fold_left (update_base p [Parent; Instance]) rest0 (Y5, hd1, seen1) = (Y5, hd1, seen2)).
  { pose proof (arc_pp Y5 R) as AP. destruct Er as [E0|E0]; rewrite E0; [|eexists; reflexivity]. unfold par. destruct (here H pp) eqn:Hp; [|eexists; reflexivity]. cbn [fold_left]. unfold update_base. rewrite (AP eq_refl). cbn [arc_attrs fold_left]. eexists. reflexivity. }
  destruct P as (seen2 & P). rewrite fold_left_app, P. cbn [fold_left]. unfold update_base. rewrite (arc_q0 Y5 R). change (has_arc [Parent; Instance] (Some Instance)) with true. change (arc_attrs (Some Instance)) with INSTANCE_ATTRS.
  assert (Si : forall a, In a INSTANCE_ATTRS -> ~ In a hd1 -> silent_in H is a).
  { intros a Ha Na j Hj. destruct (has_opinion (ref_attr H (Sp j) a)) eqn:O; [|reflexivity]. exfalso. apply Na. apply (Q1 a Ha). right. exists j. auto. }
  destruct (fill_source INSTANCE_ATTRS) with (Z := Y5) (hd := hd1) as (X & hd' & -> & RX & EX & O); [repeat constructor; vm_compute; intuition discriminate|auto|exact R|exact Si|].
  assert (Seen : forall f, (if existsb f (seen2 ++ [Some Instance]) then [] else arc_attrs (Some Parent)) = []) by (intros f; now destruct (existsb f _)).
  cbn [flat_map]. rewrite Seen. assert (Se : existsb (fun y => match y with Some y => arc_eqb Instance y | None => false end) (seen2 ++ [Some Instance]) = true) by (rewrite existsb_app; cbn; now rewrite orb_true_r). rewrite Se. cbn [app fold_left].
  split; [exact RX|]. split; [now rewrite EX|]. split.
  - intros a Ha. rewrite O. assert (Z : str_in a INSTANCE_ATTRS = false) by (apply not_true_iff_false; intros Q; apply str_in_In in Q; contradiction). now rewrite Z.
  - intros a Ha Sa. rewrite O. apply str_in_In in Ha as Ha'. rewrite Ha'. assert (Z : str_in a hd1 = false); [|now rewrite Z]. apply not_true_iff_false. intros Q. apply str_in_In in Q. apply (Q1 a Ha) in Q as [Q|(j & Hj & Q)]; [now apply (H0 a Ha)|]. rewrite (Sa j Hj) in Q. discriminate.
Qed.

Lemma run_form top one fuel : rest0 = par \/ rest0 = [] -> exists X ds, set_instance top one (S fuel) H i real v = Some (Ok (X, ds)) /\ In p ds /\ reach X /\ bs X (Co p) = map Sp is ++ rest0 ++ [Co q0] /\
  forall a, In a INSTANCE_ATTRS -> silent_in H is a -> own_attr X a (Co p) = Some (pick a).
Proof.
  intros Er. destruct (proxies_run top one fuel) as (Y3 & E3 & R3 & B3). destruct (post_run Y3 R3 B3) as (Y5 & ds & E5 & Hd & R5 & B5). destruct (update_run Y5 R5 B5 Er) as (RX & BX & _ & OX).
  exists (update_inherited [Parent; Instance] Y5 p), (dirties H [] ++ ds). split; [|split; [apply in_or_app; now right|auto]]. unfold set_instance. cbv zeta. rewrite Eip, weaker, comp_step. fold Y2. rewrite E3. cbn [bind fst snd]. rewrite E5. reflexivity.
Qed.
End Run.

(** *** The stage after the run and a new composition *)
Section Both.
Variables (layers layers' : list (list layer_row)) (H H' : heap) (ps : list pystr) (nm : pystr) (rs : list pystr) (rp : pystr) (d d' : data) (st wk : list data) (i : nat).
Let cs := ps ++ [nm].
Let p := abs_path cs.
Let q0 := abs_path rs.
Hypotheses (Rg : regular layers) (Rg' : regular layers') (B : stage_of layers H) (B' : stage_of layers' H').
Hypothesis World : forall m, In m (opinions [] layers) -> value m NAME = VStr (lit "/").
Hypothesis Hc : names cs.
Hypothesis Hr : names rs.
Hypothesis Hrn : rs <> [].
Hypothesis Ed : redirected cs rs (VStr rp) d d'.
Hypothesis Eo : opinions cs layers = st ++ d :: wk.
Hypothesis Eo' : opinions cs layers' = st ++ d' :: wk.
Hypothesis Else : forall es, names es -> es <> cs -> opinions es layers' = opinions es layers.
Hypothesis Sil : silent INSTANCE_PATH (opinions cs layers).
Hypothesis Eold : reads H cs INSTANCE_PATH = Some VNone.
Hypothesis leaf : forall xs, names xs -> xs <> [] -> ~ in_stage H (cs ++ xs).
Hypothesis bare : forall xs, names xs -> xs <> [] -> ~ in_stage H (rs ++ xs).
Hypothesis Hrh : in_stage H rs.
Hypothesis unseen : forall es, ~ points H es cs.
Hypothesis Plain : plainly_silent layers.
Hypothesis Esl : value d SOURCE_LAYER = VStr rp.
Hypothesis Enth : nth_error (bases_in (comps H) (Co p)) (length st) = Some (Sp i).
Let wf := r_fits layers Rg.
Let wf' := r_fits layers' Rg'.

Lemma b_here : in_stage H cs. Proof. exact (cs_here layers layers' H ps nm d d' st wk Rg B Hc Eo Eo'). Qed.
Lemma b_here' : in_stage H' cs. Proof. exact (cs_here' layers layers' H' ps nm d d' st wk Rg' B' Hc Eo Eo'). Qed.
Lemma b_rc : rs <> cs. Proof. exact (rs_not_cs layers layers' H' ps nm rs rp d d' st wk Rg' B' Hc Hr Hrn Ed Eo Eo' Sil). Qed.
Lemma b_low : ~ strict_prefix rs cs. Proof. exact (rs_low layers layers' ps nm rs rp d d' st wk Rg' Hc Hr Hrn Ed Eo Eo' Sil). Qed.
Lemma b_rp : rs <> ps. Proof. exact (rs_not_ps layers layers' ps nm rs rp d d' st wk Rg' Hc Hr Hrn Ed Eo Eo' Sil). Qed.
Lemma b_none ts : ~ instances H cs ts. Proof. exact (no_source_yet layers layers' H ps nm d d' st wk Rg B Hc Eo Eo' Sil ts). Qed.
Lemma b_draw es fs : draws H es fs -> names es -> in_stage H es -> es <> cs -> fs <> cs. Proof. exact (no_draw H ps nm leaf unseen es fs). Qed.
Lemma b_child es : names es -> in_stage H es -> ~ parent H es cs. Proof. exact (child_not H ps nm leaf es). Qed.
Lemma b_was es : names es -> in_stage H' es -> in_stage H es. Proof. exact (was_there layers layers' H H' ps nm rs rp d d' st wk Rg Rg' B B' Hc Hr Hrn Ed Eo Eo' Else Sil bare unseen es). Qed.
Lemma b_is es : names es -> in_stage H es -> in_stage H' es. Proof. exact (is_there layers layers' H H' ps nm rs rp d d' st wk Rg Rg' B B' Hc Hr Hrn Ed Eo Eo' Else Sil leaf bare unseen es). Qed.
Lemma b_same es fs : names es -> in_stage H es -> es <> cs -> draws H es fs -> same layers H H' fs. Proof. exact (else_same layers layers' H H' ps nm rs rp d d' st wk Rg Rg' B B' Hc Hr Hrn Ed Eo Eo' Else Sil leaf bare unseen es fs). Qed.
Lemma b_reads es a : names es -> in_stage H es -> es <> cs -> asked a -> reads H' es a = reads H es a. Proof. exact (else_reads layers layers' H H' ps nm rs rp d d' st wk Rg Rg' B B' Hc Hr Hrn Ed Eo Eo' Else Sil leaf bare unseen es a). Qed.
Lemma b_draws es fs : names es -> in_stage H es -> es <> cs -> draws H es fs <-> draws H' es fs. Proof. exact (else_draws layers layers' H H' ps nm rs rp d d' st wk Rg Rg' B B' Hc Hr Hrn Ed Eo Eo' Else Sil leaf bare unseen es fs). Qed.
Lemma b_worlds : opinions [] layers = [] <-> opinions [] layers' = []. Proof. exact (worlds layers layers' H ps nm rs rp d d' st wk Hc Ed Eo Eo' Else Sil leaf unseen). Qed.
Lemma b_al es : names es -> in_stage H es -> es <> cs -> forall fs, draws H es fs -> said_alike layers layers' fs. Proof. exact (else_al layers layers' H ps nm Else leaf unseen es). Qed.
Lemma b_new es : names es -> in_stage H es -> es <> cs -> forall fs ts, draws H es fs -> names ts -> ts <> [] -> reads H fs INSTANCE_PATH = Some (VStr (abs_path ts)) -> in_stage H' ts -> in_stage H ts.
Proof. intros _ _ _ fs ts _ Ht _ _. now apply b_was. Qed.
Lemma b_inst' : instances H' cs rs.
Proof. split; [exact Hr|]. split; [exact Hrn|]. split; [now apply b_is|]. exact (cs_source' layers layers' H' ps nm rs rp d d' st wk Rg' B' Hc Hr Hrn Ed Eo Eo' Sil). Qed.
Lemma b_ps : names ps. Proof. now apply names_snoc in Hc. Qed.
Lemma b_up : ps = [] \/ in_stage H ps. Proof. exact (C43_parent_there layers H wf B (r_gapless _ Rg) ps nm Hc b_here). Qed.
Lemma b_par ds : parent H cs ds <-> parent H' cs ds.
Proof.
  unfold cs. rewrite (one_parent layers H Rg B ps nm ds Hc b_here), (one_parent layers' H' Rg' B' ps nm ds Hc b_here'). split; intros (-> & Hp); (split; [reflexivity|]); [now apply b_is, Hp; apply b_ps|apply b_was; [exact b_ps|exact Hp]].
Qed.

Section Parts.
Variables H1 F H1' F' : heap.
Hypotheses (P : parts layers H1 F H) (P' : parts layers' H1' F' H').

Lemma b_layers : exists is par, layers_of F p = map Sp is /\ bs H (Co p) = map Sp is ++ par /\ par = (if here H (abs_path ps) then [Co (abs_path ps)] else []) /\
  (forall j, In j is -> j < length (specs H)) /\ spec_nodes (specs H) (map Sp is) = opinions cs layers /\ In i is /\ nth_error is (length st) = Some i /\ nth_error (specs H) i = Some d.
Proof.
  destruct (fin_layers layers H1 F H wf P cs Hc) as (is & El & L & Sn); [rewrite Eo; destruct st; discriminate|].
  destruct (bases_form layers H H1 F Rg B P cs Hc b_here) as (rest & Eb & Rs). exists is, rest. fold p in El, Eb. rewrite El in Eb. split; [exact El|]. split; [exact Eb|].
  assert (Er : rest = if here H (abs_path ps) then [Co (abs_path ps)] else []).
  { destruct Rs as [N _|ds K _|ts _ I|ds ts _ I|ds ts _ I]; try (now destruct (b_none ts I)).
    - destruct (here H (abs_path ps)) eqn:E; [|reflexivity]. exfalso. apply (N ps). apply (one_parent layers H Rg B ps nm ps Hc b_here). auto.
    - apply (one_parent layers H Rg B ps nm ds Hc b_here) in K as (-> & K). unfold in_stage in K. now rewrite K. }
  split; [exact Er|]. split; [exact L|]. split; [exact Sn|].
  assert (Len : length is = length (st ++ d :: wk)) by (rewrite <- Eo, <- Sn; symmetry; now apply spec_nodes_length).
  assert (Q : nth_error is (length st) = Some i).
  { change (bases_in (comps H) (Co p)) with (bs H (Co p)) in Enth. rewrite Eb in Enth. rewrite nth_error_app1 in Enth by (rewrite map_length, Len, app_length; cbn; lia). rewrite nth_error_map in Enth. destruct (nth_error is (length st)) as [j|]; [|discriminate]. now injection Enth as ->. }
  split; [exact (nth_error_In _ _ Q)|]. split; [exact Q|].
  assert (G : forall is T l, (forall j, In j is -> j < length T) -> spec_nodes T (map Sp is) = l -> forall k j, nth_error is k = Some j -> nth_error T j = nth_error l k).
  { clear. induction is as [|x is IH]; intros T l L E k j Hk; [destruct k; discriminate|]. cbn [map spec_nodes flat_map] in E. fold (spec_nodes T (map Sp is)) in E. destruct (nth_error T x) as [n|] eqn:En; [|apply nth_error_None in En; specialize (L x (or_introl eq_refl)); lia]. cbn [app] in E. subst l.
    destruct k as [|k]; cbn [nth_error] in Hk |- *; [injection Hk as <-; exact En|]. apply IH; [intros y Hy; apply L; now right|reflexivity|exact Hk]. }
  rewrite (G is (specs H) _ L Sn _ _ Q), Eo. rewrite nth_error_app2 by lia. now rewrite Nat.sub_diag.
Qed.

Lemma b_owned q j : In (Sp j) (bs H (Co q)) -> In (Sp j) (layers_of F q).
Proof. intros Hj. destruct (look_owned _ F H (p_good _ _ _ _ P) (p_post _ _ _ _ P)) as (O1 & _). destruct (O1 q) as (rest & E & Hrest). rewrite E in Hj. apply in_app_or in Hj as [Hj|Hj]; [exact Hj|]. destruct (Hrest _ Hj) as (x & Q). discriminate. Qed.
Lemma b_mine j q : In (Sp j) (bs H (Co p)) -> q <> p -> ~ In (Sp j) (bs H (Co q)).
Proof. intros Hj Nq Hq. apply Nq. apply (proj2 (proj2 (flat_owned _ F (p_good _ _ _ _ P)))) with j; now apply b_owned. Qed.
Lemma b_path q : here H q = true -> exists es, names es /\ q = abs_path es. Proof. exact (fin_path layers H1 F H P q). Qed.
Lemma b_nobody q : ~ In (Co p) (bs H (Co q)).
Proof.
  intros Hi. destruct (here H q) eqn:Hq; [|unfold bs, bases_in in Hi; unfold here, dmem in Hq; destruct (dget q (comps H)); [discriminate|destruct Hi]].
  destruct (b_path q Hq) as (es & He & ->). destruct (view_up_co layers H1 F H wf P es p He Hq Hi) as (ds & E & [K|I]).
  - destruct (parent_names H es ds He K) as (Hd & _). apply path_inj in E; [|exact Hc|exact Hd]. subst ds. exact (b_child es He Hq K).
  - pose proof I as (Hd & _ & _ & Er). apply path_inj in E; [|exact Hc|exact Hd]. subst ds. apply (unseen es). repeat split; auto.
Qed.
Lemma b_reach q es : q = Co (abs_path es) -> names es -> in_stage H es -> es <> cs -> ~ up H q (Co p).
Proof. intros -> He Hh Ne U. destruct (up_draws layers H1 F H wf P _ _ U es p eq_refl eq_refl He Hh) as (fs & E & D). destruct (draws_names H _ _ D He Hh) as (Hf & _). apply path_inj in E; [|exact Hc|exact Hf]. subst fs. exact (b_draw es cs D He Hh Ne eq_refl). Qed.
Lemma b_up_spec j es : In (Sp j) (bs H (Co p)) -> names es -> in_stage H es -> es <> cs -> ~ up H (Co (abs_path es)) (Sp j).
Proof. intros Hj He Hh Ne U. destruct (owner _ H _ j p (look_owned _ F H (p_good _ _ _ _ P) (p_post _ _ _ _ P)) (b_owned p j Hj) U) as [Q|Q]; [discriminate|]. exact (b_reach _ es eq_refl He Hh Ne Q). Qed.

Lemma b_bare k : here H k = true -> parent_of H k <> q0 /\ is_ancestor k q0 = false.
Proof.
  intros Hk. destruct (b_path k Hk) as (es & He & ->). split.
  - intros E. destruct (removelast_snoc' es) as [->|(qs & x & ->)].
    + unfold parent_of in E. change (abs_path []) with WORLD in E, Hk. rewrite (fin_untouched layers H1 F H P) in E by (split; [intros Q; apply str_in_In in Q; vm_compute in Q; discriminate Q|intros b [<-|[<-|[<-|[]]]]; vm_compute; discriminate]).
      rewrite (t_root _ (fin_tree layers H1 F H P)) in E by (now rewrite <- (fin_here layers H1 F H P)). symmetry in E. now apply path_not_empty in E.
    + unfold parent_of in E. rewrite (proj1 (at_place layers H wf B qs x He Hk)) in E. pose proof He as He'. apply names_snoc in He' as (Hq & Hx). apply path_inj in E; [|exact Hq|exact Hr]. subst qs. apply (bare [x]); [constructor; [exact Hx|constructor]|discriminate|exact Hk].
  - apply not_true_iff_false. intros A. apply is_ancestor_abs in A as [A|(x & Nx & ->)]; [contradiction| |now apply names_comp|now apply names_comp]. apply (bare x); [now apply Forall_app in He|exact Nx|exact Hk].
Qed.
Lemma b_weaker : Opinions.has_stronger_opinion H p INSTANCE_PATH (VStr rp) = Ok false.
Proof.
  destruct b_layers as (is & par & _ & Eb & _ & L & Sn & _). unfold Opinions.has_stronger_opinion. pose proof b_here as Hh. unfold in_stage in Hh. fold p in Hh. rewrite Hh. change (bases_in (comps H) (Co p)) with (bs H (Co p)). rewrite Eb.
  assert (G : forall is l st wk val, (forall j, In j is -> j < length (specs H)) -> spec_nodes (specs H) (map Sp is) = l -> l = st ++ d :: wk -> silent INSTANCE_PATH l -> exists w, Opinions.scan H INSTANCE_PATH (VStr rp) (map Sp is ++ par) val = (w, false)).
  { clear - Esl. induction is as [|x is IH]; intros l s0 w0 val L E El Si; [cbn in E; subst l; destruct s0; discriminate|]. cbn [map spec_nodes flat_map] in E. fold (spec_nodes (specs H) (map Sp is)) in E. destruct (nth_error (specs H) x) as [n|] eqn:En; [|apply nth_error_None in En; specialize (L x (or_introl eq_refl)); lia]. cbn [app] in E.
    cbn [map app Opinions.scan]. rewrite !(OpinionsProofs.get_sp H x _ n En). destruct (Runtime.py_eqb (value n SOURCE_LAYER) (VStr rp)) eqn:Q; [eauto|]. assert (O : has_opinion (value n INSTANCE_PATH) = false) by (apply no_opinion_says; apply Si; rewrite <- E; now left). rewrite O.
    destruct s0 as [|y s1]; cbn [app] in El; rewrite <- E in El; injection El as E1 E2; [rewrite E1, Esl in Q; exfalso; cbn [Runtime.py_eqb] in Q; rewrite str_eqb_refl in Q; discriminate|]. apply (IH (s1 ++ d :: w0) s1 w0 (value n INSTANCE_PATH)); [intros j Hj; apply L; now right|exact E2|reflexivity|]. intros m Hm. apply Si. rewrite <- E. right. now rewrite E2. }
  destruct (G is _ st wk VNone L Sn Eo Sil) as (w & ->). now destruct (Runtime.py_eqb _ w).
Qed.
Lemma b_said is a : spec_nodes (specs H) (map Sp is) = opinions cs layers -> silent a (opinions cs layers) -> silent_in H is a.
Proof.
  intros Sn Si j Hj. unfold ref_attr. destruct (nth_error (specs H) j) as [n|] eqn:En; [|reflexivity]. apply no_opinion_says. apply Si. rewrite <- Sn. unfold spec_nodes. apply in_flat_map. exists (Sp j). split; [now apply in_map|]. rewrite En. now left.
Qed.
Lemma b_loud is a : spec_nodes (specs H) (map Sp is) = opinions cs layers -> In a INSTANCE_ATTRS -> silent_in H is a \/ has_opinion (attr H p a) = true.
Proof.
  intros Sn Ha. destruct (speak_or_silent a (opinions cs layers)) as [(m & Sm)|Si]; [right|left; now apply b_said]. destruct (C32_strongest layers H wf B cs a m Hc (passed_tracked a Ha) Sm) as (E & _).
  rewrite (view_internal layers H1 F H wf P cs a b_here (proj1 (tracked_key a (passed_tracked a Ha)))) in E. injection E as E. apply has_opinion_says. fold p in E. rewrite E. now destruct Sm as (x & y & _ & S & _).
Qed.

(** The bases that stay. *)
Definition b_keeps (c : ref) : bool := negb (existsb (fun b => match mro_of H b with Some l => isin ref_eqb c l | None => false end) (bases_in (comps H) (Co q0))).
Lemma b_drops c : b_keeps c = false -> c <> Co q0 /\ up H (Co q0) c.
Proof.
  unfold b_keeps. rewrite negb_false_iff. intros E. apply existsb_exists in E as (b & Hb & E). destruct (mro_of H b) as [l|] eqn:El; [|discriminate]. apply (isin_In ref_eqb ref_eqb_eq) in E. apply (mro_laws ref_eqb ref_eqb_eq _ _ _ _ El) in E. assert (U : up H b c) by exact E.
  split; [|eapply above_base; [exact Hb|exact U]]. intros ->. exact (sound_acyclic H (Co q0) b (one_sound layers H Rg B) Hb U).
Qed.
Lemma b_drop_up c : up H (Co q0) c -> c <> Co q0 -> (exists q, c = Co q) -> b_keeps c = false.
Proof.
  intros U N _. inversion U as [x|x b y Hb U']; subst; [contradiction|]. unfold b_keeps. apply negb_false_iff. apply existsb_exists. exists b. split; [exact Hb|].
  assert (Em : exists l, mro_of H b = Some l). { destruct b as [j|q]; [exists [Sp j]; unfold mro_of; now rewrite mro_no_bases|]. apply (one_sound layers H Rg B). exact (proj1 (valid_bs H) (proj1 (one_sound layers H Rg B)) q0 (Co q) Hrh Hb). }
  destruct Em as (l & El). rewrite El. apply (isin_In ref_eqb ref_eqb_eq). now apply (mro_laws ref_eqb ref_eqb_eq _ _ _ _ El).
Qed.
Lemma b_safe is par : bs H (Co p) = map Sp is ++ par -> safe_bases H (map Sp is ++ par) q0 = map Sp is ++ filter b_keeps par.
Proof.
  intros Eb. change (safe_bases H (map Sp is ++ par) q0) with (filter b_keeps (map Sp is ++ par)). rewrite filter_app. f_equal.
  assert (A : forall x, In x (map Sp is) -> b_keeps x = true).
  { intros x Hx. destruct (b_keeps x) eqn:E; [reflexivity|]. exfalso. apply b_drops in E as (_ & U). apply in_map_iff in Hx as (j & <- & Hj). apply (b_up_spec j rs) in U; auto; [|exact b_rc]. rewrite Eb. apply in_or_app. left. now apply in_map. }
  clear Eb. induction (map Sp is) as [|x l IH]; [reflexivity|]. cbn [filter]. rewrite A by now left. f_equal. apply IH. intros y Hy. apply A. now right.
Qed.
Lemma b_rest par : par = (if here H (abs_path ps) then [Co (abs_path ps)] else []) -> (filter b_keeps par = par \/ filter b_keeps par = []) /\ rest_of (parent H cs) (fun r => r = rs) (draws H) (filter b_keeps par ++ [Co q0]).
Proof.
  intros ->. destruct (here H (abs_path ps)) eqn:Hp; cbn [filter].
  - assert (K : parent H cs ps) by (apply (one_parent layers H Rg B ps nm ps Hc b_here); auto). destruct (b_keeps (Co (abs_path ps))) eqn:E.
    + split; [now left|]. cbn [app]. apply rest_both; [exact K|reflexivity|]. intros D. apply (draws_up layers H1 F H wf P rs ps) in D; [|exact Hr|exact Hrh]. rewrite (b_drop_up _ D) in E; [discriminate| |eauto]. intros [= Q]. apply path_inj in Q; [|exact b_ps|exact Hr]. now apply b_rp.
    + split; [now right|]. cbn [app]. apply b_drops in E as (_ & U). destruct (up_draws layers H1 F H wf P _ _ U rs _ eq_refl eq_refl Hr Hrh) as (fs & Q & D). destruct (draws_names H _ _ D Hr Hrh) as (Hf & _). apply path_inj in Q; [|exact b_ps|exact Hf]. subst fs. now apply rest_over with ps.
  - split; [now left|]. cbn [app]. apply rest_source; [|reflexivity]. intros ds K. apply (one_parent layers H Rg B ps nm ds Hc b_here) in K as (_ & K). unfold in_stage in K. congruence.
Qed.

(** The classes after the run and those of the new stage, side by side. *)
Inductive twin : ref -> ref -> Prop :=
| twin_node es : names es -> in_stage H es -> twin (Co (abs_path es)) (Co (abs_path es))
| twin_layer es k j j' : names es -> in_stage H es -> nth_error (layers_of F (abs_path es)) k = Some (Sp j) -> nth_error (layers_of F' (abs_path es)) k = Some (Sp j') -> twin (Sp j') (Sp j).
Lemma twin_one x y x' y' : twin x x' -> twin y y' -> (x = y <-> x' = y').
Proof.
  intros A A'. pose proof (proj2 (proj2 (flat_owned _ F (p_good _ _ _ _ P)))) as O. pose proof (proj2 (proj2 (flat_owned _ F' (p_good _ _ _ _ P')))) as O'.
  destruct A as [es D1 D2|es k j j' D1 D2 E E'], A' as [fs D3 D4|fs k2 l l' D3 D4 E2 E2']; try (split; congruence).
  split; intros Q; injection Q as ->.
  - pose proof (O' _ _ l' (nth_error_In _ _ E') (nth_error_In _ _ E2')) as Q. rewrite Q in *. rewrite (nth_once _ F' (p_good _ _ _ _ P') _ _ _ _ E' E2') in *. congruence.
  - pose proof (O _ _ l (nth_error_In _ _ E) (nth_error_In _ _ E2)) as Q. rewrite Q in *. rewrite (nth_once _ F (p_good _ _ _ _ P) _ _ _ _ E E2) in *. congruence.
Qed.
Lemma flip2 {A} (R Q : A -> A -> Prop) l l' : (forall x y, R x y -> Q y x) -> Forall2 R l l' -> Forall2 Q l' l.
Proof. intros I. induction 1; constructor; auto. Qed.
Lemma twin_bases Y is par : layers_of F p = map Sp is -> spec_nodes (specs H) (map Sp is) = opinions cs layers -> (forall j, In j is -> j < length (specs H)) -> par = (if here H (abs_path ps) then [Co (abs_path ps)] else []) ->
  (forall q, q <> p -> bs Y (Co q) = bs H (Co q)) -> bs Y (Co p) = map Sp is ++ filter b_keeps par ++ [Co q0] -> forall x x', twin x x' -> Forall2 twin (bs H' x) (bs Y x').
Proof.
  intros El Sn L Ep Eq Eb x x' T. destruct T as [es He Hh|es k j j' He Hh E E']; [|constructor]. destruct (list_eq_dec (list_eq_dec N.eq_dec) es cs) as [->|Ne].
  - fold p. rewrite Eb. destruct (bases_form layers' H' H1' F' Rg' B' P' cs Hc b_here') as (rest' & Eb' & Rs'). fold p in Eb'. rewrite Eb'. apply Forall2_app.
    + destruct (fin_layers layers' H1' F' H' wf' P' cs Hc) as (is' & El' & L' & Sn'); [rewrite Eo'; destruct st; discriminate|]. fold p in El'. rewrite El'.
      assert (Len : length is = length is'). { rewrite <- (spec_nodes_length (specs H) is L), <- (spec_nodes_length (specs H') is' L'). rewrite Sn, Sn', Eo, Eo', !app_length. reflexivity. }
      assert (G : forall k j j', nth_error is k = Some j -> nth_error is' k = Some j' -> twin (Sp j') (Sp j)). { intros k j j' E E'. apply twin_layer with cs k; [exact Hc|exact b_here|fold p; rewrite El; exact (map_nth_error Sp k is E)|fold p; rewrite El'; exact (map_nth_error Sp k is' E')]. }
      clear - Len G. revert is' Len G. induction is as [|x is IH]; intros [|x' is'] Len G; try discriminate; constructor; [now apply (G 0)|]. apply IH; [now injection Len|]. intros k. apply (G (S k)).
    + destruct (b_rest par Ep) as (_ & Rs).
      rewrite <- (rest_same _ _ _ _ _ _ _ rest' (fun d e => closest_unique _ _ d e) (fun d e (E1 : d = rs) (E2 : e = rs) => eq_trans E1 (eq_sym E2)) b_par
        (fun r => conj (fun E : r = rs => eq_ind_r (fun r => instances H' cs r) b_inst' E) (fun I => one_inst_fun H' cs r rs I b_inst'))
        (fun r d (E : r = rs) => eq_ind_r (fun r => draws H r d <-> draws H' r d) (b_draws rs d Hr Hrh b_rc) E) Rs Rs').
      assert (K : forall ds, parent H cs ds -> twin (Co (abs_path ds)) (Co (abs_path ds))) by (intros ds K; destruct (parent_names H cs ds Hc K); now apply twin_node). assert (K2 : forall r, r = rs -> twin (Co (abs_path r)) (Co (abs_path r))) by (intros r ->; now apply twin_node).
      destruct Rs; repeat (apply Forall2_cons || apply Forall2_nil); auto.
  - rewrite (Eq (abs_path es)) by (intros Q; apply path_inj in Q; auto).
    pose proof (paired_bases layers layers' H H' Rg Rg' B B' b_worlds es He Hh (b_al es He Hh Ne) (b_new es He Hh Ne) H1 F H1' F' P P' _ _ (paired_node H es F F' es (draws_self H es))) as Pb.
    revert Pb. apply flip2. intros y y' [fs D|fs k j j' D E E']; destruct (draws_names H es fs D He Hh) as (Hf & Hfh); [now apply twin_node|now apply twin_layer with fs k].
Qed.
Lemma twin_mro Y is par es : layers_of F p = map Sp is -> spec_nodes (specs H) (map Sp is) = opinions cs layers -> (forall j, In j is -> j < length (specs H)) -> par = (if here H (abs_path ps) then [Co (abs_path ps)] else []) ->
  (forall q, q <> p -> bs Y (Co q) = bs H (Co q)) -> bs Y (Co p) = map Sp is ++ filter b_keeps par ++ [Co q0] -> valid Y -> names es -> in_stage H es ->
  exists l l', mro_of H' (Co (abs_path es)) = Some l' /\ mro_of Y (Co (abs_path es)) = Some l /\ Forall2 twin l' l.
Proof.
  intros El Sn L Ep Eq Eb V He Hh. destruct (one_sound layers' H' Rg' B') as (_ & So'). destruct (So' (abs_path es) (b_is es He Hh)) as (l' & El'). pose proof (mro_short _ _ _ _ El') as Es. change (bases_in (comps H')) with (bs H') in Es.
  pose proof (mro_alike ref_eqb ref_eqb_eq twin twin_one (bs H') (bs Y) (twin_bases Y is par El Sn L Ep Eq Eb) (length l') _ _ (twin_node es He Hh)) as M. rewrite Es in M. unfold RO in M. destruct (mro ref_eqb (bs Y) (length l') (Co (abs_path es))) as [l|] eqn:EY; [|destruct M].
  exists l, l'. split; [exact El'|]. split; [exact (mro_enough Y _ _ _ V EY)|exact M].
Qed.
Lemma b_valid Y is par : (forall j, In j is -> j < length (specs H)) -> par = (if here H (abs_path ps) then [Co (abs_path ps)] else []) -> length (specs Y) = length (specs H) -> dkeys (comps Y) = dkeys (comps H) ->
  (forall q, q <> p -> bs Y (Co q) = bs H (Co q)) -> bs Y (Co p) = map Sp is ++ filter b_keeps par ++ [Co q0] -> valid Y.
Proof.
  intros L Ep Ls Ks Eq Eb. assert (Hq : forall q, here Y q = here H q). { intros q. destruct (here H q) eqn:E; [|apply not_true_iff_false; apply not_true_iff_false in E]; rewrite here_In in *; now rewrite Ks. }
  apply valid_bs. intros q r Hh Hi. rewrite Hq in Hh. destruct (str_eqb q p) eqn:E.
  - apply str_eqb_eq in E as ->. rewrite Eb in Hi. apply in_app_or in Hi as [Hi|Hi]; [apply in_map_iff in Hi as (j & <- & Hj); rewrite Ls; now apply L|]. apply in_app_or in Hi as [Hi|[<-|[]]]; [|rewrite Hq; exact Hrh].
    apply filter_In in Hi as (Hi & _). rewrite Ep in Hi. destruct (here H (abs_path ps)) eqn:Hp; [|destruct Hi]. destruct Hi as [<-|[]]. now rewrite Hq.
  - apply str_eqb_neq in E. rewrite (Eq q E) in Hi. pose proof (proj1 (valid_bs H) (proj1 (one_sound layers H Rg B)) q r Hh Hi) as K. destruct r as [j|x]; [now rewrite Ls|now rewrite Hq].
Qed.

Lemma b_run top one fuel : exists X ds is par, set_instance top one (S fuel) H i (VStr rp) (VStr q0) = Some (Ok (X, ds)) /\ In p ds /\
  layers_of F p = map Sp is /\ spec_nodes (specs H) (map Sp is) = opinions cs layers /\ (forall j, In j is -> j < length (specs H)) /\ In i is /\ par = (if here H (abs_path ps) then [Co (abs_path ps)] else []) /\
  bs H (Co p) = map Sp is ++ par /\ nth_error (specs H) i = Some d /\
  reach H ps nm rs i d (VStr rp) is X /\ bs X (Co p) = map Sp is ++ filter b_keeps par ++ [Co q0] /\
  forall a, In a INSTANCE_ATTRS -> silent_in H is a -> own_attr X a (Co p) = Some (pick H rs a).
Proof.
  destruct b_layers as (is & par & El & Eb & Ep & L & Sn & Hi & _ & Ei). pose proof b_here as Hh. destruct (at_place layers H wf B ps nm Hc Hh) as (Ap & An).
  destruct (b_rest par Ep) as (Er & _).
  destruct (run_form H ps nm rs i d (VStr rp) is (filter b_keeps par)) with (top := top) (one := one) (fuel := fuel) as (X & ds & R).
  - exact (one_sound layers H Rg B).
  - exact Hc.
  - exact Hr.
  - exact Hrn.
  - exact b_rc.
  - exact b_low.
  - exact Hh.
  - exact Hrh.
  - exact (quiet_p layers layers' H ps nm rs rp d d' st wk Rg B Hc Ed Eo Eo' Else Sil leaf unseen).
  - exact (quiet_pp layers layers' H ps nm rs rp d d' st wk Rg B Hc Ed Eo Eo' Else Sil leaf unseen).
  - destruct b_up as [E|E]; [now left|right; exact E].
  - exact Ap.
  - exact An.
  - rewrite (view_internal layers H1 F H wf P cs _ Hh inst_key) in Eold. now injection Eold.
  - rewrite <- Ep. exact Eb.
  - exact Hi.
  - exact Ei.
  - intros q Nq. apply b_mine; [|exact Nq]. fold cs p. rewrite Eb. apply in_or_app. left. now apply in_map.
  - exact b_nobody.
  - destruct (opinion_at layers wf ps nm d Hc) as (V1 & V2 & _); [fold cs; rewrite Eo; apply in_or_app; right; now left|]. unfold path_of, ref_attr. rewrite Ei. change (attr_or_none d PARENT_PATH) with (value d PARENT_PATH). change (attr_or_none d NAME) with (value d NAME). rewrite V1, V2. cbn [str_of]. apply join_node_paths_abs. now apply names_comp.
  - intros Hp. exact (check_comp layers H wf B World ps b_ps Hp).
  - exact (check_comp layers H wf B World rs Hr Hrh).
  - intros j Hj. apply (check_spec layers H wf B ps nm j Hc Hh). change (In (Sp j) (bs H (Co p))). rewrite Eb. apply in_or_app. left. now apply in_map.
  - exact b_bare.
  - exact b_weaker.
  - intros a Ha. now apply b_loud.
  - rewrite <- Ep. exact (b_safe is par Eb).
  - intros Y Ls Ks Eq EY. destruct (twin_mro Y is par cs El Sn L Ep Eq EY (b_valid Y is par L Ep Ls Ks Eq EY) Hc Hh) as (l & _ & _ & M & _). exists l. exact M.
  - rewrite <- Ep. exact Er.
  - exists X, ds, is, par. destruct R as (R1 & R2 & R3 & R4 & R5). split; [exact R1|]. split; [exact R2|]. split; [exact El|]. split; [exact Sn|]. split; [exact L|]. split; [exact Hi|]. split; [exact Ep|]. split; [exact Eb|]. split; [exact Ei|]. split; [exact R3|]. split; [exact R4|exact R5].
Qed.

(** Values of a node that says nothing. *)
Lemma quiet_value a : In a passed_on -> forall n es, tall H (Co (abs_path es)) < n -> names es -> in_stage H es -> exists w, reads H es a = Some w /\ (says w \/ w = unsaid a).
Proof.
  intros Ha. induction n as [|n IH]; intros es T He Hh; [lia|].
  assert (Q : opinions es layers = [] \/ opinions es layers <> []) by (destruct (opinions es layers); [now left|right; discriminate]). destruct Q as [E|E].
  - destruct es as [|x es _] using rev_ind; [now apply (one_root layers H Rg B) in Hh|].
    destruct (one_proxy layers H Rg B es x He Hh E) as (ts & _ & _ & _ & I & Q). rewrite Q by (unfold passed_on in Ha; cbn [In] in Ha |- *; tauto). apply IH; [|apply I|apply I]. pose proof (one_source_tall layers H Rg B _ _ Hh I). lia.
  - destruct (speak_or_silent a (opinions es layers)) as [(m & Sm)|Si].
    + destruct (C32_strongest layers H wf B es a m He (passed_tracked a Ha) Sm) as (-> & _). exists (value m a). split; [reflexivity|]. left. now destruct Sm as (x & y & _ & S & _).
    + assert (D : (exists ts, instances H es ts) \/ forall ts, ~ instances H es ts).
      { destruct (attr H (abs_path es) INSTANCE_PATH) as [|b|z|q|l|l|x|o] eqn:Ea; try (right; intros ts I; apply (view_source layers H1 F H wf P es ts Hh) in I as (I & _); rewrite Ea in I; discriminate).
        destruct (str_eqb q WORLD) eqn:Q; [right; intros ts I; apply (view_source layers H1 F H wf P es ts Hh) in I as (I & I2 & _); rewrite Ea in I; injection I as ->; now apply str_eqb_eq in Q|]. apply str_eqb_neq in Q.
        destruct (here H q) eqn:Hq; [left; destruct (view_src layers H1 F H wf P es q Hh (conj Ea (conj Q Hq))) as (ts & _ & I); eauto|]. right. intros ts I. apply (view_source layers H1 F H wf P es ts Hh) in I as (I & _ & I2). rewrite Ea in I. injection I as ->. congruence. }
      destruct D as [(ts & I)|N].
      * destruct (C34_passed_on layers H wf B es ts a He E Ha Si I) as (-> & _). apply IH; [|apply I|apply I]. pose proof (one_source_tall layers H Rg B _ _ Hh I). lia.
      * destruct (opinions es layers) as [|m l] eqn:Em; [contradiction|]. assert (Si' : silent a (opinions es layers)) by now rewrite Em. destruct (C32_silent layers H wf B es a m l He (passed_tracked a Ha) Em Si' (or_intror N)) as (-> & _). exists (value m a). split; [reflexivity|]. apply (Plain es m a); [rewrite Em; now left|exact Ha].
Qed.

Lemma nth_spec T : forall js l, (forall j, In j js -> j < length T) -> spec_nodes T (map Sp js) = l -> forall k j, nth_error js k = Some j -> nth_error T j = nth_error l k.
Proof.
  clear. induction js as [|x js IH]; intros l L E k j Hk; [destruct k; discriminate|]. cbn [map spec_nodes flat_map] in E. fold (spec_nodes T (map Sp js)) in E. destruct (nth_error T x) as [n|] eqn:En; [|apply nth_error_None in En; specialize (L x (or_introl eq_refl)); lia]. cbn [app] in E. subst l.
  destruct k as [|k]; cbn [nth_error] in Hk |- *; [injection Hk as <-; exact En|]. apply IH; [intros y Hy; apply L; now right|reflexivity|exact Hk].
Qed.
Section Got.
Variables (X : heap) (is : list nat) (par : list ref).
Hypothesis El : layers_of F p = map Sp is.
Hypothesis Sn : spec_nodes (specs H) (map Sp is) = opinions cs layers.
Hypothesis L : forall j, In j is -> j < length (specs H).
Hypothesis Hi : In i is.
Hypothesis Ep : par = (if here H (abs_path ps) then [Co (abs_path ps)] else []).
Hypothesis Eb : bs H (Co p) = map Sp is ++ par.
Hypothesis Ei : nth_error (specs H) i = Some d.
Hypothesis R : reach H ps nm rs i d (VStr rp) is X.
Hypothesis EbX : bs X (Co p) = map Sp is ++ filter b_keeps par ++ [Co q0].
Hypothesis Fill : forall a, In a INSTANCE_ATTRS -> silent_in H is a -> own_attr X a (Co p) = Some (pick H rs a).

Lemma x_here q : here X q = here H q.
Proof. pose proof (y_keys _ _ _ _ _ _ _ _ _ R) as K. destruct (here H q) eqn:E; [|apply not_true_iff_false; apply not_true_iff_false in E]; rewrite here_In in *; now rewrite K. Qed.
Lemma x_len : length (specs X) = length (specs H).
Proof. rewrite (y_specs _ _ _ _ _ _ _ _ _ R). apply with_spec_length. now apply L. Qed.
Lemma x_valid : valid X.
Proof. exact (b_valid X is par L Ep x_len (y_keys _ _ _ _ _ _ _ _ _ R) (y_bs _ _ _ _ _ _ _ _ _ R) EbX). Qed.
Lemma free_key a : free H is a -> In a internal_keys.
Proof. intros [[->| ->]|[->|(b & Hb & _ & [->| ->])]]; try (apply str_in_In; reflexivity); repeat destruct Hb as [<-|Hb]; try destruct Hb; apply str_in_In; reflexivity. Qed.
Lemma moved_key a : moved a -> In a internal_keys. Proof. intros M. apply free_key. now left. Qed.
Lemma x_spec j a : j <> i \/ ~ moved a -> own_attr X a (Sp j) = own_attr H a (Sp j).
Proof. exact (y_spec H ps nm rs i d (VStr rp) is Ei X j a R). Qed.
Lemma x_own a : ~ free H is a -> own_attr X a (Co p) = own_attr H a (Co p). Proof. exact (y_own _ _ _ _ _ _ _ _ _ R a). Qed.
Lemma x_own_inst : own_attr X INSTANCE_PATH (Co p) = Some (VStr q0). Proof. exact (y_inst _ _ _ _ _ _ _ _ _ R). Qed.
Lemma x_own_src : own_attr X (source_of INSTANCE_PATH) (Co p) = Some (VTuple [VStr rp; VStr p]). Proof. exact (y_src _ _ _ _ _ _ _ _ _ R). Qed.
Lemma x_own_else q a : q <> p -> own_attr X a (Co q) = own_attr H a (Co q). Proof. exact (y_else _ _ _ _ _ _ _ _ _ R q a). Qed.
Lemma d_else a : ~ moved a -> dget a d' = dget a d.
Proof. intros N. apply Ed; intros ->; apply N; [now left|now right]. Qed.
Lemma twin_own a x x' : ~ In a internal_keys -> twin x x' -> own_attr H' a x = own_attr X a x'.
Proof.
  intros Ha T. assert (Nm : ~ moved a) by (intros M; apply Ha; now apply moved_key). destruct T as [es He Hh|es k j j' He Hh E E'].
  - rewrite (own_co _ F' H' (p_good _ _ _ _ P') (p_post _ _ _ _ P') a Ha). destruct (str_eqb (abs_path es) p) eqn:Q.
    + apply str_eqb_eq in Q. rewrite Q. rewrite (x_own a) by (intros Q2; apply Ha; now apply free_key). symmetry. exact (own_co _ F H (p_good _ _ _ _ P) (p_post _ _ _ _ P) a Ha p).
    + apply str_eqb_neq in Q. rewrite (x_own_else _ a Q). symmetry. exact (own_co _ F H (p_good _ _ _ _ P) (p_post _ _ _ _ P) a Ha _).
  - rewrite x_spec by now right. destruct (list_eq_dec (list_eq_dec N.eq_dec) es cs) as [Q|Ne].
    + rewrite Q in E, E'. change (abs_path cs) with p in E, E'. rewrite El in E. destruct (fin_layers layers' H1' F' H' wf' P' cs Hc) as (is' & El' & L' & Sn'); [rewrite Eo'; destruct st; discriminate|]. fold p in El'. rewrite El' in E'. rewrite nth_error_map in E, E'. destruct (nth_error is k) as [j0|] eqn:Ej; [|discriminate]. destruct (nth_error is' k) as [j0'|] eqn:Ej'; [|discriminate]. injection E as ->. injection E' as ->.
      unfold own_attr. rewrite (nth_spec _ is _ L Sn k j Ej), (nth_spec _ is' _ L' Sn' k j' Ej'), Eo, Eo'. clear - Nm Ed. revert k. induction st as [|m s IH]; intros [|k]; cbn [app nth_error]; auto. exact (d_else a Nm).
    + symmetry. exact (paired_own layers layers' H H' Rg Rg' B B' b_worlds es He Hh (b_al es He Hh Ne) (b_new es He Hh Ne) H1 F H1' F' P P' a _ _ Ha (paired_layer H es F F' es k j j' (draws_self H es) E E')).
Qed.
Lemma x_user es a : ~ In a internal_keys -> names es -> in_stage H es -> reads X es a = reads H' es a.
Proof.
  intros Ha He Hh. destruct (twin_mro X is par es El Sn L Ep (y_bs _ _ _ _ _ _ _ _ _ R) EbX x_valid He Hh) as (l & l' & E' & E & T). unfold reads, getattr. rewrite E, E'. symmetry. apply (lookup_alike twin _ _ (fun x x' => twin_own a x x' Ha) l' l T).
Qed.
Lemma look_same {V} (f g : ref -> option V) l : (forall x, In x l -> f x = g x) -> lookup_in f l = lookup_in g l.
Proof. induction l as [|x l IH]; intros E; [reflexivity|]. cbn [lookup_in]. rewrite (E x) by now left. rewrite IH by (intros y Hy; apply E; now right). reflexivity. Qed.
Lemma x_else es a : names es -> in_stage H es -> es <> cs -> reads X es a = reads H es a.
Proof.
  intros He Hh Ne. assert (Np : Co (abs_path es) <> Co p) by (intros [= Q]; apply path_inj in Q; auto). unfold reads, getattr.
  assert (M : mro_of X (Co (abs_path es)) = mro_of H (Co (abs_path es))).
  { apply (still_mro H ps nm rs i d (VStr rp) is b_up Ei b_nobody (fun Hp => check_comp layers H wf B World ps b_ps Hp) X _ R Np). }
  rewrite M. destruct (mro_of H (Co (abs_path es))) as [l|] eqn:E; [|reflexivity]. f_equal. apply look_same. intros x Hx. assert (U : up H (Co (abs_path es)) x) by (now apply (mro_laws ref_eqb ref_eqb_eq _ _ _ _ E) in Hx).
  destruct x as [j|q].
  - apply x_spec. left. intros ->. apply (b_up_spec i es) in U; auto. rewrite Eb. apply in_or_app. left. now apply in_map.
  - apply x_own_else. intros ->. exact (b_reach _ es eq_refl He Hh Ne U).
Qed.
Lemma x_first : exists j0 l r, mro_of X (Co p) = Some (Co p :: Sp j0 :: l) /\ bs X (Co p) = Sp j0 :: r /\ is <> [] /\ hd_error is = Some j0.
Proof.
  assert (Q0 : exists j0 is', is = j0 :: is'). { clear - Hi. destruct is as [|j0 is']; [destruct Hi|eauto]. } destruct Q0 as (j0 & is' & Eis).
  destruct (twin_mro X is par cs El Sn L Ep (y_bs _ _ _ _ _ _ _ _ _ R) EbX x_valid Hc b_here) as (l & l' & E' & E & T). fold p in E, E'.
  destruct (first_layer layers' H' cs wf' B' b_here') as (k & l2 & r2 & M & Q). fold p in M, Q. rewrite M in E'. injection E' as <-. inversion T as [|x y t t' T1 T2 Q1 Q2]. rewrite <- Q2 in E. inversion T2 as [|x2 y2 t2 t3 T3 T4 Q3 Q4]. rewrite <- Q4 in E.
  assert (Y1 : y = Co p). { apply (twin_one (Co p) (Co p) y (Co p) T1 (twin_node cs Hc b_here)). reflexivity. }
  assert (TB := twin_bases X is par El Sn L Ep (y_bs _ _ _ _ _ _ _ _ _ R) EbX _ _ (twin_node cs Hc b_here)). fold p in TB. pose proof EbX as EB. rewrite Eis in EB. cbn [map app] in EB. rewrite Q, EB in TB. inversion TB as [|b b' tb tb' B1 B2].
  assert (Y2 : y2 = Sp j0). { apply (twin_one (Sp k) (Sp k) y2 (Sp j0)); auto. }
  rewrite Y1, Y2 in E. exists j0, t3. eexists. split; [exact E|]. split; [exact EB|]. rewrite Eis. split; [discriminate|reflexivity].
Qed.
Lemma x_reads a : In a internal_keys -> ~ moved a -> reads X cs a = Some (attr X p a).
Proof.
  intros Ha Nm. destruct x_first as (j0 & l & r & M & Q & _ & Hd). unfold reads, getattr. fold p. rewrite M, attr_own, Q. cbn [lookup_in]. destruct (own_attr X a (Co p)); [reflexivity|]. rewrite !x_spec by now right.
  assert (K : exists w, own_attr H a (Sp j0) = Some w).
  { assert (I0 : nth_error is 0 = Some j0) by (destruct is; [discriminate|exact Hd]). pose proof (nth_spec _ is _ L Sn 0 j0 I0) as E. assert (Hl : j0 < length (specs H)) by (apply L; now apply nth_error_In in I0). apply nth_error_Some in Hl. destruct (nth_error (specs H) j0) as [m|] eqn:Em; [|contradiction].
    unfold own_attr. rewrite Em. symmetry in E. apply nth_error_In in E. pose proof (opinion_keys layers wf cs m a Hc E Ha) as K. destruct (dget a m); [eauto|contradiction]. }
  destruct K as (w & ->). reflexivity.
Qed.
Lemma x_keeps a : In a internal_keys -> ~ free H is a -> reads X cs a = reads H cs a.
Proof.
  intros Ha Nf. rewrite x_reads by (auto; intros M; apply Nf; now left). rewrite (view_internal layers H1 F H wf P cs a b_here Ha). f_equal. fold p. rewrite !attr_own, (x_own a Nf), Eb, EbX. destruct (own_attr H a (Co p)); [reflexivity|].
  assert (Q0 : exists j0 is', is = j0 :: is'). { clear - Hi. destruct is as [|j0 is']; [destruct Hi|eauto]. } destruct Q0 as (j0 & is' & Eis). rewrite Eis. cbn [map app]. rewrite x_spec; [reflexivity|]. right. intros M. apply Nf. now left.
Qed.
Lemma value_else a : ~ moved a -> value d' a = value d a.
Proof. intros N. unfold value. now rewrite (d_else a N). Qed.
Lemma head_same : exists m m' l l', opinions cs layers = m :: l /\ opinions cs layers' = m' :: l' /\ forall a, ~ moved a -> value m' a = value m a.
Proof. rewrite Eo, Eo'. destruct st as [|m s]; cbn [app]; [exists d, d', wk, wk|exists m, m, (s ++ d :: wk), (s ++ d' :: wk)]; repeat split; auto. intros a. apply value_else. Qed.
Lemma silent_same a : ~ moved a -> silent a (opinions cs layers) -> silent a (opinions cs layers').
Proof. intros N Si m Hm. rewrite Eo' in Hm. rewrite Eo in Si. apply in_app_or in Hm as [Hm|[<-|Hm]]; [apply Si; apply in_or_app; now left| |apply Si; apply in_or_app; right; now right]. rewrite (value_else a N). apply Si. apply in_or_app. right. now left. Qed.
Lemma speaks_same a m : ~ moved a -> speaks_first a (opinions cs layers) m -> exists m', speaks_first a (opinions cs layers') m' /\ value m' a = value m a.
Proof.
  intros N (x & y & E & S1 & S2). rewrite Eo in E. rewrite Eo'. clear - N E S1 S2 Ed. revert x E S2. induction st as [|h s IH]; intros [|h' x] E S2; cbn [app] in E |- *; injection E as E1 E2.
  - exists d'. split; [|rewrite (value_else a N); now rewrite E1]. exists [], wk. split; [reflexivity|]. split; [|intros ? []]. rewrite (value_else a N), E1. exact S1.
  - exists m. split; [|reflexivity]. exists (d' :: x), y. split; [now rewrite E2|]. split; [exact S1|]. intros m0 [<-|Hm]; [|apply S2; now right]. rewrite (value_else a N). apply S2. left. now symmetry.
  - exists m. split; [|reflexivity]. exists [], (s ++ d' :: wk). split; [now rewrite E1|]. split; [exact S1|]. intros ? [].
  - destruct (IH x E2) as (m' & (x' & y' & Q1 & Q2 & Q3) & Q4); [intros m0 Hm; apply S2; now right|]. exists m'. split; [|exact Q4]. exists (h :: x'), y'. split; [cbn [app]; now rewrite Q1|]. split; [exact Q2|]. intros m0 [<-|Hm]; [apply S2; now left|now apply Q3].
Qed.
Lemma said_spec a : silent_in H is a -> silent a (opinions cs layers).
Proof.
  intros Si m Hm S. rewrite <- Sn in Hm. unfold spec_nodes in Hm. apply in_flat_map in Hm as (r & Hrr & Hm). apply in_map_iff in Hrr as (j & <- & Hj). specialize (Si j Hj). unfold ref_attr in Si. destruct (nth_error (specs H) j) as [n|]; [|destruct Hm]. destruct Hm as [->|[]]. apply no_opinion_says in Si. contradiction.
Qed.
Lemma x_place a : In a [NAME; PARENT_PATH; SOURCE_LAYER; PROXY] -> reads X cs a = reads H' cs a.
Proof.
  intros Ha. assert (Nm : ~ moved a) by (intros [->| ->]; apply str_in_In in Ha; vm_compute in Ha; discriminate Ha). rewrite x_keeps.
  - destruct head_same as (m & m' & l & l' & E & E' & V). rewrite (C32_identity layers H wf B cs m l a Hc E Ha), (C32_identity layers' H' wf' B' cs m' l' a Hc E' Ha). now rewrite (V a Nm).
  - repeat destruct Ha as [<-|Ha]; try destruct Ha; apply str_in_In; reflexivity.
  - intros [M|[->|(b & Hb & _ & Q)]]; [contradiction|apply str_in_In in Ha; vm_compute in Ha; discriminate Ha|]. repeat destruct Hb as [<-|Hb]; try destruct Hb; destruct Q as [->| ->]; apply str_in_In in Ha; vm_compute in Ha; discriminate Ha.
Qed.
Lemma tracked_moved a : In a tracked -> ~ moved a.
Proof. intros Ha [->| ->]; apply str_in_In in Ha; vm_compute in Ha; discriminate Ha. Qed.
Lemma tracked_free a : In a tracked -> free H is a -> In a passed_on /\ silent_in H is a.
Proof.
  intros Ha [M|[->|(b & Hb & Si & [->| ->])]]; [now destruct (tracked_moved a Ha)|apply str_in_In in Ha; vm_compute in Ha; discriminate Ha|now split|]. repeat destruct Hb as [<-|Hb]; try destruct Hb; apply str_in_In in Ha; vm_compute in Ha; discriminate Ha.
Qed.
Lemma x_tracked a : In a tracked -> reads X cs a = reads H' cs a.
Proof.
  intros Ha. pose proof (tracked_moved a Ha) as Nm. destruct (tracked_key a Ha) as (Ka & _). destruct (speak_or_silent a (opinions cs layers)) as [(m & Sm)|Si].
  - rewrite x_keeps; [|exact Ka|].
    + destruct (speaks_same a m Nm Sm) as (m' & Sm' & V). rewrite (proj1 (C32_strongest layers H wf B cs a m Hc Ha Sm)), (proj1 (C32_strongest layers' H' wf' B' cs a m' Hc Ha Sm')). now rewrite V.
    + intros Fr. apply tracked_free in Fr as (_ & Si); [|exact Ha]. apply said_spec in Si. destruct Sm as (x & y & E & S & _). apply (Si m); [rewrite E; apply in_or_app; right; now left|exact S].
  - pose proof (silent_same a Nm Si) as Si'. destruct (in_dec (list_eq_dec N.eq_dec) a passed_on) as [Pa|Pa].
    + rewrite x_reads by auto. rewrite attr_own, (Fill a Pa (b_said is a Sn Si)).
      assert (Ho' : opinions cs layers' <> []) by (rewrite Eo'; destruct st; discriminate). rewrite (proj1 (C34_passed_on layers' H' wf' B' cs rs a Hc Ho' Pa Si' b_inst')).
      rewrite (b_reads rs a Hr Hrh b_rc) by (left; apply in_or_app; now right). rewrite (view_internal layers H1 F H wf P rs a Hrh Ka). f_equal. unfold pick. fold q0. destruct (has_opinion (attr H q0 a)) eqn:O; [reflexivity|].
      destruct (quiet_value a Pa _ rs (Nat.lt_succ_diag_r _) Hr Hrh) as (w & E & W). rewrite (view_internal layers H1 F H wf P rs a Hrh Ka) in E. injection E as E. fold q0 in E. rewrite E in O |- *. destruct W as [W| ->]; [apply has_opinion_says in W; congruence|].
      repeat destruct Pa as [<-|Pa]; try destruct Pa; reflexivity.
    + destruct head_same as (m & m' & l & l' & E & E' & V). rewrite x_keeps; [|exact Ka|intros Fr; apply tracked_free in Fr as (Fr & _); auto].
      rewrite (proj1 (C32_silent layers H wf B cs a m l Hc Ha E Si (or_introl Pa))), (proj1 (C32_silent layers' H' wf' B' cs a m' l' Hc Ha E' Si' (or_introl Pa))). now rewrite (V a Nm).
Qed.
Lemma x_path : reads X cs INSTANCE_PATH = Some (VStr q0) /\ reads X cs (source_of INSTANCE_PATH) = Some (VTuple [VStr rp; VStr p]).
Proof. destruct x_first as (j0 & l & r & M & _). unfold reads, getattr. fold p. rewrite M. cbn [lookup_in]. now rewrite x_own_inst, x_own_src. Qed.
Lemma x_all es a : names es -> in_stage H es -> asked a -> reads X es a = reads H' es a.
Proof.
  intros He Hh Ha. destruct (list_eq_dec (list_eq_dec N.eq_dec) es cs) as [->|Ne]; [|rewrite x_else by auto; symmetry; now apply b_reads]. destruct Ha as [Ha|Ha]; [|now apply x_user]. apply in_app_or in Ha as [Ha|Ha]; [now apply x_place|now apply x_tracked].
Qed.
Lemma x_inst es ts : names es -> in_stage H es -> instances X es ts <-> instances H' es ts.
Proof.
  intros He Hh. destruct (list_eq_dec (list_eq_dec N.eq_dec) es cs) as [->|Ne].
  - pose proof b_inst' as I'. assert (I : instances X cs rs). { split; [exact Hr|]. split; [exact Hrn|]. split; [unfold in_stage; rewrite x_here; exact Hrh|apply x_path]. }
    split; intros K; [rewrite (one_inst_fun X cs ts rs K I)|rewrite (one_inst_fun H' cs ts rs K I')]; assumption.
  - pose proof (s_inst _ _ _ _ (b_same es es He Hh Ne (draws_self H es)) ts) as S1. rewrite <- S1. unfold instances, in_stage. rewrite x_here, x_else by auto. tauto.
Qed.
End Got.

Lemma b_final top one fuel : exists X ds, set_instance top one (S fuel) H i (VStr rp) (VStr q0) = Some (Ok (X, ds)) /\ In p ds /\
  (forall es, names es -> in_stage X es <-> in_stage H' es) /\
  (forall es a, names es -> in_stage H' es -> asked a -> reads X es a = reads H' es a) /\
  (forall es ts, names es -> in_stage H' es -> instances X es ts <-> instances H' es ts) /\
  reads X cs INSTANCE_PATH = Some (VStr q0) /\ reads X cs (source_of INSTANCE_PATH) = Some (VTuple [VStr rp; VStr p]) /\
  length (specs X) = length (specs H) /\ (forall j, j <> i -> nth_error (specs X) j = nth_error (specs H) j) /\
  exists n, nth_error (specs X) i = Some n /\ forall a, value n a = value d' a.
Proof.
  destruct (b_run top one fuel) as (X & ds & is & par & E & Hp & El & Sn & L & Hi & Ep & Eb & Ei & R & EbX & Fill). exists X, ds. split; [exact E|]. split; [exact Hp|].
  assert (Hx : forall q, here X q = here H q) by (intros q; exact (x_here X is R q)).
  split; [intros es He; unfold in_stage; rewrite Hx; split; [now apply b_is|now apply b_was]|].
  split; [intros es a He Hh Ha; apply (x_all X is par); auto; now apply b_was|].
  split; [intros es ts He Hh; apply (x_inst X is par); auto; now apply b_was|].
  destruct (x_path X is par El Sn L Hi Ep R EbX) as (Q1 & Q2). split; [exact Q1|]. split; [exact Q2|]. split; [exact (x_len X is L Hi R)|].
  pose proof (y_specs _ _ _ _ _ _ _ _ _ R) as Es. assert (Li : i < length (specs H)) by now apply L.
  split; [intros j Nj; rewrite Es, with_spec_nth by exact Li; apply Nat.eqb_neq in Nj; now rewrite Nj|].
  rewrite Es, with_spec_nth by exact Li. rewrite Nat.eqb_refl. eexists. split; [reflexivity|]. intros a. unfold value. destruct Ed as (V1 & V2 & V3). rewrite !dget_dset.
  destruct (str_eqb _ a) eqn:E1; [apply str_eqb_eq in E1 as <-; unfold value in V2; symmetry; exact V2|]. destruct (str_eqb INSTANCE_PATH a) eqn:E2; [apply str_eqb_eq in E2 as <-; unfold value in V1; symmetry; exact V1|]. apply str_eqb_neq in E1, E2. rewrite V3; auto.
Qed.
End Parts.
End Both.
