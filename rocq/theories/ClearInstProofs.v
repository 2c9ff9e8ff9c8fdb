(** Proofs about taking the instance source of a node of a composed stage away. *)

From Coq Require Import String List NArith ZArith Bool Arith Lia Relations.
From Verif Require Import PyStr PyStrFacts NxtPath PathSpec PathProofs Dict DictFacts ListMerger SortRows Layer PyVal NodeIO NodeIOProofs PyClass PyClassSpec PyClassProofs
  Comp CompSpec CompProofs CompProxyProofs CompPostProofs CompLookProofs CompTreeProofs CompOrderProofs CompStageProofs StageView StageViewProofs DirtyStageSpec DirtyStageProofs
  Props_Comp LocalSpec MroRelProofs LocalProofs Props_Local Props_Dirty Live Arcs ArcsProofs AddNode AddNodeProofs SetInst SetInstSpec SetInstProofs.
From Verif Require Opinions OpinionsSpec OpinionsProofs Runtime.
Import ListNotations.

(** *** The two stages *)
Section Stages.
Variables (layers layers' : list (list layer_row)) (H H' : heap) (ps : list pystr) (nm : pystr) (rs : list pystr) (rp : pystr) (d d' : data) (st wk : list data).
Let cs := ps ++ [nm].
Let p := abs_path cs.
Hypotheses (Rg : regular layers) (Rg' : regular layers') (B : stage_of layers H) (B' : stage_of layers' H').
Hypothesis Hc : names cs.
Hypothesis Hr : names rs.
Hypothesis Hrn : rs <> [].
Hypothesis Ed : cleared cs rs (VStr rp) d d'.
Hypothesis Eo : opinions cs layers = st ++ d :: wk.
Hypothesis Eo' : opinions cs layers' = st ++ d' :: wk.
Hypothesis Else : forall es, names es -> es <> cs -> opinions es layers' = opinions es layers.
Hypothesis Sil : silent INSTANCE_PATH (opinions cs layers').
Hypothesis leaf : forall xs, names xs -> xs <> [] -> ~ in_stage H (cs ++ xs).
Hypothesis unseen : forall es, ~ points H es cs.
Let wf := r_fits layers Rg.
Let Gl := r_gapless layers Rg.
Let Pu := r_pure layers Rg.
Let wf' := r_fits layers' Rg'.
Let Gl' := r_gapless layers' Rg'.
Let Pu' := r_pure layers' Rg'.

Lemma Ho : opinions cs layers <> []. Proof. rewrite Eo. destruct st; discriminate. Qed.
Lemma Ho' : opinions cs layers' <> []. Proof. rewrite Eo'. destruct st; discriminate. Qed.
Lemma cs_here : in_stage H cs. Proof. exact (C32_conserved layers H wf B cs Hc Ho). Qed.
Lemma cs_here' : in_stage H' cs. Proof. exact (C32_conserved layers' H' wf' B' cs Hc Ho'). Qed.
Lemma nil_cs : [] <> cs. Proof. unfold cs. destruct ps; discriminate. Qed.
Lemma ps_cs : ps <> cs. Proof. unfold cs. intros E. apply (f_equal (@length _)) in E. rewrite app_length in E. cbn in E. lia. Qed.
Lemma Hps : names ps. Proof. now apply names_snoc in Hc. Qed.
Lemma Hnm : plain_name nm. Proof. now apply names_snoc in Hc. Qed.
Lemma said_else es : names es -> es <> cs -> said_alike layers layers' es.
Proof. intros He Ne. unfold said_alike. rewrite (Else es He Ne). apply near_refl. Qed.
Lemma worlds : opinions [] layers = [] <-> opinions [] layers' = [].
Proof. rewrite (Else [] (Forall_nil _) nil_cs). tauto. Qed.
Lemma old_source_in : source_in layers cs rs.
Proof.
  exists d. split; [|apply Ed]. exists st, wk. split; [exact Eo|]. split; [destruct Ed as (-> & _); split; discriminate|]. intros m Hm. apply Sil. rewrite Eo'. apply in_or_app. now left.
Qed.
Lemma cs_source : reads H cs INSTANCE_PATH = Some (VStr (abs_path rs)).
Proof. apply (C34_instance_path layers H wf B cs rs Hc (one_pure layers Rg cs Hc) Ho Hr Hrn). exact old_source_in. Qed.
Lemma rs_low : ~ strict_prefix rs cs.
Proof. exact (r_low layers Rg cs rs Hc Hr Hrn old_source_in). Qed.
Lemma rs_not_cs : rs <> cs.
Proof.
  intros E. assert (I : instances H cs rs) by (split; [exact Hr|]; split; [exact Hrn|]; split; [rewrite E; exact cs_here|exact cs_source]).
  pose proof (one_source_tall layers H Rg B cs rs cs_here I) as T. rewrite E in T. lia.
Qed.
Lemma rs_not_ps : rs <> ps.
Proof. intros E. apply rs_low. exists [nm]. split; [discriminate|]. unfold cs. now rewrite E. Qed.
Lemma no_source_now ts : ~ instances H' cs ts.
Proof.
  intros (Ht & Htn & _ & E). apply (C34_instance_path layers' H' wf' B' cs ts Hc (one_pure layers' Rg' cs Hc) Ho' Ht Htn) in E as (m & (a & b & E & S & _) & _). apply (Sil m); [|exact S]. rewrite E. apply in_or_app. right. now left.
Qed.

(** Every other node of the new stage was there, instancing the same. *)
Lemma into : forall k es, tall H' (Co (abs_path es)) < k -> names es -> in_stage H' es -> es <> cs ->
  in_stage H es /\ forall ts, names ts -> ts <> [] -> reads H' es INSTANCE_PATH = Some (VStr (abs_path ts)) -> reads H es INSTANCE_PATH = Some (VStr (abs_path ts)).
Proof.
  induction k as [|k IH]; intros es Hk He Hh Ne; [lia|]. pose proof (said_else es He Ne) as Al. destruct (opinions es layers') as [|m l] eqn:Em.
  - destruct (removelast_snoc' es) as [->|(qs & nm' & ->)]; [exfalso; now apply (proj1 (one_root layers' H' Rg' B')) in Hh|].
    destruct (one_proxy layers' H' Rg' B' qs nm' He Hh Em) as (ts & Hq & K & I & I' & _). pose proof (parent_names H' _ _ He K) as (Hqn & _).
    assert (T1 : tall H' (Co (abs_path qs)) < k) by (pose proof (one_parent_tall layers' H' Rg' B' _ _ He Hh K); lia). pose proof (one_source_tall layers' H' Rg' B' _ _ Hq I) as T2. pose proof (one_source_tall layers' H' Rg' B' _ _ Hh I') as T3.
    pose proof I as (Ht & Htn & Hth & Et). pose proof I' as (Ht' & _ & Hth' & Et').
    assert (Hx : names [nm']) by (unfold names in *; apply Forall_app in He as (_ & He'); exact He').
    assert (Nq : qs <> cs) by (intros Eq; rewrite Eq in I; exact (no_source_now ts I)).
    destruct (IH qs T1 Hqn Hq Nq) as (Q1 & Q2). specialize (Q2 ts Ht Htn Et).
    assert (Nt : ts <> cs) by (intros ->; apply (unseen qs); repeat split; auto). destruct (IH ts ltac:(lia) Ht Hth Nt) as (R1 & _).
    assert (I0 : instances H qs ts) by (repeat split; auto).
    assert (S1 : in_stage H (ts ++ [nm'])). { destruct (list_eq_dec (list_eq_dec N.eq_dec) (ts ++ [nm']) cs) as [E|N]; [rewrite E; exact cs_here|]. now apply (IH (ts ++ [nm']) ltac:(lia) Ht' Hth' N). }
    destruct (C43_mirror layers H wf B Gl Pu qs ts Hqn Q1 I0 (one_not_above layers H Rg B qs ts Hqn Q1 I0) [nm'] Hx) as (M1 & M2). apply M1 in S1. split; [exact S1|].
    intros us Hu Hun Eu. rewrite Et' in Eu. injection Eu as Eu. rewrite <- Eu. apply M2, S1.
  - assert (Hoe' : opinions es layers' <> []) by (rewrite Em; discriminate). assert (Hoe : opinions es layers <> []) by (rewrite <- (Else es He Ne); exact Hoe'). split; [now apply (C32_conserved layers H wf B)|]. intros ts Ht Htn E.
    apply (C34_instance_path layers' H' wf' B' es ts He (one_pure layers' Rg' es He) Hoe' Ht Htn) in E. apply (C34_instance_path layers H wf B es ts He (one_pure layers Rg es He) Hoe Ht Htn).
    now apply (alike_source layers' layers es ts (said_sym _ _ _ Al)).
Qed.
Lemma was_there es : names es -> in_stage H' es -> in_stage H es.
Proof.
  intros He Hh. destruct (list_eq_dec (list_eq_dec N.eq_dec) es cs) as [->|Ne]; [exact cs_here|]. exact (proj1 (into (S (tall H' (Co (abs_path es)))) es (Nat.lt_succ_diag_r _) He Hh Ne)).
Qed.
Lemma child_not es : names es -> in_stage H es -> ~ parent H es cs.
Proof.
  intros He Hh (k & K1 & K2 & _). rewrite <- (firstn_skipn k es) in Hh. rewrite <- K2 in Hh. revert Hh. apply leaf.
  - unfold names in *. rewrite <- (firstn_skipn k es) in He. now apply Forall_app in He.
  - intros Q. apply (f_equal (@length _)) in Q. rewrite skipn_length in Q. cbn in Q. lia.
Qed.
Lemma no_draw es fs : draws H es fs -> names es -> in_stage H es -> es <> cs -> fs <> cs.
Proof.
  induction 1 as [es|es qs fs K D IH|es ts fs I D IH]; intros He Hh Ne; [exact Ne| |].
  - destruct (parent_names H es qs He K) as (Hq & Hqh). apply IH; auto. intros ->. exact (child_not es He Hh K).
  - pose proof I as (Ht & _ & Hth & E). apply IH; auto. intros ->. apply (unseen es). repeat split; auto.
Qed.
Lemma else_al es : names es -> in_stage H es -> es <> cs -> forall fs, draws H es fs -> said_alike layers layers' fs.
Proof. intros He Hh Ne fs D. apply said_else; [now apply (draws_names H es fs D)|]. exact (no_draw es fs D He Hh Ne). Qed.
Lemma else_new es : names es -> in_stage H es -> es <> cs -> forall fs ts, draws H es fs -> names ts -> ts <> [] -> reads H fs INSTANCE_PATH = Some (VStr (abs_path ts)) -> in_stage H' ts -> in_stage H ts.
Proof. intros He Hh Ne fs ts _ Ht _ _ Hth. now apply was_there. Qed.
Lemma else_same es fs : names es -> in_stage H es -> es <> cs -> draws H es fs -> same layers H H' fs.
Proof. intros He Hh Ne D. exact (all_same layers layers' H H' Rg Rg' B B' worlds es He Hh (else_al es He Hh Ne) (else_new es He Hh Ne) fs D). Qed.
Lemma is_there es : names es -> in_stage H es -> in_stage H' es.
Proof. intros He Hh. destruct (list_eq_dec (list_eq_dec N.eq_dec) es cs) as [->|Ne]; [exact cs_here'|]. exact (s_here _ _ _ _ (else_same es es He Hh Ne (draws_self H es))). Qed.
Lemma else_reads es a : names es -> in_stage H es -> es <> cs -> asked a -> reads H' es a = reads H es a.
Proof.
  intros He Hh Ne Ha. destruct (C61_local layers layers' H H' es Rg Rg' B B' He Hh worlds (else_al es He Hh Ne) (else_new es He Hh Ne)) as (_ & _ & _ & C & _). now apply C.
Qed.
Lemma else_draws es fs : names es -> in_stage H es -> es <> cs -> draws H es fs <-> draws H' es fs.
Proof. intros He Hh Ne. exact (draws_same layers layers' H H' Rg Rg' B B' worlds es He Hh (else_al es He Hh Ne) (else_new es He Hh Ne) es fs (draws_self H es)). Qed.

(** Nobody relies on the node or on its parent. *)
Lemma quiet_p : dirties H p = [].
Proof. apply (no_reliers layers H Rg B cs Hc); [intros E; now apply nil_cs|exact unseen]. Qed.
Lemma quiet_pp : dirties H (abs_path ps) = [].
Proof.
  destruct (list_eq_dec (list_eq_dec N.eq_dec) ps []) as [->|Np]; [exact (world_reliers layers H B)|]. apply (no_reliers layers H Rg B ps Hps Np). intros es (He & Hh & E).
  destruct (C43_parent_there layers H wf B Gl ps nm Hc cs_here) as [Z|Hp]; [contradiction|]. assert (I : instances H es ps) by (repeat split; auto; exact Hps).
  assert (Hx : names [nm]) by (constructor; [exact Hnm|constructor]).
  destruct (C43_mirror layers H wf B Gl Pu es ps He Hh I (one_not_above layers H Rg B es ps He Hh I) [nm] Hx) as (M1 & M2). pose proof (proj2 M1 cs_here) as Q. apply M2 in Q as (_ & _ & _ & Q).
  apply (unseen (es ++ [nm])). split; [apply Forall_app; auto|]. split; [apply M1; exact cs_here|exact Q].
Qed.
End Stages.

(** *** The run *)
Section Run.
Variables (H : heap) (ps : list pystr) (nm : pystr) (rs : list pystr) (i : nat) (n0 : node) (real : pyval) (is : list nat) (rest0 : list ref).
Let cs := ps ++ [nm].
Let p := abs_path cs.
Let pp := abs_path ps.
Let q0 := abs_path rs.
Let par := if here H pp then [Co pp] else [].
Let put := dset (INSTANCE_PATH ++ META_SOURCE) (VTuple [real; VStr p]) (dset INSTANCE_PATH VNone n0).
Hypothesis So : sound H.
Hypothesis Hc : names cs.
Hypothesis Hr : names rs.
Hypothesis Hrn : rs <> [].
Hypothesis Hrp : rs <> ps.
Hypothesis Hh : here H p = true.
Hypothesis Hrh : here H q0 = true.
Hypothesis quiet_p : dirties H p = [].
Hypothesis quiet_pp : dirties H pp = [].
Hypothesis linked : ps = [] \/ here H pp = true.
Hypothesis Epp : attr H p PARENT_PATH = VStr pp.
Hypothesis Enm : attr H p NAME = VStr nm.
Hypothesis Eold : attr H p INSTANCE_PATH = VStr q0.
Hypothesis Ebs : bs H (Co p) = map Sp is ++ rest0 ++ [Co q0].
Hypothesis Er : rest0 = par \/ rest0 = [].
Hypothesis His : In i is.
Hypothesis Ei : nth_error (specs H) i = Some n0.
Hypothesis mine : forall q, q <> p -> ~ In (Sp i) (bs H (Co q)).
Hypothesis nobody : forall q, ~ In (Co p) (bs H (Co q)).
Hypothesis Eip : path_of H (Sp i) = p.
Hypothesis Ckp : here H pp = true -> check_path H (Co pp) = pp.
Hypothesis Cks : forall j, In j is -> check_path H (Sp j) = p.
Hypothesis bare_q : forall k, here H k = true -> parent_of H k <> q0.
Hypothesis bare_p : forall k, here H k = true -> parent_of H k <> p.
Hypothesis weaker : Opinions.has_stronger_opinion H p INSTANCE_PATH real = Ok false.

Definition spared (a : pystr) : Prop := In a INSTANCE_ATTRS /\ silent_in H is a.
Record reach (T : list node) (iv sv : option pyval) (Y : heap) : Prop := {
  y_specs : specs Y = T;
  y_len : length T = length (specs H);
  y_spec : forall j a, j <> i \/ ~ moved a -> own_attr Y a (Sp j) = own_attr H a (Sp j);
  y_keys : dkeys (comps Y) = dkeys (comps H);
  y_dirty : dirty Y = dirty H;
  y_bs : forall q, q <> p -> bs Y (Co q) = bs H (Co q);
  y_bsp : bs Y (Co p) = map Sp is ++ par;
  y_else : forall q a, q <> p -> own_attr Y a (Co q) = own_attr H a (Co q);
  y_own : forall a, ~ moved a -> ~ spared a -> own_attr Y a (Co p) = own_attr H a (Co p);
  y_inst : own_attr Y INSTANCE_PATH (Co p) = iv;
  y_src : own_attr Y (source_of INSTANCE_PATH) (Co p) = sv }.
Let iv0 := own_attr H INSTANCE_PATH (Co p).
Let sv0 := own_attr H (source_of INSTANCE_PATH) (Co p).
Hypothesis fits : forall Y, length (specs Y) = length (specs H) -> dkeys (comps Y) = dkeys (comps H) -> (forall q, q <> p -> bs Y (Co q) = bs H (Co q)) ->
  bs Y (Co p) = map Sp is ++ par -> exists l, mro_of Y (Co p) = Some l.
Hypothesis history : forall Y, reach (specs H) iv0 sv0 Y -> expanded Y p VNone = Ok VNone.

Lemma pp_p : pp <> p. Proof. exact (pp_neq ps nm Hc). Qed.
Lemma pp_or : here H pp = true \/ here H pp = false. Proof. generalize (here H pp). intros [|]; auto. Qed.
Lemma q0_pp : q0 <> pp. Proof. intros E. apply path_inj in E; auto. now apply Forall_app in Hc. Qed.
Lemma i_lt : i < length (specs H). Proof. apply nth_error_Some. congruence. Qed.
Lemma bs_set Y a w q : bs (set_attr Y p a w) (Co q) = bs Y (Co q). Proof. exact (SetInstProofs.bs_set ps nm Y a w q). Qed.
Lemma own_set Y a w q b : own_attr (set_attr Y p a w) b (Co q) = if str_eqb q p && here Y p && str_eqb b a then Some w else own_attr Y b (Co q). Proof. exact (SetInstProofs.own_set ps nm Y a w q b). Qed.
Section Any.
Variables (T : list node) (iv sv : option pyval) (Y : heap).
Hypothesis R : reach T iv sv Y.
Lemma y_slen : length (specs Y) = length (specs H). Proof. rewrite (y_specs _ _ _ _ R). exact (y_len _ _ _ _ R). Qed.
Lemma y_here q : here Y q = here H q.
Proof. pose proof (y_keys _ _ _ _ R) as K. destruct (here H q) eqn:E; [|apply not_true_iff_false; apply not_true_iff_false in E]; rewrite here_In in *; now rewrite K. Qed.
Lemma ref_sp X j a : ref_attr X (Sp j) a = match own_attr X a (Sp j) with Some w => w | None => VNone end.
Proof. unfold ref_attr, own_attr, attr_or_none. now destruct (nth_error (specs X) j). Qed.
Lemma y_ref j a : ~ moved a -> ref_attr Y (Sp j) a = ref_attr H (Sp j) a.
Proof. intros N. rewrite !ref_sp. now rewrite (y_spec _ _ _ _ R) by now right. Qed.
Lemma y_attr q a : q <> p -> attr Y q a = attr H q a.
Proof.
  intros N. rewrite !attr_own, (y_else _ _ _ _ R q a N), (y_bs _ _ _ _ R q N). destruct (own_attr H a (Co q)); [reflexivity|]. destruct (bs H (Co q)) as [|[j|x] l] eqn:E; try reflexivity.
  rewrite (y_spec _ _ _ _ R j a); [reflexivity|]. left. intros ->. apply (mine q N). rewrite E. now left.
Qed.
Lemma y_attr_p a : ~ moved a -> ~ spared a -> attr Y p a = attr H p a.
Proof.
  intros N N2. rewrite !attr_own, (y_own _ _ _ _ R a N N2), Ebs, (y_bsp _ _ _ _ R). assert (Q0 : exists j l, is = j :: l) by (clear - His; destruct is as [|j l]; [destruct His|eauto]). destruct Q0 as (j & l & El). rewrite El. cbn [map app]. now rewrite (y_spec _ _ _ _ R j a) by now right.
Qed.
Lemma spared_set x w : spared x -> reach T iv sv (set_attr Y p x w).
Proof.
  intros Sx. assert (Hp : here Y p = true) by (rewrite y_here; exact Hh). assert (Nm : ~ moved x) by (intros [->| ->]; destruct Sx as (Sx & _); apply str_in_In in Sx; vm_compute in Sx; discriminate Sx). constructor.
  - exact (y_specs _ _ _ _ R).
  - exact (y_len _ _ _ _ R).
  - exact (y_spec _ _ _ _ R).
  - rewrite keys_set_attr. exact (y_keys _ _ _ _ R).
  - exact (y_dirty _ _ _ _ R).
  - intros q N. rewrite bs_set. now apply (y_bs _ _ _ _ R).
  - rewrite bs_set. exact (y_bsp _ _ _ _ R).
  - intros q b N. rewrite own_set. destruct (str_eqb q p) eqn:E; [apply str_eqb_eq in E; contradiction|]. now apply (y_else _ _ _ _ R).
  - intros b Nb Ns. rewrite own_set. destruct (str_eqb b x) eqn:E; [apply str_eqb_eq in E as ->; contradiction|]. rewrite andb_false_r. now apply (y_own _ _ _ _ R).
  - rewrite own_set. destruct (str_eqb INSTANCE_PATH x) eqn:E; [apply str_eqb_eq in E as <-; destruct Nm; now left|]. rewrite andb_false_r. exact (y_inst _ _ _ _ R).
  - rewrite own_set. destruct (str_eqb (source_of INSTANCE_PATH) x) eqn:E; [apply str_eqb_eq in E as <-; destruct Nm; now right|]. rewrite andb_false_r. exact (y_src _ _ _ _ R).
Qed.
Lemma place_kept a : In a [PARENT_PATH; NAME; PROXY; SOURCE_LAYER] -> attr Y p a = attr H p a.
Proof. intros Ha. apply y_attr_p; [intros [->| ->]|intros (S1 & _); repeat destruct S1 as [<-|S1]; try destruct S1]; apply str_in_In in Ha; vm_compute in Ha; discriminate Ha. Qed.
Lemma Y_place : parent_of Y p = pp /\ name_of Y p = nm.
Proof. unfold parent_of, name_of. rewrite !place_kept by (cbn; tauto). now rewrite Epp, Enm. Qed.
Lemma Y_path : join_node_paths (parent_of Y p) (name_of Y p) = p.
Proof. destruct Y_place as (-> & ->). apply (join_p ps nm Hc). Qed.
Lemma Y_check r : r <> Co p -> check_path Y r = check_path H r.
Proof.
  intros N. unfold check_path. destruct r as [j|q].
  - rewrite !y_ref by (intros [Q|Q]; discriminate Q). reflexivity.
  - unfold ref_attr. rewrite !y_attr by congruence. reflexivity.
Qed.
Lemma Y_path_of : path_of Y (Co p) = p. Proof. exact Y_path. Qed.
Lemma arc_sp j : In j is -> get_arc Y p (Sp j) = Some Reference.
Proof. intros Hj. unfold get_arc. cbv zeta. rewrite Y_path_of, Y_check, (Cks j Hj), str_eqb_refl by discriminate. reflexivity. Qed.
Lemma arc_pp : here H pp = true -> get_arc Y p (Co pp) = Some Parent.
Proof.
  intros Hp. unfold get_arc. cbv zeta. rewrite Y_path_of, Y_check, (Ckp Hp) by (intros [= Q]; now apply pp_p). rewrite (place_kept PARENT_PATH), Epp by (cbn; tauto). cbn [str_of]. rewrite str_eqb_refl.
  assert (E : str_eqb p pp = false) by (apply str_eqb_neq; intros Q; symmetry in Q; now apply pp_p). rewrite E.
  assert (An : is_ancestor p pp = true). { apply is_ancestor_abs; [apply names_comp, Hc|apply names_comp; now apply Forall_app in Hc|]. right. exists [nm]. split; [discriminate|reflexivity]. }
  rewrite An. reflexivity.
Qed.
Lemma specs_idle arcs : has_arc arcs (Some Reference) = false -> forall l hd seen, (forall j, In j l -> In j is) -> exists hd', fold_left (update_base p arcs) (map Sp l) (Y, hd, seen) = (Y, hd', seen ++ map (fun _ => Some Reference) l) /\
  (forall a, In a INSTANCE_ATTRS -> In a hd' <-> In a hd \/ exists j, In j l /\ has_opinion (ref_attr H (Sp j) a) = true).
Proof.
  intros Ha0. induction l as [|j l IH]; intros hd seen Hl; [exists hd; split; [cbn; now rewrite app_nil_r|]; intros a _; split; [tauto|]; intros [A|(j & [] & _)]; exact A|].
  cbn [map fold_left]. unfold update_base at 2. rewrite (arc_sp j) by (apply Hl; now left). rewrite Ha0. destruct (idle_spec H ps nm linked Ckp (Sp j) (arc_attrs (Some Reference)) Y hd) as (hd1 & E1 & Q1). change (abs_path (ps ++ [nm])) with p in E1. rewrite E1.
  destruct (IH hd1 (seen ++ [Some Reference]) (fun k Hk => Hl k (or_intror Hk))) as (hd' & F & Q). exists hd'. split; [rewrite F; now rewrite <- app_assoc|]. intros a Ha. rewrite (Q a Ha), Q1.
  assert (Hm : ~ moved a) by (intros [->| ->]; apply str_in_In in Ha; vm_compute in Ha; discriminate Ha). rewrite (y_ref j a Hm).
  assert (Hi : In a (arc_attrs (Some Reference))) by (cbn in Ha |- *; tauto). split.
  - intros [[A|(_ & O)]|(k & Hk & O)]; [now left|right; exists j; split; [now left|exact O]|right; exists k; split; [now right|exact O]].
  - intros [A|(k & [<-|Hk] & O)]; [tauto|left; right; auto|right; exists k; auto].
Qed.
End Any.
Lemma defaults T iv sv hd : forall l, NoDup l -> (forall a, In a l -> In a INSTANCE_ATTRS) -> forall Z, reach T iv sv Z -> (forall a, In a l -> ~ In a hd -> silent_in H is a) ->
  let X := fold_left (fun H a => if str_in a hd then H else set_attr H p a (default_of a)) l Z in
  reach T iv sv X /\ forall a, own_attr X a (Co p) = if str_in a l && negb (str_in a hd) then Some (default_of a) else own_attr Z a (Co p).
Proof.
  induction l as [|x l IH]; intros Nd Sub Z R Si; [split; [exact R|reflexivity]|]. inversion Nd as [|? ? Nx Nd']; subst. cbn [fold_left]. cbv zeta.
  assert (Pr : forall a, str_in a (x :: l) = str_eqb a x || str_in a l) by reflexivity. destruct (str_in x hd) eqn:E.
  - destruct (IH Nd' (fun a Ha => Sub a (or_intror Ha)) Z R (fun a Ha => Si a (or_intror Ha))) as (RX & O). split; [exact RX|]. intros a. rewrite O, Pr. destruct (str_eqb a x) eqn:Ea; [|reflexivity]. apply str_eqb_eq in Ea as ->. rewrite E. cbn [negb]. now rewrite !andb_false_r.
  - assert (Sx : spared x). { split; [apply Sub; now left|]. apply Si; [now left|]. intros Q. apply str_in_In in Q. congruence. }
    destruct (IH Nd' (fun a Ha => Sub a (or_intror Ha)) _ (spared_set T iv sv Z R x (default_of x) Sx) (fun a Ha => Si a (or_intror Ha))) as (RX & O). split; [exact RX|]. intros a. rewrite O, Pr, own_set, str_eqb_refl, (y_here T iv sv Z R p), Hh. cbn [andb]. destruct (str_eqb a x) eqn:Ea.
    + apply str_eqb_eq in Ea as ->. rewrite E. cbn [orb negb andb]. assert (Q : str_in x l = false) by (apply not_true_iff_false; intros Q; apply str_in_In in Q; contradiction). rewrite Q. reflexivity.
    + reflexivity.
Qed.
Lemma update_run T iv sv arcs Y : arcs = [Instance] \/ arcs = [Parent; Instance] -> reach T iv sv Y ->
  reach T iv sv (update_inherited arcs Y p) /\ (forall a, In a INSTANCE_ATTRS -> silent_in H is a -> own_attr (update_inherited arcs Y p) a (Co p) = Some (default_of a)).
Proof.
  intros Ea R. unfold update_inherited. cbv zeta. change (bases_in (comps Y) (Co p)) with (bs Y (Co p)). rewrite (y_bsp _ _ _ _ R).
  set (hd0 := if truthy (attr Y p PROXY) then [INSTANCE_PATH] else []). assert (H0 : forall a, In a INSTANCE_ATTRS -> ~ In a hd0). { intros a Ha. unfold hd0. destruct (truthy _); [|intros []]. intros [<-|[]]. apply str_in_In in Ha. vm_compute in Ha. discriminate Ha. }
  assert (Hf : has_arc arcs (Some Reference) = false) by (destruct Ea as [->| ->]; reflexivity).
  rewrite fold_left_app. destruct (specs_idle T iv sv Y R arcs Hf is hd0 [] (fun j Hj => Hj)) as (hd1 & -> & Q1). cbn [app].
  assert (P : exists more, fold_left (update_base p arcs) par (Y, hd1, map (fun _ => Some Reference) is) = (Y, hd1, map (fun _ => Some Reference) is ++ more) /\ existsb (fun y => match y with Some y => arc_eqb Instance y | None => false end) more = false).
  { unfold par. pose proof (arc_pp T iv sv Y R) as AP. destruct pp_or as [Hp|Hp]; rewrite Hp; [|exists []; split; [cbn; now rewrite app_nil_r|reflexivity]]. cbn [fold_left]. unfold update_base. rewrite (AP Hp). cbn [arc_attrs fold_left]. exists [Some Parent]. split; reflexivity. }
  destruct P as (more & -> & Em). assert (Se : existsb (fun y => match y with Some y => arc_eqb Instance y | None => false end) (map (fun _ => Some Reference) is ++ more) = false).
  { rewrite existsb_app, Em, orb_false_r. assert (G : forall l : list nat, existsb (fun y => match y with Some y => arc_eqb Instance y | None => false end) (map (fun _ => Some Reference) l) = false) by (induction l as [|x l IH]; [reflexivity|exact IH]). apply G. }
  assert (Fm : flat_map (fun x => if existsb (fun y => match y with Some y => arc_eqb x y | None => false end) (map (fun _ => Some Reference) is ++ more) then [] else arc_attrs (Some x)) arcs = INSTANCE_ATTRS).
  { destruct Ea as [->| ->]; cbn [flat_map]; rewrite Se; [now rewrite app_nil_r|]. change (arc_attrs (Some Parent)) with (@nil pystr). match goal with |- (if ?b then _ else _) ++ _ = _ => destruct b end; reflexivity. }
  rewrite Fm.
  assert (Si : forall a, In a INSTANCE_ATTRS -> ~ In a hd1 -> silent_in H is a).
  { intros a Ha Na j Hj. destruct (has_opinion (ref_attr H (Sp j) a)) eqn:O; [|reflexivity]. exfalso. apply Na. apply (Q1 a Ha). right. exists j. auto. }
  destruct (defaults T iv sv hd1 INSTANCE_ATTRS) with (Z := Y) as (RX & O); [repeat constructor; vm_compute; intuition discriminate|auto|exact R|exact Si|].
  split; [exact RX|]. intros a Ha Sa. rewrite O. apply str_in_In in Ha as Ha'. rewrite Ha'. assert (Z : str_in a hd1 = false); [|now rewrite Z]. apply not_true_iff_false. intros Q. apply str_in_In in Q. apply (Q1 a Ha) in Q as [Q|(j & Hj & Q)]; [now apply (H0 a Ha)|]. rewrite (Sa j Hj) in Q. discriminate.
Qed.

(** The source is dropped. *)
Let Z0 := with_comps H (change p (fun c => {| own := own c; cbases := map Sp is ++ par |}) (comps H)).
Lemma Z0_reach : reach (specs H) iv0 sv0 Z0.
Proof.
  assert (O : forall q a, own_attr Z0 a (Co q) = own_attr H a (Co q)). { intros q a. unfold Z0. rewrite own_change. destruct (str_eqb q p); [|reflexivity]. unfold own_attr. now destruct (dget q (comps H)). }
  constructor; try reflexivity.
  - unfold Z0. cbn [comps with_comps]. apply dkeys_change.
  - intros q N. unfold Z0. rewrite bs_with. destruct (str_eqb q p) eqn:E; [apply str_eqb_eq in E; contradiction|reflexivity].
  - unfold Z0. rewrite bs_with, str_eqb_refl. pose proof Hh as Hp. unfold here, dmem in Hp. destruct (dget p (comps H)); [reflexivity|discriminate].
  - intros q a _. apply O.
  - intros a _ _. apply O.
  - apply O.
  - apply O.
Qed.
Lemma still_mro T iv sv Y x : reach T iv sv Y -> x <> Co p -> mro_of Y x = mro_of H x.
Proof.
  intros R N. unfold mro_of. assert (L : length (comps Y) = length (comps H)) by (rewrite <- !(map_length fst); exact (f_equal (@length _) (y_keys _ _ _ _ R))). rewrite (y_slen T iv sv Y R), L.
  pose proof (mro_alike ref_eqb ref_eqb_eq (still ps nm) (still_one H ps nm linked Ckp) (bs H) (bs Y) (still_bases H ps nm nobody Y (y_bs _ _ _ _ R)) (S (length (specs H) + length (comps H))) x x (conj eq_refl N)) as M. unfold bs in M.
  destruct (mro ref_eqb (bases_in (comps H)) _ x), (mro ref_eqb (bases_in (comps Y)) _ x); cbn [RO] in M; try contradiction; [|reflexivity]. apply still_eq in M. now subst.
Qed.
Lemma Z0_mros : all_mros Z0 = true.
Proof.
  pose proof Z0_reach as R. apply all_mros_spec. intros q Hq. destruct (str_eqb q p) eqn:E; [apply str_eqb_eq in E as ->|apply str_eqb_neq in E].
  - apply fits; [exact (y_slen _ _ _ _ R)|exact (y_keys _ _ _ _ R)|exact (y_bs _ _ _ _ R)|exact (y_bsp _ _ _ _ R)].
  - rewrite (still_mro _ _ _ _ _ R) by congruence. apply So. now rewrite <- (y_here _ _ _ _ R q).
Qed.
Lemma drop_step : drop_source H p = Ok Z0.
Proof.
  unfold drop_source. cbv zeta. rewrite Eold. cbn [path_str]. rewrite Hrh. change (bases_in (comps H) (Co p)) with (bs H (Co p)). rewrite Ebs.
  assert (Eg : get_parent_path p = pp) by (unfold p, cs; apply get_parent_path_abs; now apply names_comp). rewrite Eg.
  assert (Nr : isin ref_eqb (Co q0) rest0 = false). { destruct Er as [E0|E0]; rewrite E0; [|reflexivity]. unfold par. destruct pp_or as [Hp|Hp]; rewrite Hp; [|reflexivity]. cbn [isin existsb ref_eqb]. rewrite orb_false_r. apply str_eqb_neq. intros Q. apply q0_pp. congruence. }
  assert (To : take_out (Co q0) (map Sp is ++ rest0 ++ [Co q0]) = Ok (map Sp is ++ rest0)).
  { assert (G : forall l, isin ref_eqb (Co q0) l = false -> take_out (Co q0) (l ++ [Co q0]) = Ok l).
    { induction l as [|x l IH]; intros N; cbn [take_out app]; [cbn [ref_eqb]; now rewrite str_eqb_refl|]. cbn [isin existsb] in N. apply orb_false_iff in N as (N1 & N2). assert (N3 : ref_eqb x (Co q0) = false). { destruct x as [j|x]; [reflexivity|]. cbn [ref_eqb] in N1 |- *. now rewrite str_eqb_sym. } rewrite N3, (IH N2). reflexivity. }
    rewrite app_assoc. apply G. rewrite isin_app, isin_map_sp. exact Nr. }
  rewrite To. cbn [bind]. assert (Ef : (if here H pp && negb (isin ref_eqb (Co pp) (map Sp is ++ rest0)) then (map Sp is ++ rest0) ++ [Co pp] else map Sp is ++ rest0) = map Sp is ++ par).
  { rewrite isin_app, isin_map_sp. pose proof Er as E. unfold par in E |- *. destruct pp_or as [Hp|Hp]; rewrite Hp in E |- *; cbn [andb orb]; [|destruct E as [E|E]; rewrite E; reflexivity]. destruct E as [E|E]; rewrite E; [cbn [isin existsb ref_eqb]; now rewrite str_eqb_refl|]. cbn [isin existsb negb]. now rewrite app_nil_r. }
  rewrite Ef. unfold set_bases. fold Z0. now rewrite Z0_mros.
Qed.
Lemma no_below q fuel : is_empty q = false -> str_eqb q WORLD = false -> (forall k, here H k = true -> parent_of H k <> q) -> below_paths fuel H q = Some [].
Proof.
  intros S1 S2 Pk. unfold below_paths.
  assert (K : scan_real same_string (nodes (view H)) q = []).
  { unfold scan_real. assert (Fl : filter (fun kn => is_child same_string q (fst kn) (snd kn)) (nodes (view H)) = []); [|now rewrite Fl].
    assert (A : forall x, In x (nodes (view H)) -> is_child same_string q (fst x) (snd x) = false).
    { intros x Hx. unfold view in Hx. cbn [nodes] in Hx. apply in_map_iff in Hx as ((k & c) & <- & Hx). unfold is_child. cbn [fst snd n_parent]. apply andb_false_intro1. apply str_eqb_neq. apply Pk. apply here_In. apply in_map_iff. exists (k, c). auto. }
    clear - A. induction (nodes (view H)) as [|x l IH]; [reflexivity|]. cbn [filter]. rewrite A by now left. apply IH. intros y Hy. apply A. now right. }
  unfold descendants. rewrite S2. unfold children. cbn [andb]. rewrite S1, S2. change (kids (view H)) with (@nil (pystr * ccache)). cbn [dget]. rewrite K.
  cbn [entry_of name_dict fold_left cc_paths add_missing rtype_eqb]. destruct fuel; reflexivity.
Qed.
Lemma path_shape es : names es -> es <> [] -> is_empty (abs_path es) = false /\ str_eqb (abs_path es) WORLD = false.
Proof. intros He Ne. split; [apply abs_not_empty|]. apply abs_path_neqb; [now apply names_comp|exact Ne]. Qed.
Let Z1 := update_inherited [Instance] Z0 p.
Lemma Z1_reach : reach (specs H) iv0 sv0 Z1.
Proof. exact (proj1 (update_run _ _ _ [Instance] Z0 (or_introl eq_refl) Z0_reach)). Qed.
Lemma uncomp_step fuel : uncomp_instance fuel H p = Some (Ok (Z1, [])).
Proof.
  unfold uncomp_instance. rewrite Eold. cbn [path_str]. destruct (path_shape rs Hr Hrn) as (S1 & S2). destruct (path_shape cs Hc) as (S3 & S4); [intros Q; exact (app_cons_not_nil ps [] nm (eq_sym Q))|].
  rewrite (no_below q0 fuel S1 S2 bare_q), (no_below p fuel S3 S4 bare_p). cbn [flat_map existsb]. rewrite drop_step. reflexivity.
Qed.
Let Y1 := set_attr (set_attr Z1 p INSTANCE_PATH VNone) p (INSTANCE_PATH ++ META_SOURCE) (VTuple [real; VStr p]).
Let Y2 := change_spec Y1 i p real VNone.
Lemma comp_step fuel : change_comp fuel H p real VNone = Some (Ok (Y1, dirties H q0 ++ [])).
Proof.
  unfold change_comp. cbv zeta. rewrite Eold. assert (Tq : truthy (VStr q0) = true) by (unfold q0; pose proof (abs_not_empty rs) as E; unfold is_empty in E; cbn [truthy]; destruct (abs_path rs); [discriminate|reflexivity]). rewrite Tq, uncomp_step. cbn [bind path_str]. rewrite (history Z1 Z1_reach). reflexivity.
Qed.
Let T2 := specs (with_spec H i put).
Lemma Y2_form : Y2 = with_spec Y1 i put.
Proof. unfold Y2, change_spec. change (specs Y1) with (specs Z1). rewrite (y_specs _ _ _ _ Z1_reach), Ei. reflexivity. Qed.
Lemma Y2_reach : reach T2 (Some VNone) (Some (VTuple [real; VStr p])) Y2.
Proof.
  pose proof Z1_reach as R. rewrite Y2_form. assert (O : forall q a, own_attr (with_spec Y1 i put) a (Co q) = own_attr Y1 a (Co q)) by reflexivity. assert (Bq : forall q, bs (with_spec Y1 i put) (Co q) = bs Z1 (Co q)) by (intros q; change (bs Y1 (Co q) = bs Z1 (Co q)); unfold Y1; now rewrite !bs_set).
  assert (Es : specs (with_spec Y1 i put) = T2) by (unfold T2, with_spec; cbn [specs]; change (specs Y1) with (specs Z1); now rewrite (y_specs _ _ _ _ R)).
  constructor.
  - exact Es.
  - unfold T2. now apply with_spec_length, i_lt.
  - intros j a N. unfold own_attr. rewrite Es. unfold T2. rewrite with_spec_nth by exact i_lt. destruct (Nat.eqb j i) eqn:E; [|reflexivity]. apply Nat.eqb_eq in E as ->. destruct N as [N|N]; [contradiction|]. rewrite Ei. unfold put.
    rewrite !dget_dset. destruct (str_eqb _ a) eqn:E; [apply str_eqb_eq in E as <-; destruct N; now right|]. destruct (str_eqb INSTANCE_PATH a) eqn:E2; [apply str_eqb_eq in E2 as <-; destruct N; now left|reflexivity].
  - change (dkeys (comps Y1) = dkeys (comps H)). unfold Y1. rewrite !keys_set_attr. exact (y_keys _ _ _ _ R).
  - exact (y_dirty _ _ _ _ R).
  - intros q N. rewrite Bq. now apply (y_bs _ _ _ _ R).
  - rewrite Bq. exact (y_bsp _ _ _ _ R).
  - intros q a N. rewrite O. unfold Y1. rewrite !own_set. destruct (str_eqb q p) eqn:E; [apply str_eqb_eq in E; contradiction|]. now apply (y_else _ _ _ _ R).
  - intros a N N2. rewrite O. unfold Y1. rewrite !own_set. destruct (str_eqb a (INSTANCE_PATH ++ META_SOURCE)) eqn:E; [apply str_eqb_eq in E as ->; destruct N; now right|]. rewrite andb_false_r.
    destruct (str_eqb a INSTANCE_PATH) eqn:E2; [apply str_eqb_eq in E2 as ->; destruct N; now left|]. rewrite andb_false_r. now apply (y_own _ _ _ _ R).
  - rewrite O. unfold Y1. rewrite !own_set, here_set_attr, (y_here _ _ _ _ R p), Hh, str_eqb_refl. reflexivity.
  - rewrite O. unfold Y1. rewrite !own_set, here_set_attr, (y_here _ _ _ _ R p), Hh, str_eqb_refl. reflexivity.
Qed.
Lemma proxies_run top one fuel : targeted_proxies top one fuel Y2 p = Some (Ok (Y2, [(p, (found H pp, None))])).
Proof.
  pose proof Y2_reach as R. unfold targeted_proxies. cbv zeta. destruct (Y_place _ _ _ _ R) as (Ep & En). rewrite Ep.
  assert (D : forall q, dirties Y2 q = dirties H q) by (intros q; unfold dirties; now rewrite (y_dirty _ _ _ _ R)). rewrite !D, quiet_pp, quiet_p. cbn [fold_left].
  assert (Src : new_source Y2 p = None) by (unfold new_source, inst_of; rewrite attr_own, (y_inst _ _ _ _ R); reflexivity).
  assert (Par : new_parent Y2 p = found H pp).
  { unfold new_parent. rewrite Ep. assert (Z : is_empty pp = false) by apply abs_not_empty. rewrite Z.
    assert (N : nearest (S (length pp)) Y2 pp = pp). { cbn [nearest]. rewrite (y_here _ _ _ _ R pp). destruct linked as [E0|E0]; [|now rewrite E0]. unfold pp. rewrite E0. now destruct (here H (abs_path [])). }
    rewrite N. unfold found. now rewrite (y_here _ _ _ _ R pp). }
  rewrite Src, Par. reflexivity.
Qed.
Lemma post_run : exists ds, targeted_post Y2 [(p, (found H pp, None))] = Ok (update_inherited [Parent; Instance] Y2 p, ds) /\ In p ds.
Proof.
  pose proof Y2_reach as R. assert (P1 : exists ds, post_arc false (Y2, []) (p, (found H pp, None)) = Ok (Y2, p :: ds)).
  { unfold post_arc. cbv zeta. rewrite (Y_path _ _ _ _ R). cbn [str_in existsb app]. unfold found. destruct pp_or as [Hp|Hp]; rewrite Hp; [|exists []; reflexivity]. cbv iota beta. unfold safe_add. cbv zeta. change (bases_in (comps Y2) (Co p)) with (bs Y2 (Co p)). rewrite (y_bsp _ _ _ _ R).
    unfold par. rewrite Hp, isin_app. cbn [isin existsb ref_eqb]. rewrite str_eqb_refl, !orb_true_r. cbn [bind]. eexists. reflexivity. }
  destruct P1 as (ds1 & P1). exists (p :: ds1). split; [|now left]. unfold targeted_post. cbn [fold_res]. rewrite P1. cbn [bind fold_res]. unfold post_arc. cbv zeta. rewrite (Y_path _ _ _ _ R). cbn [str_in existsb]. rewrite str_eqb_refl. cbn [orb bind fst snd dkeys map fold_left]. reflexivity.
Qed.
Lemma run_form top one fuel : exists X ds, set_instance top one fuel H i real VNone = Some (Ok (X, ds)) /\ In p ds /\ reach T2 (Some VNone) (Some (VTuple [real; VStr p])) X /\
  forall a, In a INSTANCE_ATTRS -> silent_in H is a -> own_attr X a (Co p) = Some (default_of a).
Proof.
  destruct post_run as (ds & E5 & Hd). destruct (update_run _ _ _ [Parent; Instance] Y2 (or_intror eq_refl) Y2_reach) as (RX & OX).
  exists (update_inherited [Parent; Instance] Y2 p), ((dirties H q0 ++ []) ++ ds). split; [|split; [apply in_or_app; now right|auto]]. unfold set_instance. cbv zeta. rewrite Eip, weaker, comp_step. fold Y2. rewrite proxies_run. cbn [bind fst snd]. rewrite E5. reflexivity.
Qed.
End Run.

(** *** The stage after the run and a new composition *)
Section Both.
Variables (layers layers' : list (list layer_row)) (H H' : heap) (ps : list pystr) (nm : pystr) (rs : list pystr) (rp : pystr) (d d' : data) (st wk : list data) (i : nat).
Let cs := ps ++ [nm].
Let p := abs_path cs.
Let q0 := abs_path rs.
Hypotheses (Rg : regular layers) (Rg' : regular layers') (B : stage_of layers H) (B' : stage_of layers' H').
Hypothesis World : forall m, In m (opinions [] layers) -> value m NAME = VStr (lit "/").
Hypothesis Hc : names cs.
Hypothesis Hr : names rs.
Hypothesis Hrn : rs <> [].
Hypothesis Ed : cleared cs rs (VStr rp) d d'.
Hypothesis Eo : opinions cs layers = st ++ d :: wk.
Hypothesis Eo' : opinions cs layers' = st ++ d' :: wk.
Hypothesis Else : forall es, names es -> es <> cs -> opinions es layers' = opinions es layers.
Hypothesis Sil : silent INSTANCE_PATH (opinions cs layers').
Hypothesis Esrc : reads H cs (source_of INSTANCE_PATH) = Some (VTuple [VStr rp; VStr p]).
Hypothesis Eprox : reads H cs PROXY = Some (VBool false).
Hypothesis Enor : ~ OpinionsSpec.follows H rs [].
Hypothesis leaf : forall xs, names xs -> xs <> [] -> ~ in_stage H (cs ++ xs).
Hypothesis bare : forall xs, names xs -> xs <> [] -> ~ in_stage H (rs ++ xs).
Hypothesis Hrh : in_stage H rs.
Hypothesis unseen : forall es, ~ points H es cs.
Hypothesis Plain : plainly_silent layers.
Hypothesis Esl : value d SOURCE_LAYER = VStr rp.
Hypothesis Enth : nth_error (bases_in (comps H) (Co p)) (length st) = Some (Sp i).
Let wf := r_fits layers Rg.
Let wf' := r_fits layers' Rg'.

Lemma b_here : in_stage H cs. Proof. exact (cs_here layers layers' H ps nm d d' st wk Rg B Hc Eo Eo'). Qed.
Lemma b_here' : in_stage H' cs. Proof. exact (cs_here' layers layers' H' ps nm d d' st wk Rg' B' Hc Eo Eo'). Qed.
Lemma b_rc : rs <> cs. Proof. exact (rs_not_cs layers layers' H ps nm rs rp d d' st wk Rg B Hc Hr Hrn Ed Eo Eo' Sil). Qed.
Lemma b_rp : rs <> ps. Proof. exact (rs_not_ps layers layers' ps nm rs rp d d' st wk Rg Hc Hr Hrn Ed Eo Eo' Sil). Qed.
Lemma b_none ts : ~ instances H' cs ts. Proof. exact (no_source_now layers layers' H' ps nm d d' st wk Rg' B' Hc Eo Eo' Sil ts). Qed.
Lemma b_draw es fs : draws H es fs -> names es -> in_stage H es -> es <> cs -> fs <> cs. Proof. exact (no_draw H ps nm leaf unseen es fs). Qed.
Lemma b_child es : names es -> in_stage H es -> ~ parent H es cs. Proof. exact (child_not H ps nm leaf es). Qed.
Lemma b_was es : names es -> in_stage H' es -> in_stage H es. Proof. exact (was_there layers layers' H H' ps nm d d' st wk Rg Rg' B B' Hc Eo Eo' Else Sil unseen es). Qed.
Lemma b_is es : names es -> in_stage H es -> in_stage H' es. Proof. exact (is_there layers layers' H H' ps nm rs rp d d' st wk Rg Rg' B B' Hc Ed Eo Eo' Else Sil leaf unseen es). Qed.
Lemma b_same es fs : names es -> in_stage H es -> es <> cs -> draws H es fs -> same layers H H' fs. Proof. exact (else_same layers layers' H H' ps nm rs rp d d' st wk Rg Rg' B B' Hc Ed Eo Eo' Else Sil leaf unseen es fs). Qed.
Lemma b_reads es a : names es -> in_stage H es -> es <> cs -> asked a -> reads H' es a = reads H es a. Proof. exact (else_reads layers layers' H H' ps nm rs rp d d' st wk Rg Rg' B B' Hc Ed Eo Eo' Else Sil leaf unseen es a). Qed.
Lemma b_worlds : opinions [] layers = [] <-> opinions [] layers' = []. Proof. exact (worlds layers layers' H ps nm rs rp d d' st wk Hc Ed Eo Eo' Else Sil leaf unseen). Qed.
Lemma b_al es : names es -> in_stage H es -> es <> cs -> forall fs, draws H es fs -> said_alike layers layers' fs. Proof. exact (else_al layers layers' H ps nm Else leaf unseen es). Qed.
Lemma b_new es : names es -> in_stage H es -> es <> cs -> forall fs ts, draws H es fs -> names ts -> ts <> [] -> reads H fs INSTANCE_PATH = Some (VStr (abs_path ts)) -> in_stage H' ts -> in_stage H ts.
Proof. intros _ _ _ fs ts _ Ht _ _. now apply b_was. Qed.
Lemma b_inst : instances H cs rs.
Proof. split; [exact Hr|]. split; [exact Hrn|]. split; [exact Hrh|]. exact (cs_source layers layers' H ps nm rs rp d d' st wk Rg B Hc Hr Hrn Ed Eo Eo' Sil). Qed.
Lemma b_ps : names ps. Proof. now apply names_snoc in Hc. Qed.
Lemma b_up : ps = [] \/ in_stage H ps. Proof. exact (C43_parent_there layers H wf B (r_gapless _ Rg) ps nm Hc b_here). Qed.

Section Parts.
Variables H1 F H1' F' : heap.
Hypotheses (P : parts layers H1 F H) (P' : parts layers' H1' F' H').
Let par := if here H (abs_path ps) then [Co (abs_path ps)] else [].

Lemma b_layers : exists is rest0, layers_of F p = map Sp is /\ bs H (Co p) = map Sp is ++ rest0 ++ [Co q0] /\ (rest0 = par \/ rest0 = []) /\
  (forall j, In j is -> j < length (specs H)) /\ spec_nodes (specs H) (map Sp is) = opinions cs layers /\ In i is /\ nth_error is (length st) = Some i /\ nth_error (specs H) i = Some d.
Proof.
  destruct (fin_layers layers H1 F H wf P cs Hc) as (is & El & L & Sn); [rewrite Eo; destruct st; discriminate|].
  destruct (bases_form layers H H1 F Rg B P cs Hc b_here) as (rest & Eb & Rs). fold p in El, Eb. rewrite El in Eb.
  assert (Er : exists rest0, rest = rest0 ++ [Co q0] /\ (rest0 = par \/ rest0 = [])).
  { destruct Rs as [_ N|ds _ N|ts N I|ds ts K I N|ds ts K I N]; try (now destruct (N rs b_inst)); rewrite (one_inst_fun H cs ts rs I b_inst) in *; [exists []; auto| |exists []; auto].
    exists [Co (abs_path ds)]. split; [reflexivity|left]. apply (one_parent layers H Rg B ps nm ds Hc b_here) in K as (-> & K). unfold in_stage in K. unfold par. now rewrite K. }
  destruct Er as (rest0 & Er & Er2). exists is, rest0. split; [exact El|]. split; [now rewrite Eb, Er|].
  split; [exact Er2|]. split; [exact L|]. split; [exact Sn|].
  assert (Len : length is = length (st ++ d :: wk)) by (rewrite <- Eo, <- Sn; symmetry; now apply spec_nodes_length).
  assert (Q : nth_error is (length st) = Some i).
  { change (bases_in (comps H) (Co p)) with (bs H (Co p)) in Enth. rewrite Eb in Enth. rewrite nth_error_app1 in Enth by (rewrite map_length, Len, app_length; cbn; lia). rewrite nth_error_map in Enth. destruct (nth_error is (length st)) as [j|]; [|discriminate]. now injection Enth as ->. }
  split; [exact (nth_error_In _ _ Q)|]. split; [exact Q|].
  rewrite (nth_spec (specs H) is _ L Sn _ _ Q), Eo. rewrite nth_error_app2 by lia. now rewrite Nat.sub_diag.
Qed.

Lemma b_owned q j : In (Sp j) (bs H (Co q)) -> In (Sp j) (layers_of F q).
Proof. intros Hj. destruct (look_owned _ F H (p_good _ _ _ _ P) (p_post _ _ _ _ P)) as (O1 & _). destruct (O1 q) as (rest & E & Hrest). rewrite E in Hj. apply in_app_or in Hj as [Hj|Hj]; [exact Hj|]. destruct (Hrest _ Hj) as (x & Q). discriminate. Qed.
Lemma b_mine j q : In (Sp j) (bs H (Co p)) -> q <> p -> ~ In (Sp j) (bs H (Co q)).
Proof. intros Hj Nq Hq. apply Nq. apply (proj2 (proj2 (flat_owned _ F (p_good _ _ _ _ P)))) with j; now apply b_owned. Qed.
Lemma b_path q : here H q = true -> exists es, names es /\ q = abs_path es. Proof. exact (fin_path layers H1 F H P q). Qed.
Lemma b_nobody q : ~ In (Co p) (bs H (Co q)).
Proof.
  intros Hi. destruct (here H q) eqn:Hq; [|unfold bs, bases_in in Hi; unfold here, dmem in Hq; destruct (dget q (comps H)); [discriminate|destruct Hi]].
  destruct (b_path q Hq) as (es & He & ->). destruct (view_up_co layers H1 F H wf P es p He Hq Hi) as (ds & E & [K|I]).
  - destruct (parent_names H es ds He K) as (Hd & _). apply path_inj in E; [|exact Hc|exact Hd]. subst ds. exact (b_child es He Hq K).
  - pose proof I as (Hd & _ & _ & E2). apply path_inj in E; [|exact Hc|exact Hd]. subst ds. apply (unseen es). repeat split; auto.
Qed.
Lemma b_reach q es : q = Co (abs_path es) -> names es -> in_stage H es -> es <> cs -> ~ up H q (Co p).
Proof. intros -> He Hh Ne U. destruct (up_draws layers H1 F H wf P _ _ U es p eq_refl eq_refl He Hh) as (fs & E & D). destruct (draws_names H _ _ D He Hh) as (Hf & _). apply path_inj in E; [|exact Hc|exact Hf]. subst fs. exact (b_draw es cs D He Hh Ne eq_refl). Qed.
Lemma b_up_spec j es : In (Sp j) (bs H (Co p)) -> names es -> in_stage H es -> es <> cs -> ~ up H (Co (abs_path es)) (Sp j).
Proof. intros Hj He Hh Ne U. destruct (owner _ H _ j p (look_owned _ F H (p_good _ _ _ _ P) (p_post _ _ _ _ P)) (b_owned p j Hj) U) as [Q|Q]; [discriminate|]. exact (b_reach _ es eq_refl He Hh Ne Q). Qed.

Lemma b_bare ts : names ts -> (forall xs, names xs -> xs <> [] -> ~ in_stage H (ts ++ xs)) -> forall k, here H k = true -> parent_of H k <> abs_path ts.
Proof.
  intros Ht Bt k Hk. destruct (b_path k Hk) as (es & He & ->). intros E. destruct (removelast_snoc' es) as [->|(qs & x & ->)].
  - unfold parent_of in E. change (abs_path []) with WORLD in E, Hk. rewrite (fin_untouched layers H1 F H P) in E by (split; [intros Q; apply str_in_In in Q; vm_compute in Q; discriminate Q|intros b [<-|[<-|[<-|[]]]]; vm_compute; discriminate]).
    rewrite (t_root _ (fin_tree layers H1 F H P)) in E by (now rewrite <- (fin_here layers H1 F H P)). symmetry in E. now apply path_not_empty in E.
  - unfold parent_of in E. rewrite (proj1 (at_place layers H wf B qs x He Hk)) in E. pose proof He as He'. apply names_snoc in He' as (Hq & Hx). apply path_inj in E; [|exact Hq|exact Ht]. subst qs. apply (Bt [x]); [constructor; [exact Hx|constructor]|discriminate|exact Hk].
Qed.
Lemma b_silent_st m : In m st \/ In m wk -> ~ says (value m INSTANCE_PATH).
Proof. intros Hm. apply Sil. rewrite Eo'. apply in_or_app. destruct Hm; [now left|right; now right]. Qed.
Lemma b_weaker : Opinions.has_stronger_opinion H p INSTANCE_PATH (VStr rp) = Ok false.
Proof.
  destruct b_layers as (is & rest0 & _ & Eb & _ & L & Sn & _). unfold Opinions.has_stronger_opinion. pose proof b_here as Hh. unfold in_stage in Hh. fold p in Hh. rewrite Hh. change (bases_in (comps H) (Co p)) with (bs H (Co p)). rewrite Eb. set (rest := rest0 ++ [Co q0]). clearbody rest.
  assert (G : forall is l st wk val, (forall j, In j is -> j < length (specs H)) -> spec_nodes (specs H) (map Sp is) = l -> l = st ++ d :: wk -> silent INSTANCE_PATH st -> exists w, Opinions.scan H INSTANCE_PATH (VStr rp) (map Sp is ++ rest) val = (w, false)).
  { clear - Esl. induction is as [|x is IH]; intros l s0 w0 val L E El Si; [cbn in E; subst l; destruct s0; discriminate|]. cbn [map spec_nodes flat_map] in E. fold (spec_nodes (specs H) (map Sp is)) in E. destruct (nth_error (specs H) x) as [n|] eqn:En; [|apply nth_error_None in En; specialize (L x (or_introl eq_refl)); lia]. cbn [app] in E.
    cbn [map app Opinions.scan]. rewrite !(OpinionsProofs.get_sp H x _ n En). destruct (Runtime.py_eqb (value n SOURCE_LAYER) (VStr rp)) eqn:Q; [eauto|].
    destruct s0 as [|y s1]; cbn [app] in El; rewrite <- E in El; injection El as E1 E2; [rewrite E1, Esl in Q; exfalso; cbn [Runtime.py_eqb] in Q; rewrite str_eqb_refl in Q; discriminate|].
    assert (O : has_opinion (value n INSTANCE_PATH) = false) by (apply no_opinion_says; apply Si; left; now symmetry). rewrite O. apply (IH (s1 ++ d :: w0) s1 w0 (value n INSTANCE_PATH)); [intros j Hj; apply L; now right|exact E2|reflexivity|]. intros m Hm. apply Si. now right. }
  destruct (G is _ st wk VNone L Sn Eo) as (w & ->); [intros m Hm; apply b_silent_st; now left|]. now destruct (Runtime.py_eqb _ w).
Qed.
Lemma b_said is a : spec_nodes (specs H) (map Sp is) = opinions cs layers -> silent a (opinions cs layers) -> silent_in H is a.
Proof.
  intros Sn Si j Hj. unfold ref_attr. destruct (nth_error (specs H) j) as [n|] eqn:En; [|reflexivity]. apply no_opinion_says. apply Si. rewrite <- Sn. unfold spec_nodes. apply in_flat_map. exists (Sp j). split; [now apply in_map|]. rewrite En. now left.
Qed.

(** The classes after the run and those of the new stage, side by side. *)
Inductive twin : ref -> ref -> Prop :=
| twin_node es : names es -> in_stage H es -> twin (Co (abs_path es)) (Co (abs_path es))
| twin_layer es k j j' : names es -> in_stage H es -> nth_error (layers_of F (abs_path es)) k = Some (Sp j) -> nth_error (layers_of F' (abs_path es)) k = Some (Sp j') -> twin (Sp j') (Sp j).
Lemma twin_one x y x' y' : twin x x' -> twin y y' -> (x = y <-> x' = y').
Proof.
  intros A A'. pose proof (proj2 (proj2 (flat_owned _ F (p_good _ _ _ _ P)))) as O. pose proof (proj2 (proj2 (flat_owned _ F' (p_good _ _ _ _ P')))) as O'.
  destruct A as [es D1 D2|es k j j' D1 D2 E E'], A' as [fs D3 D4|fs k2 l l' D3 D4 E2 E2']; try (split; congruence).
  split; intros Q; injection Q as ->.
  - pose proof (O' _ _ l' (nth_error_In _ _ E') (nth_error_In _ _ E2')) as Q. rewrite Q in *. rewrite (nth_once _ F' (p_good _ _ _ _ P') _ _ _ _ E' E2') in *. congruence.
  - pose proof (O _ _ l (nth_error_In _ _ E) (nth_error_In _ _ E2)) as Q. rewrite Q in *. rewrite (nth_once _ F (p_good _ _ _ _ P) _ _ _ _ E E2) in *. congruence.
Qed.
Lemma b_par_up : here H' (abs_path ps) = here H (abs_path ps).
Proof.
  destruct (here H (abs_path ps)) eqn:E; [exact (b_is ps b_ps E)|]. apply not_true_iff_false. intros Q. apply (b_was ps b_ps) in Q. unfold in_stage in Q. congruence.
Qed.
Lemma twin_bases Y is : layers_of F p = map Sp is -> spec_nodes (specs H) (map Sp is) = opinions cs layers -> (forall j, In j is -> j < length (specs H)) ->
  (forall q, q <> p -> bs Y (Co q) = bs H (Co q)) -> bs Y (Co p) = map Sp is ++ par -> forall x x', twin x x' -> Forall2 twin (bs H' x) (bs Y x').
Proof.
  intros El Sn L Eq Eb x x' T. destruct T as [es He Hh|es k j j' He Hh E E']; [|constructor]. destruct (list_eq_dec (list_eq_dec N.eq_dec) es cs) as [->|Ne].
  - fold p. rewrite Eb. destruct (bases_form layers' H' H1' F' Rg' B' P' cs Hc b_here') as (rest' & Eb' & Rs'). fold p in Eb'. rewrite Eb'. apply Forall2_app.
    + destruct (fin_layers layers' H1' F' H' wf' P' cs Hc) as (is' & El' & L' & Sn'); [rewrite Eo'; destruct st; discriminate|]. fold p in El'. rewrite El'.
      assert (Len : length is = length is'). { rewrite <- (spec_nodes_length (specs H) is L), <- (spec_nodes_length (specs H') is' L'). rewrite Sn, Sn', Eo, Eo', !app_length. reflexivity. }
      assert (G : forall k j j', nth_error is k = Some j -> nth_error is' k = Some j' -> twin (Sp j') (Sp j)). { intros k j j' E E'. apply twin_layer with cs k; [exact Hc|exact b_here|fold p; rewrite El; exact (map_nth_error Sp k is E)|fold p; rewrite El'; exact (map_nth_error Sp k is' E')]. }
      clear - Len G. revert is' Len G. induction is as [|x is IH]; intros [|x' is'] Len G; try discriminate; constructor; [now apply (G 0)|]. apply IH; [now injection Len|]. intros k. apply (G (S k)).
    + destruct Rs' as [N _|ds K _|ts _ I|ds ts _ I|ds ts _ I]; try (now destruct (b_none ts I)); unfold par; rewrite <- b_par_up.
      * assert (Q : here H' (abs_path ps) = false). { apply not_true_iff_false. intros Q. apply (N ps). apply (one_parent layers' H' Rg' B' ps nm ps Hc b_here'). auto. } rewrite Q. constructor.
      * apply (one_parent layers' H' Rg' B' ps nm ds Hc b_here') in K as (-> & K). unfold in_stage in K. rewrite K. constructor; [|constructor]. apply twin_node; [exact b_ps|]. now apply (b_was ps b_ps).
  - rewrite (Eq (abs_path es)) by (intros Q; apply path_inj in Q; auto).
    pose proof (paired_bases layers layers' H H' Rg Rg' B B' b_worlds es He Hh (b_al es He Hh Ne) (b_new es He Hh Ne) H1 F H1' F' P P' _ _ (paired_node H es F F' es (draws_self H es))) as Pb.
    revert Pb. apply flip2. intros y y' [fs D|fs k j j' D E E']; destruct (draws_names H es fs D He Hh) as (Hf & Hfh); [now apply twin_node|now apply twin_layer with fs k].
Qed.
Lemma twin_mro Y is es : layers_of F p = map Sp is -> spec_nodes (specs H) (map Sp is) = opinions cs layers -> (forall j, In j is -> j < length (specs H)) ->
  (forall q, q <> p -> bs Y (Co q) = bs H (Co q)) -> bs Y (Co p) = map Sp is ++ par -> valid Y -> names es -> in_stage H es ->
  exists l l', mro_of H' (Co (abs_path es)) = Some l' /\ mro_of Y (Co (abs_path es)) = Some l /\ Forall2 twin l' l.
Proof.
  intros El Sn L Eq Eb V He Hh. destruct (one_sound layers' H' Rg' B') as (_ & So'). destruct (So' (abs_path es) (b_is es He Hh)) as (l' & El'). pose proof (mro_short _ _ _ _ El') as Es. change (bases_in (comps H')) with (bs H') in Es.
  pose proof (mro_alike ref_eqb ref_eqb_eq twin twin_one (bs H') (bs Y) (twin_bases Y is El Sn L Eq Eb) (length l') _ _ (twin_node es He Hh)) as M. rewrite Es in M. unfold RO in M. destruct (mro ref_eqb (bs Y) (length l') (Co (abs_path es))) as [l|] eqn:EY; [|destruct M].
  exists l, l'. split; [exact El'|]. split; [exact (mro_enough Y _ _ _ V EY)|exact M].
Qed.
Lemma b_valid Y is : (forall j, In j is -> j < length (specs H)) -> length (specs Y) = length (specs H) -> dkeys (comps Y) = dkeys (comps H) ->
  (forall q, q <> p -> bs Y (Co q) = bs H (Co q)) -> bs Y (Co p) = map Sp is ++ par -> valid Y.
Proof.
  intros L Ls Ks Eq Eb. assert (Hq : forall q, here Y q = here H q). { intros q. destruct (here H q) eqn:E; [|apply not_true_iff_false; apply not_true_iff_false in E]; rewrite here_In in *; now rewrite Ks. }
  apply valid_bs. intros q r Hh Hi. rewrite Hq in Hh. destruct (str_eqb q p) eqn:E.
  - apply str_eqb_eq in E as ->. rewrite Eb in Hi. apply in_app_or in Hi as [Hi|Hi]; [apply in_map_iff in Hi as (j & <- & Hj); rewrite Ls; now apply L|].
    unfold par in Hi. destruct (here H (abs_path ps)) eqn:Hp; [|destruct Hi]. destruct Hi as [<-|[]]. now rewrite Hq.
  - apply str_eqb_neq in E. rewrite (Eq q E) in Hi. pose proof (proj1 (valid_bs H) (proj1 (one_sound layers H Rg B)) q r Hh Hi) as K. destruct r as [j|x]; [now rewrite Ls|now rewrite Hq].
Qed.

Section Got.
Variables (is : list nat) (rest0 : list ref).
Hypothesis El : layers_of F p = map Sp is.
Hypothesis Sn : spec_nodes (specs H) (map Sp is) = opinions cs layers.
Hypothesis L : forall j, In j is -> j < length (specs H).
Hypothesis Hi : In i is.
Hypothesis Eb : bs H (Co p) = map Sp is ++ rest0 ++ [Co q0].
Hypothesis Er : rest0 = par \/ rest0 = [].
Hypothesis Ei : nth_error (specs H) i = Some d.

Lemma look_same {V} (f g : ref -> option V) l : (forall x, In x l -> f x = g x) -> lookup_in f l = lookup_in g l.
Proof. induction l as [|x l IH]; intros E; [reflexivity|]. cbn [lookup_in]. rewrite (E x) by now left. rewrite IH by (intros y Hy; apply E; now right). reflexivity. Qed.

Section Ran.
Variables (T : list node) (iv sv : option pyval) (X : heap).
Hypothesis R : reach H ps nm i is T iv sv X.
Lemma x_here q : here X q = here H q. Proof. exact (y_here H ps nm i is T iv sv X R q). Qed.
Lemma x_len : length (specs X) = length (specs H). Proof. exact (y_slen H ps nm i is T iv sv X R). Qed.
Lemma x_bs q : q <> p -> bs X (Co q) = bs H (Co q). Proof. exact (y_bs _ _ _ _ _ _ _ _ _ R q). Qed.
Lemma x_bsp : bs X (Co p) = map Sp is ++ par. Proof. exact (y_bsp _ _ _ _ _ _ _ _ _ R). Qed.
Lemma x_valid : valid X. Proof. exact (b_valid X is L x_len (y_keys _ _ _ _ _ _ _ _ _ R) x_bs x_bsp). Qed.
Lemma x_spec j a : j <> i \/ ~ moved a -> own_attr X a (Sp j) = own_attr H a (Sp j). Proof. exact (y_spec _ _ _ _ _ _ _ _ _ R j a). Qed.
Lemma x_own a : ~ moved a -> ~ spared H is a -> own_attr X a (Co p) = own_attr H a (Co p). Proof. exact (y_own _ _ _ _ _ _ _ _ _ R a). Qed.
Lemma x_own_else q a : q <> p -> own_attr X a (Co q) = own_attr H a (Co q). Proof. exact (y_else _ _ _ _ _ _ _ _ _ R q a). Qed.
Lemma x_still es : names es -> es <> cs -> mro_of X (Co (abs_path es)) = mro_of H (Co (abs_path es)).
Proof.
  intros He Ne. apply (still_mro H ps nm i is) with T iv sv; [exact b_up|exact b_nobody|exact (fun Hp => check_comp layers H wf B World ps b_ps Hp)|exact R|]. intros [= Q]. apply path_inj in Q; auto.
Qed.
Lemma x_else es a : names es -> in_stage H es -> es <> cs -> reads X es a = reads H es a.
Proof.
  intros He Hh Ne. unfold reads, getattr. rewrite (x_still es He Ne). destruct (mro_of H (Co (abs_path es))) as [l|] eqn:E; [|reflexivity]. f_equal. apply look_same. intros x Hx. assert (U : up H (Co (abs_path es)) x) by (now apply (mro_laws ref_eqb ref_eqb_eq _ _ _ _ E) in Hx).
  destruct x as [j|q].
  - apply x_spec. left. intros ->. apply (b_up_spec i es) in U; auto. rewrite Eb. apply in_or_app. left. now apply in_map.
  - apply x_own_else. intros ->. exact (b_reach _ es eq_refl He Hh Ne U).
Qed.
Lemma x_first : exists j0 l r, mro_of X (Co p) = Some (Co p :: Sp j0 :: l) /\ bs X (Co p) = Sp j0 :: r /\ is <> [] /\ hd_error is = Some j0.
Proof.
  assert (Q0 : exists j0 is', is = j0 :: is'). { clear - Hi. destruct is as [|j0 is']; [destruct Hi|eauto]. } destruct Q0 as (j0 & is' & Eis).
  destruct (twin_mro X is cs El Sn L x_bs x_bsp x_valid Hc b_here) as (l & l' & E' & E & T0). fold p in E, E'.
  destruct (first_layer layers' H' cs wf' B' b_here') as (k & l2 & r2 & M & Q). fold p in M, Q. rewrite M in E'. injection E' as <-. inversion T0 as [|x y t t' T1 T2 Q1 Q2]. rewrite <- Q2 in E. inversion T2 as [|x2 y2 t2 t3 T3 T4 Q3 Q4]. rewrite <- Q4 in E.
  assert (Y1 : y = Co p). { apply (twin_one (Co p) (Co p) y (Co p) T1 (twin_node cs Hc b_here)). reflexivity. }
  assert (TB := twin_bases X is El Sn L x_bs x_bsp _ _ (twin_node cs Hc b_here)). fold p in TB. pose proof x_bsp as EB. rewrite Eis in EB. cbn [map app] in EB. rewrite Q, EB in TB. inversion TB as [|b b' tb tb' B1 B2].
  assert (Y2 : y2 = Sp j0). { apply (twin_one (Sp k) (Sp k) y2 (Sp j0)); auto. }
  rewrite Y1, Y2 in E. exists j0, t3. eexists. split; [exact E|]. split; [exact EB|]. rewrite Eis. split; [discriminate|reflexivity].
Qed.
Lemma first_key a j0 : hd_error is = Some j0 -> In a internal_keys -> exists w, own_attr H a (Sp j0) = Some w.
Proof.
  intros Hd Ha. assert (I0 : nth_error is 0 = Some j0) by (clear - Hd; destruct is; [discriminate|exact Hd]). pose proof (nth_spec _ is _ L Sn 0 j0 I0) as E. assert (Hl : j0 < length (specs H)) by (apply L; now apply nth_error_In in I0). apply nth_error_Some in Hl. destruct (nth_error (specs H) j0) as [m|] eqn:Em; [|contradiction].
  unfold own_attr. rewrite Em. symmetry in E. apply nth_error_In in E. pose proof (opinion_keys layers wf cs m a Hc E Ha) as K. destruct (dget a m); [eauto|contradiction].
Qed.
Lemma x_reads a : In a internal_keys -> ~ moved a -> reads X cs a = Some (attr X p a).
Proof.
  intros Ha Nm. destruct x_first as (j0 & l & r & M & Q & _ & Hd). unfold reads, getattr. fold p. rewrite M, attr_own, Q. cbn [lookup_in]. destruct (own_attr X a (Co p)); [reflexivity|]. rewrite !x_spec by now right.
  destruct (first_key a j0 Hd Ha) as (w & ->). reflexivity.
Qed.
Lemma x_keeps a : In a internal_keys -> ~ moved a -> ~ spared H is a -> reads X cs a = reads H cs a.
Proof.
  intros Ha Nm Ns. rewrite x_reads by auto. rewrite (view_internal layers H1 F H wf P cs a b_here Ha). f_equal. fold p. rewrite !attr_own, (x_own a Nm Ns), Eb, x_bsp. destruct (own_attr H a (Co p)); [reflexivity|].
  assert (Q0 : exists j0 is', is = j0 :: is'). { clear - Hi. destruct is as [|j0 is']; [destruct Hi|eauto]. } destruct Q0 as (j0 & is' & Eis). rewrite Eis. cbn [map app]. rewrite x_spec; [reflexivity|]. now right.
Qed.
Lemma x_members l r : mro_of X (Co p) = Some l -> In r l -> r = Co p \/ (exists j, In j is /\ r = Sp j) \/ in_stage H ps /\ up H (Co (abs_path ps)) r.
Proof.
  intros M Hrl. assert (U : up X (Co p) r) by (now apply (mro_laws ref_eqb ref_eqb_eq _ _ _ _ M) in Hrl). inversion U as [c|c b d0 Hb U2]; [now left|right]. change (bases_in (comps X) (Co p)) with (bs X (Co p)) in Hb. rewrite x_bsp in Hb. apply in_app_or in Hb as [Hb|Hb].
  - apply in_map_iff in Hb as (j & <- & Hj). apply (sp_up X) in U2. left. exists j. auto.
  - right. unfold par in Hb. destruct (here H (abs_path ps)) eqn:Hp; [|destruct Hb]. destruct Hb as [<-|[]]. split; [exact Hp|].
    destruct (one_sound layers H Rg B) as (_ & So). destruct (So (abs_path ps) Hp) as (l0 & E0).
    assert (Nps : ps <> cs) by (intros Q; apply (f_equal (@length _)) in Q; unfold cs in Q; rewrite app_length in Q; cbn in Q; lia). pose proof (x_still ps b_ps Nps) as Q. rewrite E0 in Q.
    apply (mro_laws ref_eqb ref_eqb_eq _ _ _ _ Q) in U2. now apply (mro_laws ref_eqb ref_eqb_eq _ _ _ _ E0) in U2.
Qed.
End Ran.

(** *** No source is left to be found in the history *)
Section History.
Variable Y : heap.
Hypothesis R : reach H ps nm i is (specs H) (own_attr H INSTANCE_PATH (Co p)) (own_attr H (source_of INSTANCE_PATH) (Co p)) Y.
Lemma h_specs : specs Y = specs H. Proof. exact (y_specs _ _ _ _ _ _ _ _ _ R). Qed.
Lemma h_own_sp j a : own_attr Y a (Sp j) = own_attr H a (Sp j). Proof. unfold own_attr. now rewrite h_specs. Qed.
Lemma h_get_sp j a : Opinions.get Y (Sp j) a = Opinions.get H (Sp j) a.
Proof. unfold Opinions.get. now rewrite !OpinionsProofs.getattr_sp, h_specs. Qed.
Lemma h_own a : moved a -> own_attr Y a (Co p) = own_attr H a (Co p).
Proof. intros [->| ->]; [exact (y_inst _ _ _ _ _ _ _ _ _ R)|exact (y_src _ _ _ _ _ _ _ _ _ R)]. Qed.
Lemma moved_key a : moved a -> In a internal_keys. Proof. intros [->| ->]; apply str_in_In; reflexivity. Qed.
Lemma h_attr_p a : moved a -> attr Y p a = attr H p a.
Proof.
  intros M. rewrite !attr_own, (h_own a M), Eb, (x_bsp _ _ _ _ R). destruct (own_attr H a (Co p)); [reflexivity|].
  assert (Q0 : exists j0 is', is = j0 :: is'). { clear - Hi. destruct is as [|j0 is']; [destruct Hi|eauto]. } destruct Q0 as (j0 & is' & Eis). rewrite Eis. cbn [map app]. now rewrite h_own_sp.
Qed.
Lemma h_reads a : moved a -> reads Y cs a = reads H cs a.
Proof.
  intros M. destruct (x_first _ _ _ _ R) as (j0 & l & r & Mr & Q & _ & Hd). rewrite (view_internal layers H1 F H wf P cs a b_here (moved_key a M)). fold p. rewrite <- (h_attr_p a M). unfold reads, getattr. fold p. rewrite Mr, attr_own, Q. cbn [lookup_in]. destruct (own_attr Y a (Co p)); [reflexivity|]. rewrite h_own_sp.
  destruct (first_key a j0 Hd (moved_key a M)) as (w & ->). reflexivity.
Qed.
Lemma h_attr q : attr Y q INSTANCE_PATH = attr H q INSTANCE_PATH.
Proof.
  destruct (str_eqb q p) eqn:E; [apply str_eqb_eq in E as ->; apply h_attr_p; now left|]. apply str_eqb_neq in E. rewrite !attr_own, (x_own_else _ _ _ _ R q _ E), (x_bs _ _ _ _ R q E). destruct (own_attr H INSTANCE_PATH (Co q)); [reflexivity|]. destruct (bs H (Co q)) as [|[j|x] l]; try reflexivity. now rewrite h_own_sp.
Qed.
Lemma h_place a : a = NAME \/ a = PARENT_PATH -> attr Y p a = attr H p a.
Proof.
  intros Ha. rewrite !attr_own. rewrite (x_own _ _ _ _ R a), Eb, (x_bsp _ _ _ _ R).
  - destruct (own_attr H a (Co p)); [reflexivity|]. assert (Q0 : exists j0 is', is = j0 :: is'). { clear - Hi. destruct is as [|j0 is']; [destruct Hi|eauto]. } destruct Q0 as (j0 & is' & Eis). rewrite Eis. cbn [map app]. now rewrite h_own_sp.
  - intros [->| ->]; destruct Ha as [Q|Q]; discriminate Q.
  - intros (S1 & _). destruct Ha as [->| ->]; apply str_in_In in S1; vm_compute in S1; discriminate S1.
Qed.
Lemma h_check r : check_path Y r = check_path H r.
Proof.
  unfold check_path. destruct r as [j|q]; [unfold ref_attr; now rewrite h_specs|]. destruct (str_eqb q p) eqn:E.
  - apply str_eqb_eq in E as ->. unfold ref_attr. now rewrite !h_place by auto.
  - apply str_eqb_neq in E. assert (G : forall a, attr Y q a = attr H q a). { intros a. rewrite !attr_own, (x_own_else _ _ _ _ R q _ E), (x_bs _ _ _ _ R q E). destruct (own_attr H a (Co q)); [reflexivity|]. destruct (bs H (Co q)) as [|[j|x] l]; try reflexivity. now rewrite h_own_sp. }
    unfold ref_attr. now rewrite !G.
Qed.
Lemma h_trace : trace Y p = trace H p.
Proof.
  assert (G : forall f q acc, trace_from f Y q acc = trace_from f H q acc). { induction f as [|f IH]; intros q acc; [reflexivity|]. cbn [trace_from]. unfold inst_of. rewrite h_attr. destruct (as_str (attr H q INSTANCE_PATH)); [|reflexivity]. rewrite (x_here _ _ _ _ R). now rewrite IH. }
  unfold trace. assert (Lc : length (comps Y) = length (comps H)) by (rewrite <- !(map_length fst); exact (f_equal (@length _) (y_keys _ _ _ _ _ _ _ _ _ R))). now rewrite Lc, G.
Qed.
Lemma h_looked r : Opinions.looked_at Y p INSTANCE_PATH r = Opinions.looked_at H p INSTANCE_PATH r.
Proof.
  unfold Opinions.looked_at. assert (E : get_arc Y p r = get_arc H p r); [|now rewrite E]. unfold get_arc. cbv zeta. rewrite h_attr, (h_place PARENT_PATH), h_check, h_trace by auto. assert (Q : path_of Y (Co p) = path_of H (Co p)); [|now rewrite Q]. unfold path_of, ref_attr. now rewrite !h_place by auto.
Qed.
Let e := (VTuple [VStr rp; VStr p], VStr q0).
Lemma h_root ts : names ts -> reads H [] INSTANCE_PATH <> Some (VStr (abs_path ts)).
Proof.
  intros _ E. destruct (here H WORLD) eqn:Hw.
  - rewrite (view_internal layers H1 F H wf P [] _ Hw inst_key) in E. injection E as E. now apply (fin_not_world layers H1 F H P [] _ E).
  - unfold reads, getattr in E. change (abs_path []) with WORLD in E. unfold mro_of in E. rewrite mro_no_bases in E by (unfold bases_in; unfold here, dmem in Hw; now destruct (dget WORLD (comps H))). cbn [lookup_in own_attr] in E. unfold here, dmem in Hw. destruct (dget WORLD (comps H)); discriminate.
Qed.
Lemma h_kids x es : OpinionsSpec.follows H x es -> names x -> in_stage H x -> es <> [] -> forall xs, names xs -> in_stage H (es ++ xs) -> in_stage H (x ++ xs).
Proof.
  induction 1 as [x r (Hn & Hh & E)|x r es (Hn & Hh & E) Fo IH]; intros Hx Hxh Ne xs Hxs Hk.
  - assert (I : instances H x r) by (repeat split; auto). exact (proj2 (proj1 (C43_mirror layers H wf B (r_gapless _ Rg) (r_pure _ Rg) x r Hx Hxh I (one_not_above layers H Rg B x r Hx Hxh I) xs Hxs)) Hk).
  - assert (Nr : r <> []). { intros ->. inversion Fo as [? ? (Q1 & _ & Q)|? ? ? (Q1 & _ & Q)]; exact (h_root _ Q1 Q). }
    assert (I : instances H x r) by (repeat split; auto). apply (proj2 (proj1 (C43_mirror layers H wf B (r_gapless _ Rg) (r_pure _ Rg) x r Hx Hxh I (one_not_above layers H Rg B x r Hx Hxh I) xs Hxs))). now apply IH.
Qed.
Lemma h_said x b : x ++ b = cs -> x = [] \/ opinions x layers <> [].
Proof.
  assert (G : forall b x, names (x ++ b) -> opinions (x ++ b) layers <> [] -> x = [] \/ opinions x layers <> []).
  { clear b x. intros b. induction b as [|y b IH] using rev_ind; intros x Hn Ho; [rewrite app_nil_r in Ho; now right|]. rewrite app_assoc in Hn, Ho. destruct (r_gapless layers Rg (x ++ b) y Hn Ho) as [E|E]; [left; now apply app_eq_nil in E|]. apply IH; [now apply names_snoc in Hn|exact E]. }
  intros E. apply (G b); rewrite E; [exact Hc|]. rewrite Eo. clear. destruct st; discriminate.
Qed.
Lemma h_above x es : draws H x es -> forall b, x ++ b = cs -> b <> [] -> in_stage H x -> exists b', es ++ b' = cs /\ b' <> [].
Proof.
  induction 1 as [x|x y es K D IH|x y es I D IH]; intros b Eb0 Nb Hx; [eauto| |].
  - pose proof K as (k & K1 & K2 & K3 & _). apply (IH (skipn k x ++ b)); [|intros Q; now apply app_eq_nil in Q|exact K3]. rewrite K2, app_assoc, firstn_skipn. exact Eb0.
  - exfalso. pose proof I as (Hy & Ny & _ & E). assert (Hxn : names x) by (pose proof Hc as Q; rewrite <- Eb0 in Q; now apply Forall_app in Q). destruct (h_said x b Eb0) as [->|Ho]; [exact (h_root _ Hy E)|].
    apply (C34_instance_path layers H wf B x y Hxn (one_pure layers Rg x Hxn) Ho Hy Ny) in E. apply (r_pure layers Rg x b y); auto; rewrite Eb0; [exact Hc|]. rewrite Eo. clear. destruct st; discriminate.
Qed.
Lemma h_none es b : OpinionsSpec.follows H cs es -> es ++ b = cs -> b <> [] -> False.
Proof.
  pose proof b_inst as (_ & _ & _ & E1). intros Fo Eb0 Nb. assert (Hb : names b) by (pose proof Hc as Q; rewrite <- Eb0 in Q; now apply Forall_app in Q).
  assert (Low : rs <> es) by (intros Q; apply (rs_low layers layers' ps nm rs rp d d' st wk Rg Hc Hr Hrn Ed Eo Eo' Sil); exists b; split; [exact Nb|rewrite Q; now symmetry]).
  inversion Fo as [a c (Hb' & _ & E)|a r c (Hb' & _ & E) Fo2].
  - rewrite E1 in E. injection E as E. apply path_inj in E; auto.
  - assert (r = rs) as -> by (rewrite E1 in E; injection E as E; apply path_inj in E; auto). destruct es as [|y es]; [now apply Enor|]. apply (bare b Hb Nb). apply (h_kids _ _ Fo2 Hr Hrh); [discriminate|exact Hb|]. rewrite Eb0. exact b_here.
Qed.
Lemma h_entry l r : mro_of Y (Co p) = Some l -> In r l -> Opinions.looked_at Y p INSTANCE_PATH r = true -> has_opinion (Opinions.get Y r INSTANCE_PATH) = true ->
  Opinions.get Y r (INSTANCE_PATH ++ META_SOURCE) = fst e /\ Opinions.get Y r INSTANCE_PATH = snd e.
Proof.
  intros M Hrl. rewrite h_looked. destruct (x_members _ _ _ _ R l r M Hrl) as [->|[(j & Hj & ->)|(Hp & U)]].
  - intros _ _. unfold p. rewrite !OpinionsProofs.get_reads. change (INSTANCE_PATH ++ META_SOURCE) with (source_of INSTANCE_PATH). rewrite !h_reads by (unfold moved; auto). rewrite Esrc. pose proof b_inst as (_ & _ & _ & ->). split; reflexivity.
  - intros _. rewrite !h_get_sp. destruct (nth_error (specs H) j) as [n|] eqn:En; [|specialize (L j Hj); apply nth_error_None in En; lia]. rewrite !(OpinionsProofs.get_sp H j _ n En). intros O. apply has_opinion_says in O.
    assert (Hn : In n (opinions cs layers)). { rewrite <- Sn. unfold spec_nodes. apply in_flat_map. exists (Sp j). split; [now apply in_map|]. rewrite En. now left. }
    rewrite Eo in Hn. destruct Ed as (V1 & _ & V3 & _). apply in_app_or in Hn as [Hn|[<-|Hn]]; [now destruct (b_silent_st n (or_introl Hn))|split; [exact V3|exact V1]|now destruct (b_silent_st n (or_intror Hn))].
  - intros Lk O. exfalso.
    assert (Nps : ps <> cs) by (intros Q; apply (f_equal (@length _)) in Q; unfold cs in Q; rewrite app_length in Q; cbn in Q; lia).
    assert (Be : exists es, draws H ps es /\ OpinionsProofs.belongs H r es).
    { destruct r as [j|q]; [destruct (OpinionsProofs.up_layer layers H wf B _ _ U ps j eq_refl eq_refl b_ps Hp) as (es & D & Hj); exists es; split; [exact D|right; eauto]|]. destruct (up_draws layers H1 F H wf P _ _ U ps q eq_refl eq_refl b_ps Hp) as (es & -> & D). exists es. split; [exact D|now left]. }
    destruct Be as (es & D & Be). destruct (draws_names H _ _ D b_ps Hp) as (He & Hh). pose proof (b_draw ps es D b_ps Hp Nps) as Ne.
    assert (It : In INSTANCE_PATH TRACKED) by (apply str_in_In; reflexivity). apply (OpinionsProofs.looked_other layers H wf B World ps nm Hc b_here INSTANCE_PATH It r es He Hh Be Ne) in Lk as (Ne2 & [A|(Q & Fo)]).
    + unfold OpinionsProofs.inst_text in A. pose proof b_inst as (_ & _ & _ & Q). unfold cs in Q. rewrite Q in A. apply is_ancestor_abs in A as [A|(x & Nx & E)]; [contradiction| |now apply names_comp|now apply names_comp]. apply (bare x); [rewrite E in He; now apply Forall_app in He|exact Nx|rewrite <- E; exact Hh].
    + destruct (h_above ps es D [nm] eq_refl) as (b & E & Nb); [discriminate|exact Hp|]. exact (h_none es b Fo E Nb).
Qed.
Lemma loop_one Z q a (e0 : Opinions.entry) l : fst e0 <> VNone -> Opinions.entry_eqb e0 e0 = true ->
  (forall r, In r l -> Opinions.looked_at Z q a r = true -> has_opinion (Opinions.get Z r a) = true -> Opinions.get Z r (a ++ META_SOURCE) = fst e0 /\ Opinions.get Z r a = snd e0) ->
  forall acc, acc = [] \/ acc = [e0] -> exists out, Opinions.history_loop Z q a l acc = Ok out /\ (out = [] \/ out = [e0]).
Proof.
  intros N Ee. induction l as [|r l IH]; intros G acc Ha; [exists acc; auto|]. cbn [Opinions.history_loop]. specialize (IH (fun x Hx => G x (or_intror Hx))). specialize (G r (or_introl eq_refl)).
  destruct (Opinions.looked_at Z q a r); cbn [andb]; [|now apply IH]. destruct (has_opinion (Opinions.get Z r a)) eqn:O; [|now apply IH]. destruct (G eq_refl eq_refl) as (E1 & E2).
  unfold Opinions.get in E1. destruct (getattr Z r (a ++ META_SOURCE)) as [[x w]|]; [|now destruct N]. subst w. rewrite E2, <- surjective_pairing. apply IH. destruct Ha as [->| ->]; cbn [existsb]; [now right|rewrite Ee; cbn [orb]; now right].
Qed.
Lemma h_expanded : expanded Y p VNone = Ok VNone.
Proof.
  unfold expanded. change (has_opinion VNone) with false. cbv iota. unfold Opinions.get_historical_opinions. destruct (x_first _ _ _ _ R) as (j0 & l & r & M & _). rewrite M.
  destruct (loop_one Y p INSTANCE_PATH e (Co p :: Sp j0 :: l)) with (acc := @nil Opinions.entry) as (out & Eq & Ho); [discriminate| |intros x Hx; exact (h_entry _ x M Hx)|now left|].
  { unfold Opinions.entry_eqb, e. cbn [fst snd Runtime.py_eqb]. rewrite !str_eqb_refl. reflexivity. }
  rewrite Eq. cbn [bind].
  assert (Pf : Opinions.get Y (Co p) PROXY = VBool false). { unfold p. rewrite OpinionsProofs.get_reads. rewrite (x_keeps _ _ _ _ R PROXY), Eprox; [reflexivity|apply key; reflexivity|intros [Q|Q]; discriminate Q|intros (S1 & _); apply str_in_In in S1; vm_compute in S1; discriminate S1]. }
  rewrite Pf. cbn [truthy orb]. destruct Ho as [->| ->]; reflexivity.
Qed.
End History.

Let put := dset (INSTANCE_PATH ++ META_SOURCE) (VTuple [VStr rp; VStr p]) (dset INSTANCE_PATH VNone d).
Lemma b_run top one fuel : exists X ds, set_instance top one fuel H i (VStr rp) VNone = Some (Ok (X, ds)) /\ In p ds /\
  reach H ps nm i is (specs (with_spec H i put)) (Some VNone) (Some (VTuple [VStr rp; VStr p])) X /\
  forall a, In a INSTANCE_ATTRS -> silent_in H is a -> own_attr X a (Co p) = Some (default_of a).
Proof.
  pose proof b_here as Hh. destruct (at_place layers H wf B ps nm Hc Hh) as (Ap & An). fold cs p in Ap, An.
  apply (run_form H ps nm rs i d (VStr rp) is rest0).
  - exact (one_sound layers H Rg B).
  - exact Hc.
  - exact Hr.
  - exact Hrn.
  - exact b_rp.
  - exact Hh.
  - exact Hrh.
  - exact (quiet_p layers layers' H ps nm rs rp d d' st wk Rg B Hc Ed Eo Eo' Else Sil leaf unseen).
  - exact (quiet_pp layers layers' H ps nm rs rp d d' st wk Rg B Hc Ed Eo Eo' Else Sil leaf unseen).
  - destruct b_up as [E|E]; [now left|right; exact E].
  - exact Ap.
  - exact An.
  - pose proof b_inst as (_ & _ & _ & E). rewrite (view_internal layers H1 F H wf P cs _ Hh inst_key) in E. now injection E.
  - exact Eb.
  - exact Er.
  - exact Hi.
  - exact Ei.
  - intros q Nq. apply b_mine; [|exact Nq]. fold cs p. rewrite Eb. apply in_or_app. left. now apply in_map.
  - exact b_nobody.
  - destruct (opinion_at layers wf ps nm d Hc) as (V1 & V2 & _); [fold cs; rewrite Eo; apply in_or_app; right; now left|]. unfold path_of, ref_attr. rewrite Ei. change (attr_or_none d PARENT_PATH) with (value d PARENT_PATH). change (attr_or_none d NAME) with (value d NAME). rewrite V1, V2. cbn [str_of]. apply join_node_paths_abs. now apply names_comp.
  - intros Hp. exact (check_comp layers H wf B World ps b_ps Hp).
  - intros j Hj. apply (check_spec layers H wf B ps nm j Hc Hh). change (In (Sp j) (bs H (Co p))). rewrite Eb. apply in_or_app. left. now apply in_map.
  - exact (b_bare rs Hr bare).
  - exact (b_bare cs Hc leaf).
  - exact b_weaker.
  - intros Y Ls Ks Eq EY. destruct (twin_mro Y is cs El Sn L Eq EY (b_valid Y is L Ls Ks Eq EY) Hc Hh) as (l & _ & _ & M & _). exists l. exact M.
  - intros Y RY. exact (h_expanded Y RY).
Qed.

Section After.
Variable X : heap.
Hypothesis R : reach H ps nm i is (specs (with_spec H i put)) (Some VNone) (Some (VTuple [VStr rp; VStr p])) X.
Hypothesis Fill : forall a, In a INSTANCE_ATTRS -> silent_in H is a -> own_attr X a (Co p) = Some (default_of a).
Lemma d_else a : ~ moved a -> dget a d' = dget a d.
Proof. intros N. apply Ed; intros ->; apply N; [now left|now right]. Qed.
Lemma spared_key a : spared H is a -> In a internal_keys.
Proof. intros (Hb & _). repeat destruct Hb as [<-|Hb]; try destruct Hb; apply str_in_In; reflexivity. Qed.
Lemma twin_own a x x' : ~ In a internal_keys -> twin x x' -> own_attr H' a x = own_attr X a x'.
Proof.
  intros Ha T. assert (Nm : ~ moved a) by (intros M; apply Ha; now apply moved_key). assert (Ns : ~ spared H is a) by (intros M; apply Ha; now apply spared_key). destruct T as [es He Hh|es k j j' He Hh E E'].
  - rewrite (own_co _ F' H' (p_good _ _ _ _ P') (p_post _ _ _ _ P') a Ha). destruct (str_eqb (abs_path es) p) eqn:Q.
    + apply str_eqb_eq in Q. rewrite Q. rewrite (x_own _ _ _ _ R a Nm Ns). symmetry. exact (own_co _ F H (p_good _ _ _ _ P) (p_post _ _ _ _ P) a Ha p).
    + apply str_eqb_neq in Q. rewrite (x_own_else _ _ _ _ R _ a Q). symmetry. exact (own_co _ F H (p_good _ _ _ _ P) (p_post _ _ _ _ P) a Ha _).
  - rewrite (x_spec _ _ _ _ R) by now right. destruct (list_eq_dec (list_eq_dec N.eq_dec) es cs) as [Q|Ne].
    + rewrite Q in E, E'. change (abs_path cs) with p in E, E'. rewrite El in E. destruct (fin_layers layers' H1' F' H' wf' P' cs Hc) as (is' & El' & L' & Sn'); [rewrite Eo'; destruct st; discriminate|]. fold p in El'. rewrite El' in E'. rewrite nth_error_map in E, E'. destruct (nth_error is k) as [j0|] eqn:Ej; [|discriminate]. destruct (nth_error is' k) as [j0'|] eqn:Ej'; [|discriminate]. injection E as ->. injection E' as ->.
      unfold own_attr. rewrite (nth_spec _ is _ L Sn k j Ej), (nth_spec _ is' _ L' Sn' k j' Ej'), Eo, Eo'. clear - Nm Ed. revert k. induction st as [|m s IH]; intros [|k]; cbn [app nth_error]; auto. exact (d_else a Nm).
    + symmetry. exact (paired_own layers layers' H H' Rg Rg' B B' b_worlds es He Hh (b_al es He Hh Ne) (b_new es He Hh Ne) H1 F H1' F' P P' a _ _ Ha (paired_layer H es F F' es k j j' (draws_self H es) E E')).
Qed.
Lemma x_user es a : ~ In a internal_keys -> names es -> in_stage H es -> reads X es a = reads H' es a.
Proof.
  intros Ha He Hh. destruct (twin_mro X is es El Sn L (x_bs _ _ _ _ R) (x_bsp _ _ _ _ R) (x_valid _ _ _ _ R) He Hh) as (l & l' & E' & E & T). unfold reads, getattr. rewrite E, E'. symmetry. apply (lookup_alike twin _ _ (fun x x' => twin_own a x x' Ha) l' l T).
Qed.
Lemma value_else a : ~ moved a -> value d' a = value d a.
Proof. intros N. unfold value. now rewrite (d_else a N). Qed.
Lemma head_same : exists m m' l l', opinions cs layers = m :: l /\ opinions cs layers' = m' :: l' /\ forall a, ~ moved a -> value m' a = value m a.
Proof. rewrite Eo, Eo'. destruct st as [|m s]; cbn [app]; [exists d, d', wk, wk|exists m, m, (s ++ d :: wk), (s ++ d' :: wk)]; repeat split; auto. intros a. apply value_else. Qed.
Lemma silent_same a : ~ moved a -> silent a (opinions cs layers) -> silent a (opinions cs layers').
Proof. intros N Si m Hm. rewrite Eo' in Hm. rewrite Eo in Si. apply in_app_or in Hm as [Hm|[<-|Hm]]; [apply Si; apply in_or_app; now left| |apply Si; apply in_or_app; right; now right]. rewrite (value_else a N). apply Si. apply in_or_app. right. now left. Qed.
Lemma speaks_same a m : ~ moved a -> speaks_first a (opinions cs layers) m -> exists m', speaks_first a (opinions cs layers') m' /\ value m' a = value m a.
Proof.
  intros N (x & y & E & S1 & S2). rewrite Eo in E. rewrite Eo'. clear - N E S1 S2 Ed. revert x E S2. induction st as [|h s IH]; intros [|h' x] E S2; cbn [app] in E |- *; injection E as E1 E2.
  - exists d'. split; [|rewrite (value_else a N); now rewrite E1]. exists [], wk. split; [reflexivity|]. split; [|intros ? []]. rewrite (value_else a N), E1. exact S1.
  - exists m. split; [|reflexivity]. exists (d' :: x), y. split; [now rewrite E2|]. split; [exact S1|]. intros m0 [<-|Hm]; [|apply S2; now right]. rewrite (value_else a N). apply S2. left. now symmetry.
  - exists m. split; [|reflexivity]. exists [], (s ++ d' :: wk). split; [now rewrite E1|]. split; [exact S1|]. intros ? [].
  - destruct (IH x E2) as (m' & (x' & y' & Q1 & Q2 & Q3) & Q4); [intros m0 Hm; apply S2; now right|]. exists m'. split; [|exact Q4]. exists (h :: x'), y'. split; [cbn [app]; now rewrite Q1|]. split; [exact Q2|]. intros m0 [<-|Hm]; [apply S2; now left|now apply Q3].
Qed.
Lemma said_spec a : silent_in H is a -> silent a (opinions cs layers).
Proof.
  intros Si m Hm S. rewrite <- Sn in Hm. unfold spec_nodes in Hm. apply in_flat_map in Hm as (r & Hrr & Hm). apply in_map_iff in Hrr as (j & <- & Hj). specialize (Si j Hj). unfold ref_attr in Si. destruct (nth_error (specs H) j) as [n|]; [|destruct Hm]. destruct Hm as [->|[]]. apply no_opinion_says in Si. contradiction.
Qed.
Lemma x_place a : In a [NAME; PARENT_PATH; SOURCE_LAYER; PROXY] -> reads X cs a = reads H' cs a.
Proof.
  intros Ha. assert (Nm : ~ moved a) by (intros [->| ->]; apply str_in_In in Ha; vm_compute in Ha; discriminate Ha). rewrite (x_keeps _ _ _ _ R).
  - destruct head_same as (m & m' & l & l' & E & E' & V). rewrite (C32_identity layers H wf B cs m l a Hc E Ha), (C32_identity layers' H' wf' B' cs m' l' a Hc E' Ha). now rewrite (V a Nm).
  - repeat destruct Ha as [<-|Ha]; try destruct Ha; apply str_in_In; reflexivity.
  - exact Nm.
  - intros (Hb & _). repeat destruct Hb as [<-|Hb]; try destruct Hb; apply str_in_In in Ha; vm_compute in Ha; discriminate Ha.
Qed.
Lemma tracked_moved a : In a tracked -> ~ moved a.
Proof. intros Ha [->| ->]; apply str_in_In in Ha; vm_compute in Ha; discriminate Ha. Qed.
Lemma x_tracked a : In a tracked -> reads X cs a = reads H' cs a.
Proof.
  intros Ha. pose proof (tracked_moved a Ha) as Nm. destruct (tracked_key a Ha) as (Ka & _). destruct (speak_or_silent a (opinions cs layers)) as [(m & Sm)|Si].
  - rewrite (x_keeps _ _ _ _ R); [|exact Ka|exact Nm|].
    + destruct (speaks_same a m Nm Sm) as (m' & Sm' & V). rewrite (proj1 (C32_strongest layers H wf B cs a m Hc Ha Sm)), (proj1 (C32_strongest layers' H' wf' B' cs a m' Hc Ha Sm')). now rewrite V.
    + intros (_ & Si). apply said_spec in Si. destruct Sm as (x & y & E & S & _). apply (Si m); [rewrite E; apply in_or_app; right; now left|exact S].
  - pose proof (silent_same a Nm Si) as Si'. destruct head_same as (m & m' & l & l' & E & E' & V).
    rewrite (proj1 (C32_silent layers' H' wf' B' cs a m' l' Hc Ha E' Si' (or_intror b_none))). destruct (in_dec (list_eq_dec N.eq_dec) a passed_on) as [Pa|Pa].
    + rewrite (x_reads _ _ _ _ R) by auto. rewrite attr_own, (Fill a Pa (b_said is a Sn Si)). f_equal. rewrite (V a Nm).
      symmetry. assert (Hm : In m (opinions cs layers)) by (rewrite E; now left). destruct (Plain cs m a Hm Pa) as [Q|Q]; [now destruct (Si m Hm)|]. rewrite Q. repeat destruct Pa as [<-|Pa]; try destruct Pa; reflexivity.
    + rewrite (x_keeps _ _ _ _ R); [|exact Ka|exact Nm|intros (Q & _); auto].
      rewrite (proj1 (C32_silent layers H wf B cs a m l Hc Ha E Si (or_introl Pa))). now rewrite (V a Nm).
Qed.
Lemma x_path : reads X cs INSTANCE_PATH = Some VNone /\ reads X cs (source_of INSTANCE_PATH) = Some (VTuple [VStr rp; VStr p]).
Proof.
  destruct (x_first _ _ _ _ R) as (j0 & l & r & M & _). unfold reads, getattr. fold p. rewrite M. cbn [lookup_in].
  assert (E1 : own_attr X INSTANCE_PATH (Co p) = Some VNone) by exact (y_inst _ _ _ _ _ _ _ _ _ R). assert (E2 : own_attr X (source_of INSTANCE_PATH) (Co p) = Some (VTuple [VStr rp; VStr p])) by exact (y_src _ _ _ _ _ _ _ _ _ R). now rewrite E1, E2.
Qed.
Lemma x_all es a : names es -> in_stage H es -> asked a -> reads X es a = reads H' es a.
Proof.
  intros He Hh Ha. destruct (list_eq_dec (list_eq_dec N.eq_dec) es cs) as [->|Ne]; [|rewrite (x_else _ _ _ _ R) by auto; symmetry; now apply b_reads]. destruct Ha as [Ha|Ha]; [|now apply x_user]. apply in_app_or in Ha as [Ha|Ha]; [now apply x_place|now apply x_tracked].
Qed.
Lemma x_inst es ts : names es -> in_stage H es -> instances X es ts <-> instances H' es ts.
Proof.
  intros He Hh. destruct (list_eq_dec (list_eq_dec N.eq_dec) es cs) as [->|Ne].
  - split; intros K; [destruct K as (_ & _ & _ & K); rewrite (proj1 x_path) in K; discriminate|now destruct (b_none ts)].
  - pose proof (s_inst _ _ _ _ (b_same es es He Hh Ne (draws_self H es)) ts) as S1. rewrite <- S1. unfold instances, in_stage. rewrite (x_here _ _ _ _ R), (x_else _ _ _ _ R) by auto. tauto.
Qed.
End After.
End Got.

Lemma b_final top one fuel : exists X ds, set_instance top one fuel H i (VStr rp) VNone = Some (Ok (X, ds)) /\ In p ds /\
  (forall es, names es -> in_stage X es <-> in_stage H' es) /\
  (forall es a, names es -> in_stage H' es -> asked a -> reads X es a = reads H' es a) /\
  (forall es ts, names es -> in_stage H' es -> instances X es ts <-> instances H' es ts) /\
  reads X cs INSTANCE_PATH = Some VNone /\ reads X cs (source_of INSTANCE_PATH) = Some (VTuple [VStr rp; VStr p]) /\
  length (specs X) = length (specs H) /\ (forall j, j <> i -> nth_error (specs X) j = nth_error (specs H) j) /\
  exists n, nth_error (specs X) i = Some n /\ forall a, value n a = value d' a.
Proof.
  destruct b_layers as (is & rest0 & El & Eb & Er & L & Sn & Hi & _ & Ei).
  destruct (b_run is rest0 El Sn L Hi Eb Er Ei top one fuel) as (X & ds & E & Hp & R & Fill). exists X, ds. split; [exact E|]. split; [exact Hp|].
  assert (Hx : forall q, here X q = here H q) by (intros q; exact (x_here is _ _ _ X R q)).
  split; [intros es He; unfold in_stage; rewrite Hx; split; [now apply b_is|now apply b_was]|].
  split; [intros es a He Hh Ha; apply (x_all is rest0 El Sn L Hi Eb X R Fill); auto; now apply b_was|].
  split; [intros es ts He Hh; apply (x_inst is rest0 El Sn L Hi Eb Er X R); auto; now apply b_was|].
  destruct (x_path is El Sn L Hi X R) as (Q1 & Q2). split; [exact Q1|]. split; [exact Q2|]. split; [exact (x_len is _ _ _ X R)|].
  pose proof (y_specs _ _ _ _ _ _ _ _ _ R) as Es. assert (Li : i < length (specs H)) by now apply L.
  split; [intros j Nj; rewrite Es, with_spec_nth by exact Li; apply Nat.eqb_neq in Nj; now rewrite Nj|].
  rewrite Es, with_spec_nth by exact Li. rewrite Nat.eqb_refl. eexists. split; [reflexivity|]. intros a. unfold value. destruct Ed as (_ & V1 & _ & V2 & V3). rewrite !dget_dset.
  destruct (str_eqb _ a) eqn:E1; [apply str_eqb_eq in E1 as <-; unfold value in V2; symmetry; exact V2|]. destruct (str_eqb INSTANCE_PATH a) eqn:E2; [apply str_eqb_eq in E2 as <-; unfold value in V1; symmetry; exact V1|]. apply str_eqb_neq in E1, E2. rewrite V3; auto.
Qed.
End Parts.
End Both.
