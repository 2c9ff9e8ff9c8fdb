(** Reading a composed stage, from the lemmas about its parts. *)

From Coq Require Import String List NArith ZArith Bool Arith Lia.
From Verif Require Import PyStr PyStrFacts NxtPath PathSpec PathProofs Dict DictFacts ListMerger SortRows Layer PyVal NodeIO NodeIOProofs PyClass PyClassSpec PyClassProofs Comp CompSpec CompProofs CompProxyProofs CompPostProofs CompLookProofs CompTreeProofs CompOrderProofs CompStageProofs StageView.
Import ListNotations.

Lemma stage_parts layers H : well_formed layers -> stage_of layers H -> exists H1 F, parts layers H1 F H.
Proof. intros wf (fuel & top & one & B). exact (built_parts _ _ _ _ _ wf B). Qed.

Lemma key a : str_in a internal_keys = true -> In a internal_keys. Proof. apply str_in_In. Qed.
Lemma tracked_tight a : In a tracked -> tight a.
Proof. intros E. unfold tight. repeat destruct E as [<-|E]; try destruct E; (split; [apply str_in_In; reflexivity|vm_compute; discriminate]). Qed.
Lemma tracked_key a : In a tracked -> In a internal_keys /\ In (source_of a) internal_keys.
Proof. intros E. repeat destruct E as [<-|E]; try destruct E; (split; apply str_in_In; reflexivity). Qed.
Lemma passed_tracked a : In a passed_on -> In a tracked.
Proof. unfold passed_on, tracked. cbn [In]. tauto. Qed.

Section View.
Variables (layers : list (list layer_row)) (H1 F H : heap).
Hypothesis wf : well_formed layers.
Hypothesis P : parts layers H1 F H.

Lemma view_internal cs a : in_stage H cs -> In a internal_keys -> reads H cs a = Some (attr H (abs_path cs) a).
Proof. intros Hh Ha. unfold reads. destruct (fin_internal layers H1 F H wf P _ a Hh Ha) as (r & ->). reflexivity. Qed.
Lemma view_here cs : names cs -> opinions cs layers <> [] -> in_stage H cs.
Proof. intros Hc Ho. unfold in_stage. rewrite (fin_here layers H1 F H P). now apply (fin_layer layers H1 F H wf P). Qed.
Lemma inst_key : In INSTANCE_PATH internal_keys. Proof. apply key. reflexivity. Qed.
Lemma view_inst cs rs : in_stage H cs -> instances H cs rs <-> names rs /\ rs <> [] /\ in_stage H rs /\ attr H (abs_path cs) INSTANCE_PATH = VStr (abs_path rs).
Proof.
  intros Hh. unfold instances. rewrite (view_internal cs _ Hh inst_key). split.
  - intros (A & B & C & [= D]). auto.
  - intros (A & B & C & ->). auto.
Qed.
Lemma view_src cs b : in_stage H cs -> attr H (abs_path cs) INSTANCE_PATH = VStr b /\ b <> WORLD /\ here H b = true -> exists rs, b = abs_path rs /\ instances H cs rs.
Proof.
  intros Hh (A & B & C). destruct (fin_path layers H1 F H P b C) as (rs & Hr & ->). exists rs. split; [reflexivity|]. apply view_inst; auto. split; [exact Hr|]. split; [|auto].
  intros ->. now apply B.
Qed.
Lemma view_no_source cs : in_stage H cs -> (forall rs, ~ instances H cs rs) -> no_source H (abs_path cs).
Proof. intros Hh N b E. destruct (view_src cs b Hh E) as (rs & _ & I). now apply (N rs). Qed.
Lemma view_source cs rs : in_stage H cs -> instances H cs rs -> attr H (abs_path cs) INSTANCE_PATH = VStr (abs_path rs) /\ abs_path rs <> WORLD /\ here H (abs_path rs) = true.
Proof. intros Hh I. apply view_inst in I as (A & B & C & D); [|exact Hh]. split; [exact D|]. split; [|exact C]. now apply not_world. Qed.

Lemma parent_names cs ds : names cs -> parent H cs ds -> names ds /\ in_stage H ds.
Proof. intros Hc (k & _ & -> & A & _). split; [|exact A]. unfold names in *. apply Forall_forall. intros x Hx. rewrite Forall_forall in Hc. apply Hc. rewrite <- (firstn_skipn k cs). apply in_or_app. now left. Qed.

Lemma view_up_co cs p : names cs -> in_stage H cs -> In (Co p) (bs H (Co (abs_path cs))) -> exists ds, p = abs_path ds /\ (parent H cs ds \/ instances H cs ds).
Proof.
  intros Hc Hh Hi. pose proof Hh as Hf. unfold in_stage in Hf. rewrite (fin_here layers H1 F H P) in Hf.
  destruct (node_bases _ F H (p_good _ _ _ _ P) (p_post _ _ _ _ P) _ Hf) as (rest & Eb & _ & M). rewrite Eb in Hi. apply in_app_or in Hi as [Hi|Hi].
  { destruct (flat_bases _ F (p_good _ _ _ _ P) (abs_path cs)) as (is & El & _). rewrite El in Hi. apply in_map_iff in Hi as (i & [=] & _). }
  assert (Hpar : In (Co p) (par F (abs_path cs)) -> exists ds, p = abs_path ds /\ (parent H cs ds \/ instances H cs ds)).
  { intros Hp. destruct (par_spec F cs (fin_tree layers H1 F H P) Hc Hf) as [(E & _)|(ds & E & (k & K1 & K2 & K3 & K4))]; rewrite E in Hp; [destruct Hp|]. destruct Hp as [[= <-]|[]]. exists ds. split; [reflexivity|].
    left. exists k. unfold in_stage. split; [exact K1|]. split; [exact K2|]. rewrite (fin_here layers H1 F H P). split; [exact K3|]. intros j Hj. rewrite (fin_here layers H1 F H P). auto. }
  destruct (src F (abs_path cs)) as [b|] eqn:Es; [|subst rest; auto]. apply (fin_src layers H1 F H P) in Es.
  destruct M as (_ & [->|(-> & _)]).
  - apply in_app_or in Hi as [Hi|[[= <-]|[]]]; [auto|]. destruct (view_src cs b Hh Es) as (rs & -> & I). eauto.
  - destruct Hi as [[= <-]|[]]. destruct (view_src cs b Hh Es) as (rs & -> & I). eauto.
Qed.

Lemma sp_up i r : up H (Sp i) r -> r = Sp i.
Proof. intros U. inversion U as [|? ? ? Hb]; subst; [reflexivity|]. destruct Hb. Qed.

Lemma up_draws x y : up H x y -> forall cs p, x = Co (abs_path cs) -> y = Co p -> names cs -> in_stage H cs -> exists es, p = abs_path es /\ draws H cs es.
Proof.
  induction 1 as [c|c b d Hb U IH]; intros cs p Ex Ey Hc Hh.
  - subst c. injection Ey as <-. exists cs. split; [reflexivity|constructor].
  - subst c d. destruct b as [i|q]; [apply sp_up in U; discriminate U|]. destruct (view_up_co cs q Hc Hh Hb) as (ds & -> & [K|I]).
    + destruct (parent_names cs ds Hc K) as (Hd & Hdh). destruct (IH ds p eq_refl eq_refl Hd Hdh) as (es & -> & D). exists es. split; [reflexivity|]. now apply draws_parent with ds.
    + pose proof I as (Hr & _ & Hrh & _). destruct (IH ds p eq_refl eq_refl Hr Hrh) as (es & -> & D). exists es. split; [reflexivity|]. now apply draws_source with ds.
Qed.
Lemma parent_up cs ds : names cs -> in_stage H cs -> parent H cs ds -> up H (Co (abs_path cs)) (Co (abs_path ds)).
Proof.
  intros Hc Hh K. pose proof Hh as Hf. unfold in_stage in Hf. rewrite (fin_here layers H1 F H P) in Hf.
  destruct (node_bases _ F H (p_good _ _ _ _ P) (p_post _ _ _ _ P) _ Hf) as (rest & Eb & _ & M). rewrite (kin_par layers H1 F H P cs ds Hc Hf K) in M.
  destruct (src F (abs_path cs)) as [b|].
  - destruct M as (_ & [->|(-> & U)]).
    + apply above_base with (Co (abs_path ds)); [|constructor]. change (In (Co (abs_path ds)) (bs H (Co (abs_path cs)))). rewrite Eb. apply in_or_app. right. now left.
    + apply above_base with (Co b); [|apply U; now left]. change (In (Co b) (bs H (Co (abs_path cs)))). rewrite Eb. apply in_or_app. right. now left.
  - subst rest. apply above_base with (Co (abs_path ds)); [|constructor]. change (In (Co (abs_path ds)) (bs H (Co (abs_path cs)))). rewrite Eb. apply in_or_app. right. now left.
Qed.
Lemma draws_up cs es : draws H cs es -> names cs -> in_stage H cs -> up H (Co (abs_path cs)) (Co (abs_path es)).
Proof.
  induction 1 as [cs|cs ds es K D IH|cs rs es I D IH]; intros Hc Hh.
  - constructor.
  - destruct (parent_names cs ds Hc K) as (Hd & Hdh). eapply up_trans; [exact (parent_up cs ds Hc Hh K)|auto].
  - pose proof I as (Hr & _ & Hrh & _). apply view_source in I; [|exact Hh]. apply (fin_src layers H1 F H P) in I. unfold in_stage in Hh. rewrite (fin_here layers H1 F H P) in Hh.
    eapply up_trans; [eapply above_base; [apply (fin_arc layers H1 F H P _ _ Hh I)|constructor]|auto].
Qed.
Lemma draws_names cs es : draws H cs es -> names cs -> in_stage H cs -> names es /\ in_stage H es.
Proof.
  induction 1 as [cs|cs ds es K D IH|cs rs es I D IH]; intros Hc Hh; [auto| |].
  - destruct (parent_names cs ds Hc K). auto.
  - destruct I as (A & _ & B & _). auto.
Qed.
Lemma draws_mro cs es l : names cs -> in_stage H cs -> names es -> mro_of H (Co (abs_path cs)) = Some l -> In (Co (abs_path es)) l <-> draws H cs es.
Proof.
  intros Hc Hh He El. destruct (mro_here layers H1 F H P (abs_path cs) Hh) as (l' & E & I). rewrite El in E. injection E as <-. rewrite I. split.
  - intros U. destruct (up_draws _ _ U cs _ eq_refl eq_refl Hc Hh) as (es' & Ee & D). destruct (draws_names _ _ D Hc Hh) as (He' & _). apply abs_path_inj in Ee; [now subst|now apply names_comp|now apply names_comp].
  - intros D. now apply draws_up.
Qed.

Lemma pure_clear cs : names cs -> pure_to layers cs -> clear (comp_pre_proxies (sorted_layers layers)) cs.
Proof.
  intros Hc Pt a b c -> Hb Hh. assert (Hab : names (a ++ b)). { unfold names in *. rewrite app_assoc in Hc. now apply Forall_app in Hc. }
  assert (Ha : names a) by (unfold names in *; now apply Forall_app in Hab). intros I. apply (start_instp layers wf a Ha) in I as (rs & Hr & Hn & S).
  apply (Pt a b c eq_refl Hb) with (rs := rs); auto. now apply (start_here layers wf).
Qed.
End View.

(** *** Loaded nodes *)

Lemma key_cases a : In a internal_keys -> In a (map (fun a => a ++ META_SOURCE) TRACKED) \/ In a ALL_INTERNAL.
Proof. unfold internal_keys. rewrite in_app_iff. tauto. Qed.

Lemma create_ok data rp parent nd : create_node data rp parent false = Ok nd ->
  exists nm attrs co, dget (lit "name") data = Some (VStr nm) /\ user_part (src_of rp parent nm) data = Ok attrs /\ load_child_order data = Ok co.
Proof.
  unfold create_node, user_part, src_of. destruct (dget (lit "name") data) as [[| | |nm| | | |]|]; try discriminate. intros E. exists nm.
  destruct (dget K_ATTRS data) as [[| | | | | |us|]|]; try discriminate; cbn [bind] in E.
  - destruct (fold_res (load_user (VTuple [rp; VStr (join_node_paths parent nm)])) us []) as [attrs|]; [|discriminate]. cbn [bind] in E.
    destruct (load_child_order data) as [co|]; [|discriminate]. eauto.
  - destruct (load_child_order data) as [co|]; [|discriminate]. eauto.
Qed.
Lemma create_reads data rp parent nd : create_node data rp parent false = Ok nd ->
  (forall a, In a internal_keys -> dget a nd <> None) /\ (exists nm, dget (lit "name") data = Some (VStr nm) /\ value nd NAME = VStr nm) /\
  value nd PARENT_PATH = VStr parent /\ value nd INSTANCE_PATH = load_val data INSTANCE_PATH /\ NoDup (listed (dget CHILD_ORDER nd)).
Proof.
  intros E. destruct (create_ok _ _ _ _ E) as (nm & attrs & co & En & Eu & Ec). destruct (create_get data rp parent nm attrs co En Eu Ec) as (n' & E' & _ & G). rewrite E in E'. injection E' as <-.
  split; [|split; [exists nm; split; [exact En|]|split; [|split]]].
  - intros a Ha. rewrite G. destruct (str_in a (map (fun a => a ++ META_SOURCE) TRACKED)) eqn:E1; [discriminate|]. apply key_cases in Ha as [Ha|Ha]; [apply str_in_In in Ha; congruence|].
    apply str_in_In in Ha. rewrite Ha. repeat match goal with |- context [if ?b then _ else _] => destruct b end; discriminate.
  - unfold value. rewrite G. vm_compute. reflexivity.
  - unfold value. rewrite G. reflexivity.
  - unfold value. rewrite G. reflexivity.
  - rewrite G. change (str_in CHILD_ORDER (map (fun a => a ++ META_SOURCE) TRACKED)) with false. cbn iota. change (str_eqb PARENT_PATH CHILD_ORDER) with false. change (str_eqb SOURCE_LAYER CHILD_ORDER) with false.
    change (str_eqb CHILD_ORDER CHILD_ORDER) with true. cbn iota. unfold listed, as_strs, VStrs.
    assert (Es : strings (map VStr co) = Some co). { clear. induction co as [|c co IH]; [reflexivity|]. cbn. now rewrite IH. }
    rewrite Es. unfold load_child_order in Ec. destruct (dget (lit "child_order") data) as [[| | | |l| | |]|]; try discriminate; [|injection Ec as <-; constructor].
    destruct (strings l); [|discriminate]. injection Ec as <-. apply dedup_nodup.
Qed.
