(** C32, C33, C34, C43: what a composed stage holds. *)

From Coq Require Import String List NArith ZArith Bool Arith Lia.
From Verif Require Import PyStr PyStrFacts NxtPath PathSpec PathProofs Dict DictFacts ListMerger SortRows Layer PyVal NodeIO NodeIOProofs PyClass Comp CompSpec CompProofs CompStageProofs CompTotalProofs StageView StageViewProofs.
Import ListNotations.

(** The hypothesis of all theorems: nodes as loading makes them fit. *)
Theorem C32_loaded_fits :
  forall data real_path ps nm nd, names (ps ++ [nm]) -> dget (lit "name") data = Some (VStr nm) ->
  (dget (lit "instance") data = None \/ dget (lit "instance") data = Some VNone \/ dget (lit "instance") data = Some (VStr []) \/
   exists rs, names rs /\ dget (lit "instance") data = Some (VStr (abs_path rs))) ->
  create_node data real_path (abs_path ps) false = Ok nd -> fits (ps ++ [nm], nd).
Proof.
  intros data rp ps nm nd Hn En Hi E. destruct (create_reads _ _ _ _ E) as (K & (nm' & En' & Q) & Pp & Ip & _). rewrite En in En'. injection En' as <-.
  exists (ps ++ [nm]). split; [exact Hn|]. split; [destruct ps; reflexivity|]. split; [exact K|]. rewrite rev_app_distr. cbn [rev app]. rewrite rev_involutive. split; [exact Q|]. split; [exact Pp|].
  cbn [snd]. rewrite Ip. unfold load_val. change (as_save_key INSTANCE_PATH) with (lit "instance").
  destruct Hi as [->|[->|[->|(rs & Hr & ->)]]]; [now left|now left|right; left; reflexivity|]. right. right. exists rs. split; [exact Hr|]. reflexivity.
Qed.
Theorem C32_loaded_world_fits :
  forall data real_path nd, dget (lit "instance") data = None \/ dget (lit "instance") data = Some VNone ->
  create_node data real_path [] false = Ok nd -> fits ([[]], nd).
Proof.
  intros data rp nd Hi E. destruct (create_reads _ _ _ _ E) as (K & _ & Pp & Ip & _). exists []. split; [constructor|]. split; [reflexivity|]. split; [exact K|]. cbn [rev]. split; [exact Pp|].
  cbn [snd]. rewrite Ip. unfold load_val. change (as_save_key INSTANCE_PATH) with (lit "instance"). destruct Hi as [->| ->]; reflexivity.
Qed.

Section Stage.
Variables (layers : list (list layer_row)) (H : heap).
Hypothesis wf : well_formed layers.
Hypothesis B : stage_of layers H.

Local Ltac open_stage := destruct (stage_parts layers H wf B) as (H1 & F & P).

(** ** C32: the strongest layer wins *)

(** Every node of every layer is in the stage. *)
Theorem C32_conserved : forall cs, names cs -> opinions cs layers <> [] -> in_stage H cs.
Proof. open_stage. intros cs. exact (view_here layers H1 F H wf P cs). Qed.

(** A tracked attribute has the value of the strongest layer that says
    something about it, and that layer as source. *)
Theorem C32_strongest : forall cs a m, names cs -> In a tracked -> speaks_first a (opinions cs layers) m ->
  reads H cs a = Some (value m a) /\ reads H cs (source_of a) = Some (VTuple [value m SOURCE_LAYER; VStr (abs_path cs)]).
Proof.
  open_stage. intros cs a m Hc Ha Hm. assert (Hh : in_stage H cs). { apply (view_here layers H1 F H wf P); [exact Hc|]. intros E. rewrite E in Hm. destruct Hm as ([|? ?] & ? & E' & _); discriminate. }
  destruct (tracked_key a Ha) as (K1 & K2). rewrite !(view_internal layers H1 F H wf P) by auto. destruct (fin_strongest layers H1 F H wf P cs a m Hc (tracked_tight a Ha) Hm) as (-> & E).
  unfold source_of. now rewrite E.
Qed.

(** When no layer says anything, the strongest layer's empty value and source
    stand, unless the node takes the attribute from what it instances (C34). *)
Theorem C32_silent : forall cs a d rest, names cs -> In a tracked -> opinions cs layers = d :: rest -> silent a (opinions cs layers) ->
  (~ In a passed_on \/ forall rs, ~ instances H cs rs) ->
  reads H cs a = Some (value d a) /\ reads H cs (source_of a) = Some (value d (source_of a)).
Proof.
  open_stage. intros cs a d l Hc Ha Eo Si Hs. assert (Hh : in_stage H cs). { apply (view_here layers H1 F H wf P); [exact Hc|]. rewrite Eo. discriminate. }
  destruct (tracked_key a Ha) as (K1 & K2). rewrite !(view_internal layers H1 F H wf P) by auto.
  destruct (fin_silent layers H1 F H wf P cs a d l Hc (tracked_tight a Ha) Eo Si) as (-> & E).
  - destruct Hs as [Hs|Hs]; [left; exact Hs|right]. intros (b & E). destruct (view_src layers H1 F H wf P cs b Hh E) as (rs & _ & I). now apply (Hs rs).
  - unfold source_of. now rewrite E.
Qed.

(** Name, parent path, layer and proxy flag come from the strongest layer that
    has the node. *)
Theorem C32_identity : forall cs d rest a, names cs -> opinions cs layers = d :: rest -> In a [NAME; PARENT_PATH; SOURCE_LAYER; PROXY] ->
  reads H cs a = Some (value d a).
Proof.
  open_stage. intros cs d l a Hc Eo Ha. assert (Hh : in_stage H cs). { apply (view_here layers H1 F H wf P); [exact Hc|]. rewrite Eo. discriminate. }
  rewrite (view_internal layers H1 F H wf P); [|exact Hh|repeat destruct Ha as [<-|Ha]; try destruct Ha; apply key; reflexivity].
  rewrite (fin_plain layers H1 F H wf P cs a d l Hc Eo); [reflexivity|]. cbn [In] in *. tauto.
Qed.

(** The child order of a node has the names of all layers' child orders, those
    of the strongest layer in its order. *)
Theorem C32_child_order : forall cs d rest, names cs -> cs <> [] -> opinions cs layers = d :: rest ->
  (forall m x, In m (opinions cs layers) -> In x (listed (dget CHILD_ORDER m)) -> In x (listed (reads H cs CHILD_ORDER))) /\
  (plain_child_orders layers -> NoDup (listed (reads H cs CHILD_ORDER)) /\
     filter (fun x => str_in x (listed (dget CHILD_ORDER d))) (listed (reads H cs CHILD_ORDER)) = listed (dget CHILD_ORDER d)).
Proof.
  open_stage. intros cs d l Hc Hn Eo. assert (Hh : in_stage H cs). { apply (view_here layers H1 F H wf P); [exact Hc|]. rewrite Eo. discriminate. }
  rewrite (view_internal layers H1 F H wf P cs CHILD_ORDER Hh) by (apply key; reflexivity). cbn [listed]. change (as_strs (attr H (abs_path cs) CHILD_ORDER)) with (order_of H (abs_path cs)).
  assert (L : forall m : data, listed (dget CHILD_ORDER m) = as_strs (value m CHILD_ORDER)). { intros m. unfold listed, value. now destruct (dget CHILD_ORDER m). }
  destruct (fin_order layers H1 F H wf P cs d l Hc Hn Eo) as (A & C). split.
  - intros m x Hm. rewrite L. now apply A.
  - intros Po. rewrite L. apply C. intros l' r Hl Hr. rewrite <- L. now apply (Po l').
Qed.

(** ** C33: user attributes *)

(** Reading one of nxt's own attributes never depends on parents or sources by
    class inheritance: every node of the stage has its own. *)
Theorem C33_internal : forall cs a, in_stage H cs -> In a internal_keys -> reads H cs a = Some (attr H (abs_path cs) a).
Proof. open_stage. exact (view_internal layers H1 F H wf P). Qed.

Section User.
Variable a : pystr.
Hypothesis Ha : ~ In a internal_keys.
Definition none_in (cs : list pystr) : Prop := forall d, In d (opinions cs layers) -> dget a d = None.

(** The strongest layer that has the attribute gives the value. *)
Theorem C33_strongest_layer : forall cs v, names cs -> has_first a (opinions cs layers) v -> reads H cs a = Some v.
Proof. open_stage. intros cs v Hc Hf. unfold reads. destruct (fin_user_own layers H1 F H wf P a Ha cs v Hc Hf) as (r & ->). reflexivity. Qed.

(** When no layer has it: the parent's when the node instances nothing ... *)
Theorem C33_parent : forall cs ds, names cs -> in_stage H cs -> none_in cs -> (forall rs, ~ instances H cs rs) -> parent H cs ds ->
  reads H cs a = reads H ds a.
Proof.
  open_stage. intros cs ds Hc Hh No Ns K. unfold reads. rewrite (fin_user_parent layers H1 F H wf P a Ha cs ds); auto. now apply (view_no_source layers H1 F H wf P).
Qed.
(** ... the source's when there is no parent ... *)
Theorem C33_source : forall cs rs, names cs -> in_stage H cs -> none_in cs -> instances H cs rs -> (forall ds, ~ parent H cs ds) ->
  reads H cs a = reads H rs a.
Proof.
  open_stage. intros cs rs Hc Hh No I Nk. destruct (view_source layers H1 F H wf P cs rs Hh I) as (A & C & D). unfold reads. now rewrite (fin_user_source layers H1 F H wf P a Ha cs (abs_path rs)).
Qed.
(** ... and nothing when there is neither. *)
Theorem C33_alone : forall cs, names cs -> in_stage H cs -> none_in cs -> (forall rs, ~ instances H cs rs) -> (forall ds, ~ parent H cs ds) ->
  reads H cs a = None.
Proof.
  open_stage. intros cs Hc Hh No Ns Nk. unfold reads. rewrite (fin_user_alone layers H1 F H wf P a Ha cs); auto. now apply (view_no_source layers H1 F H wf P).
Qed.

(** With a parent and a source, the value is one of theirs, and there is one as
    soon as either has one. *)
Theorem C33_either : forall cs ds rs, names cs -> in_stage H cs -> none_in cs -> parent H cs ds -> instances H cs rs ->
  (reads H cs a = reads H ds a \/ reads H cs a = reads H rs a) /\
  (reads H cs a = None <-> reads H ds a = None /\ reads H rs a = None).
Proof.
  open_stage. intros cs ds rs Hc Hh No K I. destruct (view_source layers H1 F H wf P cs rs Hh I) as (A & C & D).
  pose proof (fin_user_either layers H1 F H wf P a Ha cs ds (abs_path rs) Hc Hh No A C D K) as E. pose proof (fin_user_neither layers H1 F H wf P a Ha cs ds (abs_path rs) Hc Hh No A C D K) as N.
  assert (O : forall o : option (ref * pyval), option_map snd o = None <-> o = None) by (intros [x|]; cbn; split; congruence). unfold reads. rewrite !O. split; [|exact N].
  destruct (getattr H (Co (abs_path cs)) a) as [r|] eqn:Eg.
  - destruct (E r eq_refl) as [-> | ->]; auto.
  - destruct (proj1 N eq_refl) as (-> & _). now left.
Qed.
(** What a layer gives to the parent itself comes before anything of the
    source's, unless the source draws from that parent ... *)
Theorem C33_parent_first : forall cs ds rs v, names cs -> in_stage H cs -> none_in cs -> parent H cs ds -> instances H cs rs ->
  ~ draws H rs ds -> has_first a (opinions ds layers) v -> reads H cs a = Some v.
Proof.
  open_stage. intros cs ds rs v Hc Hh No K I Nd Hf. destruct (view_source layers H1 F H wf P cs rs Hh I) as (A & C & D). pose proof I as (Hr & _ & Hrh & _).
  destruct (parent_names H cs ds Hc K) as (Hd & _). unfold reads.
  destruct (fin_user_parent_first layers H1 F H wf P a Ha cs ds (abs_path rs) Hc Hh No A C D K v Hd) as (r & ->); [|exact Hf|reflexivity].
  intros l El Hi. apply Nd. now apply (draws_mro layers H1 F H wf P rs ds l Hr Hrh Hd El).
Qed.
(** ... in which case the value is the source's. *)
Theorem C33_source_first : forall cs ds rs, names cs -> in_stage H cs -> none_in cs -> parent H cs ds -> instances H cs rs ->
  draws H rs ds -> reads H cs a = reads H rs a.
Proof.
  open_stage. intros cs ds rs Hc Hh No K I Hd. destruct (view_source layers H1 F H wf P cs rs Hh I) as (A & C & D). pose proof I as (Hr & _ & Hrh & _).
  destruct (parent_names H cs ds Hc K) as (Hdn & _). unfold reads. rewrite (fin_user_source_first layers H1 F H wf P a Ha cs ds (abs_path rs)); auto.
  destruct (mro_here layers H1 F H P (abs_path rs) Hrh) as (l & El & _). exists l. split; [exact El|]. now apply (draws_mro layers H1 F H wf P rs ds l Hr Hrh Hdn El).
Qed.
End User.

(** ** C34: instances *)

(** The composed instance path of a node that is not below an instance is that
    of the strongest layer that has one. *)
Theorem C34_instance_path : forall cs rs, names cs -> pure_to layers cs -> opinions cs layers <> [] -> names rs -> rs <> [] ->
  reads H cs INSTANCE_PATH = Some (VStr (abs_path rs)) <-> source_in layers cs rs.
Proof.
  open_stage. intros cs rs Hc Pt Ho Hr Hn. pose proof (view_here layers H1 F H wf P cs Hc Ho) as Hh. rewrite (view_internal layers H1 F H wf P cs _ Hh inst_key).
  rewrite <- (fin_clear_source layers H1 F H wf P cs rs Hc (pure_clear layers wf cs Hc Pt) Ho Hr Hn). split; [now intros [= ->]|now intros ->].
Qed.

(** What no layer says about whether an instance is enabled, its comment and its
    code comes from its source; the recorded source names the source's layer and
    the instance's own path. *)
Theorem C34_passed_on : forall cs rs a, names cs -> opinions cs layers <> [] -> In a passed_on -> silent a (opinions cs layers) -> instances H cs rs ->
  reads H cs a = reads H rs a /\
  exists l, reads H rs SOURCE_LAYER = Some l /\ reads H cs (source_of a) = Some (VTuple [l; VStr (abs_path cs)]).
Proof.
  open_stage. intros cs rs a Hc Ho Ha Si I. pose proof (view_here layers H1 F H wf P cs Hc Ho) as Hh. destruct (view_source layers H1 F H wf P cs rs Hh I) as (A & C & D). pose proof I as (_ & _ & Hrh & _).
  destruct (tracked_key a (passed_tracked a Ha)) as (K1 & K2). rewrite !(view_internal layers H1 F H wf P) by (auto; apply key; reflexivity).
  destruct (fin_layer_inherit layers H1 F H wf P cs a (abs_path rs) Hc Ho Ha Si A C D) as (E1 & E2). rewrite E1. split; [reflexivity|]. exists (attr H (abs_path rs) SOURCE_LAYER). split; [reflexivity|].
  unfold source_of. now rewrite E2.
Qed.
(** Start point and execute-in never pass from source to instance. *)
Theorem C34_not_passed_on : forall cs d rest a, names cs -> opinions cs layers = d :: rest -> In a [EXECUTE_IN; START_POINT] -> silent a (opinions cs layers) ->
  reads H cs a = Some (value d a) /\ ~ says (value d a).
Proof.
  intros cs d l a Hc Eo Ha Si. assert (Ht : In a tracked) by (unfold tracked; cbn [In] in *; tauto). destruct (C32_silent cs a d l Hc Ht Eo Si) as (E & _).
  - left. intros Hp. apply str_in_In in Hp. destruct Ha as [<-|[<-|[]]]; discriminate Hp.
  - split; [exact E|]. apply Si. rewrite Eo. now left.
Qed.

(** ** C43: the nodes an instance gets *)

(** A node no layer has is a proxy: it has its name and parent as its place
    says, no start point and no execute-in, it instances a node of the same
    name, and its name is in its parent's child order. *)
Theorem C43_proxy : forall ps nm, names (ps ++ [nm]) -> in_stage H (ps ++ [nm]) -> opinions (ps ++ [nm]) layers = [] ->
  reads H (ps ++ [nm]) PROXY = Some (VBool true) /\ reads H (ps ++ [nm]) NAME = Some (VStr nm) /\
  reads H (ps ++ [nm]) PARENT_PATH = Some (VStr (abs_path ps)) /\
  reads H (ps ++ [nm]) EXECUTE_IN = Some VNone /\ reads H (ps ++ [nm]) START_POINT = Some VNone /\
  (exists ss, names ss /\ ss <> [] /\ reads H (ps ++ [nm]) INSTANCE_PATH = Some (VStr (abs_path (ss ++ [nm])))) /\
  (in_stage H ps -> In nm (listed (reads H ps CHILD_ORDER))).
Proof.
  open_stage. intros ps nm Hn Hh Eo. pose proof (fin_listed layers H1 F H wf P ps nm Hn Hh Eo) as L. destruct (fin_proxy layers H1 F H wf P ps nm Hn Hh Eo) as (A & C & D & E & G & (ss & S1 & S2 & S3) & _).
  rewrite !(view_internal layers H1 F H wf P (ps ++ [nm])) by (exact Hh || (apply key; reflexivity)). rewrite A, C, D, E, G, S3. repeat (split; [reflexivity|]). split; [exists ss; auto|].
  intros Hp. rewrite (view_internal layers H1 F H wf P ps CHILD_ORDER Hp) by (apply key; reflexivity). exact (L Hp).
Qed.

Section Gapless.
Hypothesis gl : gapless layers.

(** Without gaps in the layers there are none in the stage. *)
Theorem C43_parent_there : forall ps nm, names (ps ++ [nm]) -> in_stage H (ps ++ [nm]) -> ps = [] \/ in_stage H ps.
Proof. open_stage. intros ps nm Hn. exact (fin_linked layers H1 F H wf P ps nm gl Hn). Qed.

(** A proxy's parent instances the parent of the proxy's source, and the proxy
    has the layer, code, comment and enabled state of its source. *)
Theorem C43_copy : forall ps nm, names (ps ++ [nm]) -> pure_to layers (ps ++ [nm]) -> in_stage H (ps ++ [nm]) -> opinions (ps ++ [nm]) layers = [] ->
  exists rs, names rs /\ rs <> [] /\ in_stage H ps /\ reads H ps INSTANCE_PATH = Some (VStr (abs_path rs)) /\
    instances H (ps ++ [nm]) (rs ++ [nm]) /\
    forall a, In a [SOURCE_LAYER; ENABLED; COMPUTE; COMMENT] -> reads H (ps ++ [nm]) a = reads H (rs ++ [nm]) a.
Proof.
  open_stage. intros ps nm Hn Pt Hh Eo. destruct (fin_copy layers H1 F H wf P ps nm gl Hn (pure_clear layers wf _ Hn Pt) Hh Eo) as (rs & A1 & A2 & A3 & A4 & A5 & A6 & A7 & A8 & A9 & A10).
  exists rs. split; [exact A1|]. split; [exact A2|]. split; [exact A3|]. split; [rewrite (view_internal layers H1 F H wf P ps _ A3 inst_key); now rewrite A4|]. split.
  - apply (view_inst layers H1 F H wf P); [exact Hh|]. split; [|split; [|split; [exact A5|exact A6]]].
    + unfold names in *. apply Forall_app in Hn as (_ & Hn). apply Forall_app. auto.
    + destruct rs; discriminate.
  - intros a Ha. assert (K : In a internal_keys) by (repeat destruct Ha as [<-|Ha]; try destruct Ha; apply key; reflexivity). rewrite !(view_internal layers H1 F H wf P) by (exact Hh || exact A5 || exact K).
    f_equal. repeat destruct Ha as [<-|Ha]; auto. destruct Ha.
Qed.

Hypothesis pu : pure layers.

(** A node instancing another has exactly the other's descendants below it,
    each instancing its counterpart, unless it is below the other. *)
Theorem C43_mirror : forall ps rs, names ps -> in_stage H ps -> instances H ps rs -> ~ strict_prefix rs ps ->
  forall xs, names xs -> (in_stage H (ps ++ xs) <-> in_stage H (rs ++ xs)) /\
  (in_stage H (ps ++ xs) -> instances H (ps ++ xs) (rs ++ xs)).
Proof.
  open_stage. intros ps rs Hp Hh I Ns xs Hx. apply (view_inst layers H1 F H wf P ps rs Hh) in I as (Hr & Hn & Hrh & E).
  destruct (fin_mirror layers H1 F H wf P ps rs gl pu Hp Hh Hr Hn Hrh E Ns xs Hx) as (M1 & M2). split; [exact M1|]. intros Hq. apply (view_inst layers H1 F H wf P); [exact Hq|].
  split; [unfold names in *; apply Forall_app; auto|]. split; [destruct rs; [now destruct Hn|discriminate]|]. split; [now apply M1|now apply M2].
Qed.
(** A node below a node that instances nothing comes from a layer. *)
Theorem C43_no_source : forall ps nm, names (ps ++ [nm]) -> in_stage H ps -> (forall rs, names rs -> rs <> [] -> reads H ps INSTANCE_PATH <> Some (VStr (abs_path rs))) ->
  in_stage H (ps ++ [nm]) <-> opinions (ps ++ [nm]) layers <> [].
Proof.
  open_stage. intros ps nm Hn Hp Ns. apply (fin_no_source layers H1 F H wf P ps nm Hn pu gl). intros rs Hr Hr' E. apply (Ns rs Hr Hr'). rewrite (view_internal layers H1 F H wf P ps _ Hp inst_key). now rewrite E.
Qed.
End Gapless.
End Stage.

(** Layers that instance nothing always compose, in one pass, to exactly their
    own nodes. *)
Theorem C32_builds : forall layers fuel top_real one_object, well_formed layers ->
  (forall cs rs, names cs -> names rs -> rs <> [] -> ~ source_in layers cs rs) ->
  exists H, build_stage (S fuel) top_real one_object layers = Built H /\
    forall cs, names cs -> in_stage H cs <-> opinions cs layers <> [].
Proof. intros. now apply plain_stage. Qed.

Print Assumptions C32_loaded_fits.
Print Assumptions C32_loaded_world_fits.
Print Assumptions C32_conserved.
Print Assumptions C32_strongest.
Print Assumptions C32_silent.
Print Assumptions C32_identity.
Print Assumptions C32_child_order.
Print Assumptions C32_builds.
Print Assumptions C33_internal.
Print Assumptions C33_strongest_layer.
Print Assumptions C33_parent.
Print Assumptions C33_source.
Print Assumptions C33_alone.
Print Assumptions C33_either.
Print Assumptions C33_parent_first.
Print Assumptions C33_source_first.
Print Assumptions C34_instance_path.
Print Assumptions C34_passed_on.
Print Assumptions C34_not_passed_on.
Print Assumptions C43_proxy.
Print Assumptions C43_parent_there.
Print Assumptions C43_copy.
Print Assumptions C43_mirror.
Print Assumptions C43_no_source.

(** Concrete cases are in Props_CompCases.v. *)
