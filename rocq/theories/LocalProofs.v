(** What a node reads depends on the nodes it draws from only. *)

From Coq Require Import String List NArith ZArith Bool Arith Lia.
From Verif Require Import PyStr PyStrFacts NxtPath PathSpec PathProofs Dict DictFacts ListMerger SortRows Layer PyVal NodeIO PyClass PyClassSpec PyClassProofs
  Comp CompSpec CompProofs CompProxyProofs CompPostProofs CompLookProofs CompTreeProofs CompOrderProofs CompStageProofs StageView StageViewProofs DirtyStageSpec DirtyStageProofs
  Props_Comp LocalSpec MroRelProofs.
Import ListNotations.

(** *** Nodes drawn from are lower *)
Definition tall (H : heap) (r : ref) : nat := match mro_of H r with Some l => length l | None => 0 end.
Lemma tall_base H r b : sound H -> In b (bs H r) -> tall H b < tall H r.
Proof.
  intros So Hb. destruct r as [i|p]; [destruct Hb|]. destruct So as (V & M). assert (F : here H p = true).
  { unfold bs, bases_in in Hb. unfold here, dmem. destruct (dget p (comps H)); [reflexivity|destruct Hb]. }
  destruct (M _ F) as (l & E). unfold tall. rewrite E. unfold mro_of in *. destruct (mro_laws ref_eqb ref_eqb_eq _ _ _ _ E) as ((t & ->) & _ & _ & _ & Hs).
  destruct (mro ref_eqb (bases_in (comps H)) (S (length (specs H) + length (comps H))) b) as [lb|] eqn:Eb; [|cbn; lia].
  specialize (Hs _ _ _ Hb Eb). destruct (mro_laws ref_eqb ref_eqb_eq _ _ _ _ Eb) as (_ & _ & Hz & _).
  inversion Hs as [|? a b' Hs' Ea|? a b' Hs' Ea]; subst; [cbn; apply sub_length in Hs'; lia|].
  exfalso. apply (mro_acyclic ref_eqb _ _ _ _ _ E Hb). apply Hz. now left.
Qed.
Lemma tall_up H r s : sound H -> up H r s -> tall H s <= tall H r.
Proof. intros So. induction 1 as [c|c b d Hb _ IH]; [lia|]. pose proof (tall_base H c b So Hb). lia. Qed.

Section One.
Variables (layers : list (list layer_row)) (H : heap).
Hypothesis (Rg : regular layers) (B : stage_of layers H).
Let wf := r_fits layers Rg.
Let Gl := r_gapless layers Rg.
Let Pu := r_pure layers Rg.

Lemma one_sound : sound H.
Proof. destruct (stage_parts layers H wf B) as (H1 & F & P). exact (look_sound _ F H (p_good _ _ _ _ P) (p_post _ _ _ _ P)). Qed.
Lemma one_root : in_stage H [] <-> opinions [] layers <> [].
Proof.
  destruct (stage_parts layers H wf B) as (H1 & F & P). split; [|intros Ho; apply (C32_conserved layers H wf B); [constructor|exact Ho]].
  unfold in_stage. rewrite (fin_here layers H1 F H P). apply (fin_root_layer layers H1 F H wf P).
Qed.
Lemma one_parent ps nm ds : names (ps ++ [nm]) -> in_stage H (ps ++ [nm]) -> parent H (ps ++ [nm]) ds <-> ds = ps /\ in_stage H ps.
Proof.
  intros Hn Hh. unfold parent, closest. split.
  - intros (k & K1 & -> & K2 & K3). rewrite app_length in K1. cbn in K1. destruct (Nat.eq_dec k (length ps)) as [->|Hk].
    + rewrite firstn_app, Nat.sub_diag, firstn_all, app_nil_r in *. auto.
    + exfalso. destruct (C43_parent_there layers H wf B Gl ps nm Hn Hh) as [->|Hp]; [cbn in *; lia|].
      apply (K3 (length ps)); [rewrite app_length; cbn; lia|]. now rewrite firstn_app, Nat.sub_diag, firstn_all, app_nil_r.
  - intros (-> & Hp). exists (length ps). rewrite app_length. cbn. split; [lia|]. rewrite firstn_app, Nat.sub_diag, firstn_all, app_nil_r. split; [reflexivity|]. split; [exact Hp|]. intros j Hj. lia.
Qed.
Lemma one_no_parent ds : ~ parent H [] ds.
Proof. intros (k & K & _). cbn in K. lia. Qed.
Lemma one_world rs : in_stage H [] -> ~ instances H [] rs.
Proof.
  destruct (stage_parts layers H wf B) as (H1 & F & P). intros Hh I. apply (view_source layers H1 F H wf P) in I as (I & _); [|exact Hh]. now apply (fin_not_world layers H1 F H P [] _ I).
Qed.
Lemma one_source_tall cs rs : in_stage H cs -> instances H cs rs -> tall H (Co (abs_path rs)) < tall H (Co (abs_path cs)).
Proof.
  destruct (stage_parts layers H wf B) as (H1 & F & P). intros Hh I. apply (view_source layers H1 F H wf P) in I; [|exact Hh]. apply (fin_src layers H1 F H P) in I.
  unfold in_stage in Hh. rewrite (fin_here layers H1 F H P) in Hh. apply tall_base; [apply one_sound|]. now apply (fin_arc layers H1 F H P).
Qed.
Lemma one_parent_tall cs ds : names cs -> in_stage H cs -> parent H cs ds -> tall H (Co (abs_path ds)) < tall H (Co (abs_path cs)).
Proof.
  destruct (stage_parts layers H wf B) as (H1 & F & P). intros Hc Hh K. pose proof (parent_up layers H1 F H P cs ds Hc Hh K) as U.
  inversion U as [c E|c b d Hb U' E1 E2]; subst.
  - exfalso. assert (Q : abs_path ds = abs_path cs) by congruence. destruct (parent_names H cs ds Hc K) as (Hd & _). apply path_inj in Q; auto. subst ds.
    destruct K as (k & K1 & K2 & _). assert (L : length cs = length (firstn k cs)) by congruence. rewrite firstn_length in L. lia.
  - pose proof (tall_base H _ b one_sound Hb). pose proof (tall_up H _ _ one_sound U'). lia.
Qed.
Lemma one_pure cs : names cs -> pure_to layers cs.
Proof.
  intros Hc a b c -> Hb Ho rs Hr Hrn. apply (Pu a b rs); auto. unfold names in *. rewrite app_assoc in Hc. now apply Forall_app in Hc.
Qed.
Lemma one_inst_fun cs rs rs' : instances H cs rs -> instances H cs rs' -> rs = rs'.
Proof. intros (A & _ & _ & E) (A' & _ & _ & E'). rewrite E in E'. injection E' as E'. now apply path_inj. Qed.
Lemma one_not_above cs rs : names cs -> in_stage H cs -> instances H cs rs -> ~ strict_prefix rs cs.
Proof.
  destruct B as (fuel & top & one & Bu). intros Hc Hh I. pose proof I as (Hr & Hrn & _). destruct (stage_parts layers H wf B) as (H1 & F & P).
  apply (view_source layers H1 F H wf P) in I as (I & _); [|exact Hh]. apply (sources_not_above layers fuel top one H wf Gl Pu (r_low _ Rg) Bu); auto.
Qed.
(** A proxy and the source of its parent. *)
Lemma one_proxy ps nm : names (ps ++ [nm]) -> in_stage H (ps ++ [nm]) -> opinions (ps ++ [nm]) layers = [] ->
  exists rs, in_stage H ps /\ parent H (ps ++ [nm]) ps /\ instances H ps rs /\ instances H (ps ++ [nm]) (rs ++ [nm]) /\
    forall a, In a [SOURCE_LAYER; ENABLED; COMPUTE; COMMENT] -> reads H (ps ++ [nm]) a = reads H (rs ++ [nm]) a.
Proof.
  intros Hn Hh Eo. destruct (C43_copy layers H wf B Gl ps nm Hn (one_pure _ Hn) Hh Eo) as (rs & R1 & R2 & R3 & R4 & R5 & R6). exists rs. split; [exact R3|].
  split; [now apply one_parent|]. split; [|auto]. split; [exact R1|]. split; [exact R2|]. split; [|exact R4]. pose proof R5 as (Q1 & _ & Q2 & _).
  destruct (C43_parent_there layers H wf B Gl rs nm Q1 Q2) as [Q|Q]; [contradiction|exact Q].
Qed.
Lemma one_up cs ds : names cs -> in_stage H cs -> names ds -> up H (Co (abs_path cs)) (Co (abs_path ds)) <-> draws H cs ds.
Proof.
  destruct (stage_parts layers H wf B) as (H1 & F & P). intros Hc Hh Hd. destruct (mro_here layers H1 F H P (abs_path cs) Hh) as (l & El & I). rewrite <- I. exact (draws_mro layers H1 F H wf P cs ds l Hc Hh Hd El).
Qed.
End One.

(** *** The bases of a node *)
Inductive rest_of (Par Inst : list pystr -> Prop) (Drw : list pystr -> list pystr -> Prop) : list ref -> Prop :=
| rest_alone : (forall ds, ~ Par ds) -> (forall rs, ~ Inst rs) -> rest_of Par Inst Drw []
| rest_parent ds : Par ds -> (forall rs, ~ Inst rs) -> rest_of Par Inst Drw [Co (abs_path ds)]
| rest_source rs : (forall ds, ~ Par ds) -> Inst rs -> rest_of Par Inst Drw [Co (abs_path rs)]
| rest_both ds rs : Par ds -> Inst rs -> ~ Drw rs ds -> rest_of Par Inst Drw [Co (abs_path ds); Co (abs_path rs)]
| rest_over ds rs : Par ds -> Inst rs -> Drw rs ds -> rest_of Par Inst Drw [Co (abs_path rs)].
Lemma rest_same (Par Inst Par' Inst' : list pystr -> Prop) (Drw Drw' : list pystr -> list pystr -> Prop) l l' :
  (forall d e, Par d -> Par e -> d = e) -> (forall d e, Inst d -> Inst e -> d = e) -> (forall d, Par d <-> Par' d) -> (forall d, Inst d <-> Inst' d) ->
  (forall r d, Inst r -> Drw r d <-> Drw' r d) -> rest_of Par Inst Drw l -> rest_of Par' Inst' Drw' l' -> l = l'.
Proof.
  intros Fp Fi Ep Ei Ed A A'. destruct A' as [N1 N2|ds' K1 N2|rs' N1 K2|ds' rs' K1 K2 N|ds' rs' K1 K2 N];
    repeat match goal with K : Par' _ |- _ => apply Ep in K | K : Inst' _ |- _ => apply Ei in K end;
    destruct A as [M1 M2|ds L1 M2|rs M1 L2|ds rs L1 L2 M|ds rs L1 L2 M];
    try (exfalso; match goal with
      | M : forall d, ~ Par d, K : Par _ |- _ => exact (M _ K) | M : forall d, ~ Inst d, K : Inst _ |- _ => exact (M _ K)
      | M : forall d, ~ Par' d, K : Par _ |- _ => exact (M _ (proj1 (Ep _) K)) | M : forall d, ~ Inst' d, K : Inst _ |- _ => exact (M _ (proj1 (Ei _) K)) end);
    repeat match goal with K : Par ?x, L : Par ?y |- _ => assert_fails (constr_eq x y); pose proof (Fp _ _ K L); subst | K : Inst ?x, L : Inst ?y |- _ => assert_fails (constr_eq x y); pose proof (Fi _ _ K L); subst end;
    try reflexivity; exfalso; match goal with L : Inst ?r, D : Drw' ?r ?d |- _ => apply (Ed r d L) in D; contradiction | L : Inst ?r, D : Drw ?r ?d |- _ => apply (Ed r d L) in D; contradiction end.
Qed.

Section Bases.
Variables (layers : list (list layer_row)) (H H1 F : heap).
Hypothesis (Rg : regular layers) (B : stage_of layers H) (P : parts layers H1 F H).
Lemma apart p q b : here F p = true -> bs H (Co p) = layers_of F p ++ [Co q; Co b] -> ~ up H (Co b) (Co q).
Proof.
  intros Hp Eb. destruct (node_mro _ F H (p_good _ _ _ _ P) (p_post _ _ _ _ P) p [Co q; Co b] Hp Eb) as (ls & m & E1 & E2 & _); [intros r [<-|[<-|[]]]; eauto|].
  destruct ls as [|lq [|lb [|]]]; try discriminate. cbn [map] in E1. injection E1 as Eq Ebb. cbn [app] in E2. destruct (merge_spec ref_eqb ref_eqb_eq _ _ _ E2) as (Hn & _ & Hs).
  destruct (mro_laws ref_eqb ref_eqb_eq _ _ _ _ Ebb) as ((t & ->) & Hnb & Hinb & _). intros U. apply Hinb in U.
  assert (S1 : sub [Co q; Co b] m) by (apply Hs; right; right; now left). assert (S2 : sub (Co b :: t) m) by (apply Hs; right; now left).
  destruct U as [E|U].
  - injection E as ->. apply (sub_nodup _ _ S1) in Hn. inversion Hn as [|? ? N _]; subst. apply N. now left.
  - eapply (sub_two_ways (Co q) (Co b)); [exact Hn|exact S1|now left|exact S2|exact U].
Qed.
Lemma bases_form cs : names cs -> in_stage H cs -> exists rest, bs H (Co (abs_path cs)) = layers_of F (abs_path cs) ++ rest /\ rest_of (parent H cs) (instances H cs) (draws H) rest.
Proof.
  intros Hc Hh. pose proof Hh as Hf. unfold in_stage in Hf. rewrite (fin_here layers H1 F H P) in Hf. pose proof (r_fits layers Rg) as wf.
  destruct (node_bases _ F H (p_good _ _ _ _ P) (p_post _ _ _ _ P) _ Hf) as (rest & Eb & _ & M). exists rest. split; [exact Eb|].
  assert (Par : (exists ds, parent H cs ds /\ par F (abs_path cs) = [Co (abs_path ds)]) \/ ((forall ds, ~ parent H cs ds) /\ par F (abs_path cs) = [])).
  { destruct (par_spec F cs (fin_tree layers H1 F H P) Hc Hf) as [(E & N)|(ds & E & K)].
    - right. split; [|exact E]. intros ds K. apply (N ds). destruct K as (k & K1 & K2 & K3 & K4). exists k. unfold in_stage in *. rewrite (fin_here layers H1 F H P) in K3.
      split; [exact K1|]. split; [exact K2|]. split; [exact K3|]. intros j Hj. rewrite <- (fin_here layers H1 F H P). now apply K4.
    - left. exists ds. split; [|exact E]. destruct K as (k & K1 & K2 & K3 & K4). exists k. unfold in_stage in *. rewrite (fin_here layers H1 F H P).
      split; [exact K1|]. split; [exact K2|]. split; [exact K3|]. intros j Hj. rewrite (fin_here layers H1 F H P). now apply K4. }
  destruct (src F (abs_path cs)) as [b|] eqn:Es.
  - apply (fin_src layers H1 F H P) in Es. destruct (view_src layers H1 F H wf P cs b Hh Es) as (rs & -> & I). pose proof I as (Hr & _ & Hrh & _). destruct M as (_ & M).
    destruct Par as [(ds & K & Ep)|(N & Ep)]; rewrite Ep in M; cbn [app] in M.
    + destruct (parent_names H cs ds Hc K) as (Hd & _). destruct M as [->|(-> & U)].
      * apply rest_both; [exact K|exact I|]. intros D. apply (one_up layers H Rg B rs ds Hr Hrh Hd) in D. exact (apart _ _ _ Hf Eb D).
      * apply rest_over with ds; [exact K|exact I|]. apply (one_up layers H Rg B rs ds Hr Hrh Hd). apply U. now left.
    + destruct M as [->|(-> & _)]; now apply rest_source.
  - assert (Ni : forall rs, ~ instances H cs rs). { intros rs I. apply (view_source layers H1 F H wf P) in I; [|exact Hh]. apply (fin_src layers H1 F H P) in I. congruence. }
    subst rest. destruct Par as [(ds & K & ->)|(N & ->)]; [now apply rest_parent|now apply rest_alone].
Qed.
End Bases.

(** *** Saying the same *)
Section Said.
Lemma F2_length {X Y} (Q : X -> Y -> Prop) l l' : Forall2 Q l l' -> length l = length l'.
Proof. induction 1; cbn; congruence. Qed.
Definition near (n m : data) : Prop := forall a, a <> CHILD_ORDER -> dget a n = dget a m.
Lemma alike_value n m a : near n m -> a <> CHILD_ORDER -> value n a = value m a.
Proof. intros E Ha. unfold value. now rewrite (E a Ha). Qed.
Lemma alike_silent a l l' : Forall2 near l l' -> a <> CHILD_ORDER -> silent a l -> silent a l'.
Proof.
  intros F Ha. induction F as [|x y s s' E _ IH]; intros Si m Hm; [destruct Hm|].
  destruct Hm as [<-|Hm]; [rewrite <- (alike_value x y a E Ha); apply Si; now left|]. apply IH; [|exact Hm]. intros z Hz. apply Si. now right.
Qed.
Lemma alike_speaks a l l' m : Forall2 near l l' -> a <> CHILD_ORDER -> speaks_first a l m -> exists m', speaks_first a l' m' /\ near m m'.
Proof.
  intros F Ha (s & w & -> & Sm & Ss). apply Forall2_app_inv_l in F as (s' & r' & F1 & F2 & ->). inversion F2 as [|? m' ? w' Em Fw]; subst. exists m'. split; [|exact Em].
  exists s', w'. split; [reflexivity|]. split; [now rewrite <- (alike_value m m' a Em Ha)|]. exact (alike_silent a s s' F1 Ha Ss).
Qed.
Lemma alike_nil (l l' : list data) : Forall2 near l l' -> l = [] <-> l' = [].
Proof. destruct 1; split; congruence. Qed.
End Said.
Lemma said_sym layers layers' cs : said_alike layers layers' cs -> said_alike layers' layers cs.
Proof. unfold said_alike. induction 1; constructor; auto. intros a Ha. symmetry. auto. Qed.
Lemma alike_source layers layers' cs rs : said_alike layers layers' cs -> source_in layers cs rs -> source_in layers' cs rs.
Proof.
  intros S (m & Sm & Em). destruct (alike_speaks INSTANCE_PATH _ _ m S) as (m' & Sm' & E); [discriminate|exact Sm|]. exists m'. split; [exact Sm'|].
  now rewrite <- (alike_value m m' INSTANCE_PATH E) by discriminate.
Qed.

(** *** Two stages *)
Section Two.
Variables (layers layers' : list (list layer_row)) (H H' : heap).
Hypotheses (Rg : regular layers) (Rg' : regular layers') (B : stage_of layers H) (B' : stage_of layers' H').
Hypothesis worlds : opinions [] layers = [] <-> opinions [] layers' = [].
Let wf := r_fits layers Rg.
Let Gl := r_gapless layers Rg.
Let Pu := r_pure layers Rg.
Let wf' := r_fits layers' Rg'.
Let Gl' := r_gapless layers' Rg'.
Let Pu' := r_pure layers' Rg'.

Definition plainly : list pystr := [NAME; PARENT_PATH; SOURCE_LAYER; PROXY] ++ tracked.
Lemma plainly_order a : In a plainly -> a <> CHILD_ORDER.
Proof. intros Ha ->. apply str_in_In in Ha. discriminate Ha. Qed.
Lemma source_order a : In a tracked -> source_of a <> CHILD_ORDER.
Proof. intros Ha. repeat destruct Ha as [<-|Ha]; try destruct Ha; apply str_eqb_neq; reflexivity. Qed.

Record same (cs : list pystr) : Prop := {
  s_here : in_stage H' cs;
  s_inst : forall rs, instances H cs rs <-> instances H' cs rs;
  s_par : forall ds, parent H cs ds <-> parent H' cs ds;
  s_reads : forall a, In a plainly -> reads H' cs a = reads H cs a;
  s_source : forall a, opinions cs layers <> [] -> In a tracked -> reads H' cs (source_of a) = reads H cs (source_of a) }.

Section Node.
Variable cs : list pystr.
Hypothesis Hc : names cs.
Hypothesis Hh : in_stage H cs.
Hypothesis al : said_alike layers layers' cs.
Hypothesis no_new : forall rs, names rs -> rs <> [] -> reads H cs INSTANCE_PATH = Some (VStr (abs_path rs)) -> in_stage H' rs -> in_stage H rs.
Hypothesis IHp : forall ds, parent H cs ds -> same ds.
Hypothesis IHs : forall rs, instances H cs rs -> same rs.

Lemma same_par : in_stage H' cs -> forall ds, parent H cs ds <-> parent H' cs ds.
Proof.
  intros Hh' ds. destruct cs as [|nm ps _] using rev_ind; [split; intros K; now apply one_no_parent in K|].
  rewrite (one_parent layers H Rg B ps nm ds Hc Hh), (one_parent layers' H' Rg' B' ps nm ds Hc Hh'). split; intros (-> & Hp); (split; [reflexivity|]).
  - apply IHp. now apply (one_parent layers H Rg B).
  - destruct (C43_parent_there layers H wf B Gl ps nm Hc Hh) as [->|Q]; [|exact Q]. apply (one_root layers H Rg B). intros E. apply worlds in E. now apply (one_root layers' H' Rg' B') in Hp.
Qed.

Section Layer.
Hypothesis Ho : opinions cs layers <> [].
Lemma layer_ho : opinions cs layers' <> [].
Proof. intros E. apply Ho. now apply (alike_nil _ _ al). Qed.
Lemma layer_heads : exists d l d' l', opinions cs layers = d :: l /\ opinions cs layers' = d' :: l' /\ near d d'.
Proof.
  pose proof Ho as Ho1. pose proof layer_ho as Ho'. pose proof al as A. unfold said_alike in A. destruct A as [|d d' l l' E _]; [now destruct Ho1|]. now exists d, l, d', l'.
Qed.
Lemma layer_here : in_stage H' cs.
Proof. apply (C32_conserved layers' H' wf' B' cs Hc layer_ho). Qed.
Lemma layer_inst rs : instances H cs rs <-> instances H' cs rs.
Proof.
  split; intros I; pose proof I as (Hr & Hrn & Hrh & E).
  - split; [exact Hr|]. split; [exact Hrn|]. split; [now apply IHs|]. apply (C34_instance_path layers' H' wf' B'); auto; [now apply one_pure|apply layer_ho|].
    apply (alike_source layers); [exact al|]. apply (C34_instance_path layers H wf B) in E; auto. now apply one_pure.
  - apply (C34_instance_path layers' H' wf' B') in E; auto; [|now apply one_pure|apply layer_ho]. apply (alike_source layers' layers _ _ (said_sym _ _ _ al)) in E.
    apply (C34_instance_path layers H wf B) in E; auto; [|now apply one_pure]. split; [exact Hr|]. split; [exact Hrn|]. split; [now apply no_new|exact E].
Qed.
Lemma layer_reads a : In a tracked -> reads H' cs a = reads H cs a /\ reads H' cs (source_of a) = reads H cs (source_of a).
Proof.
  intros Ha. assert (Hao : a <> CHILD_ORDER) by (apply plainly_order; apply in_or_app; now right). pose proof (source_order a Ha) as Hso.
  destruct (speak_or_silent a (opinions cs layers)) as [(m & Sm)|Si].
  - destruct (alike_speaks a _ _ m al Hao Sm) as (m' & Sm' & E). destruct (C32_strongest layers H wf B cs a m Hc Ha Sm) as (-> & ->). destruct (C32_strongest layers' H' wf' B' cs a m' Hc Ha Sm') as (-> & ->).
    rewrite (alike_value m m' a E Hao), (alike_value m m' SOURCE_LAYER E) by discriminate. auto.
  - pose proof (alike_silent a _ _ al Hao Si) as Si'. destruct layer_heads as (d & l & d' & l' & Eo & Eo' & E).
    assert (Q : (exists rs, instances H cs rs) \/ forall rs, ~ instances H cs rs).
    { destruct (stage_parts layers H wf B) as (H1 & F & P). destruct (src F (abs_path cs)) as [b|] eqn:Es.
      - apply (fin_src layers H1 F H P) in Es. destruct (view_src layers H1 F H wf P cs b Hh Es) as (rs & _ & I). eauto.
      - right. intros rs I. apply (view_source layers H1 F H wf P) in I; [|exact Hh]. apply (fin_src layers H1 F H P) in I. congruence. }
    assert (Qp : In a passed_on \/ ~ In a passed_on) by (destruct (in_dec (list_eq_dec N.eq_dec) a passed_on); auto).
    assert (Si0 : silent a (opinions cs layers)) by exact Si. assert (Si1 : silent a (opinions cs layers')) by exact Si'.
    assert (Plain : ~ In a passed_on \/ (forall rs, ~ instances H cs rs) -> reads H' cs a = reads H cs a /\ reads H' cs (source_of a) = reads H cs (source_of a)).
    { intros N. destruct (C32_silent layers H wf B cs a d l Hc Ha Eo Si0 N) as (-> & ->).
      assert (N' : ~ In a passed_on \/ (forall rs, ~ instances H' cs rs)). { destruct N as [N|N]; [now left|right]. intros rs I. apply (N rs). now apply layer_inst. }
      destruct (C32_silent layers' H' wf' B' cs a d' l' Hc Ha Eo' Si1 N') as (-> & ->). now rewrite (alike_value d d' a E Hao), (alike_value d d' _ E Hso). }
    destruct Q as [(rs & I)|Q]; [|now apply Plain; right]. destruct Qp as [Qp|Qp]; [|now apply Plain; left].
    destruct (C34_passed_on layers H wf B cs rs a Hc Ho Qp Si0 I) as (E1 & lr & E2 & E3). pose proof (proj1 (layer_inst rs) I) as I'.
    destruct (C34_passed_on layers' H' wf' B' cs rs a Hc layer_ho Qp Si1 I') as (F1 & lr' & F2 & F3). rewrite E1, F1, E3, F3.
    assert (Sr : same rs) by auto. assert (Er : reads H' rs SOURCE_LAYER = reads H rs SOURCE_LAYER) by (apply Sr; cbn; tauto). rewrite F2, E2 in Er. injection Er as ->. split; [|reflexivity]. apply Sr. apply in_or_app. now right.
Qed.
Lemma layer_same : same cs.
Proof.
  split; [apply layer_here|apply layer_inst|apply same_par, layer_here| |].
  - intros a Ha. apply in_app_or in Ha as [Ha|Ha]; [|now apply layer_reads]. destruct layer_heads as (d & l & d' & l' & Eo & Eo' & E).
    assert (Hi : In a [NAME; PARENT_PATH; SOURCE_LAYER; PROXY]) by exact Ha.
    rewrite (C32_identity layers H wf B cs d l a Hc Eo Hi), (C32_identity layers' H' wf' B' cs d' l' a Hc Eo' Hi). rewrite (alike_value d d' a E); [reflexivity|]. apply plainly_order. apply in_or_app. now left.
  - intros a _ Ha. now apply layer_reads.
Qed.
End Layer.

Lemma proxy_same : opinions cs layers = [] -> same cs.
Proof.
  intros Eo. assert (Eo' : opinions cs layers' = []) by (now apply (alike_nil _ _ al)). pose proof same_par as SP.
  destruct cs as [|nm ps _] using rev_ind; [now apply (one_root layers H Rg B) in Hh|].
  destruct (one_proxy layers H Rg B ps nm Hc Hh Eo) as (rs & Hp & K & I & I2 & Cp). pose proof (IHp ps K) as Sp. pose proof (IHs _ I2) as Sr. pose proof (proj1 (s_inst _ Sp rs) I) as I'.
  pose proof Hc as Hc'. apply names_snoc in Hc' as (Hps & Hnm). assert (Hx : names [nm]) by (constructor; [exact Hnm|constructor]).
  destruct (C43_mirror layers' H' wf' B' Gl' Pu' ps rs Hps (s_here _ Sp) I' (one_not_above layers' H' Rg' B' ps rs Hps (s_here _ Sp) I') [nm] Hx) as (M1 & M2).
  assert (Hh' : in_stage H' (ps ++ [nm])) by (apply M1; apply Sr). specialize (M2 Hh'). split; [exact Hh'| |exact (SP Hh')| |congruence].
  - intros rs0. split; intros I0.
    + rewrite <- (one_inst_fun H _ _ _ I2 I0). exact M2.
    + rewrite <- (one_inst_fun H' _ _ _ M2 I0). exact I2.
  - intros a Ha. destruct (one_proxy layers' H' Rg' B' ps nm Hc Hh' Eo') as (rs' & _ & _ & Ia & Ib & Cp'). rewrite <- (one_inst_fun H' _ _ _ I' Ia) in Cp'.
    destruct (C43_proxy layers H wf B ps nm Hc Hh Eo) as (P1 & P2 & P3 & P4 & P5 & _). destruct (C43_proxy layers' H' wf' B' ps nm Hc Hh' Eo') as (P1' & P2' & P3' & P4' & P5' & _).
    assert (Q : In a [SOURCE_LAYER; ENABLED; COMPUTE; COMMENT] -> reads H' (ps ++ [nm]) a = reads H (ps ++ [nm]) a). { intros Hq. rewrite (Cp a Hq), (Cp' a Hq). now apply Sr. }
    unfold plainly, tracked in Ha. cbn [In app] in Ha. repeat (destruct Ha as [<-|Ha]; [first [congruence|apply Q; cbn; tauto]|]). destruct Ha.
Qed.
Lemma node_same : same cs.
Proof. destruct (opinions cs layers) as [|d l] eqn:Eo; [now apply proxy_same|]. apply layer_same. now rewrite Eo. Qed.
End Node.

Section All.
Variable top : list pystr.
Hypothesis Ht : names top.
Hypothesis Hth : in_stage H top.
Hypothesis al : forall es, draws H top es -> said_alike layers layers' es.
Hypothesis no_new : forall es rs, draws H top es -> names rs -> rs <> [] -> reads H es INSTANCE_PATH = Some (VStr (abs_path rs)) -> in_stage H' rs -> in_stage H rs.

Lemma draws_trans a b c : draws H a b -> draws H b c -> draws H a c.
Proof. induction 1; intros D; [exact D|eapply draws_parent; eauto|eapply draws_source; eauto]. Qed.
Lemma drawn_there es : draws H top es -> names es /\ in_stage H es.
Proof. intros D. exact (draws_names H top es D Ht Hth). Qed.
Lemma all_same : forall es, draws H top es -> same es.
Proof.
  assert (G : forall k es, tall H (Co (abs_path es)) < k -> draws H top es -> same es).
  { induction k as [|k IH]; intros es Hk D; [lia|]. destruct (drawn_there es D) as (He & Heh).
    assert (Dp : forall ds, parent H es ds -> draws H top ds) by (intros ds K; apply (draws_trans _ _ _ D); apply draws_parent with ds; [exact K|constructor]).
    assert (Ds : forall ds, instances H es ds -> draws H top ds) by (intros ds K; apply (draws_trans _ _ _ D); apply draws_source with ds; [exact K|constructor]).
    apply node_same; auto; [intros rs; now apply no_new| |].
    - intros ds K. apply IH; [|auto]. pose proof (one_parent_tall layers H Rg B es ds He Heh K). lia.
    - intros rs I. apply IH; [|auto]. pose proof (one_source_tall layers H Rg B es rs Heh I). lia. }
  intros es D. apply (G (S (tall H (Co (abs_path es))))); [lia|exact D].
Qed.
Lemma draws_same es fs : draws H top es -> draws H es fs <-> draws H' es fs.
Proof.
  intros D. split; intros E.
  - induction E as [es|es ds fs K _ IH|es rs fs I _ IH]; [constructor| |].
    + apply draws_parent with ds; [now apply (all_same es D)|]. apply IH. apply (draws_trans _ _ _ D). apply draws_parent with ds; [exact K|constructor].
    + apply draws_source with rs; [now apply (all_same es D)|]. apply IH. apply (draws_trans _ _ _ D). apply draws_source with rs; [exact I|constructor].
  - induction E as [es|es ds fs K _ IH|es rs fs I _ IH]; [constructor| |].
    + apply (all_same es D) in K. apply draws_parent with ds; [exact K|]. apply IH. apply (draws_trans _ _ _ D). apply draws_parent with ds; [exact K|constructor].
    + apply (all_same es D) in I. apply draws_source with rs; [exact I|]. apply IH. apply (draws_trans _ _ _ D). apply draws_source with rs; [exact I|constructor].
Qed.
(** The classes of the two stages, side by side. *)
Section Classes.
Variables H1 F H1' F' : heap.
Hypotheses (P : parts layers H1 F H) (P' : parts layers' H1' F' H').
Inductive paired : ref -> ref -> Prop :=
| paired_node es : draws H top es -> paired (Co (abs_path es)) (Co (abs_path es))
| paired_layer es k i i' : draws H top es -> nth_error (layers_of F (abs_path es)) k = Some (Sp i) -> nth_error (layers_of F' (abs_path es)) k = Some (Sp i') -> paired (Sp i) (Sp i').

Lemma nth_once (n : nat) (G : heap) (Gd : good n G) p k k' i : nth_error (layers_of G p) k = Some (Sp i) -> nth_error (layers_of G p) k' = Some (Sp i) -> k = k'.
Proof.
  intros E E'. destruct (flat_bases n G Gd p) as (is & El & Nd & _). assert (Nd' : NoDup (layers_of G p)) by (rewrite El; apply FinFun.Injective_map_NoDup; [intros x y; congruence|exact Nd]).
  apply (proj1 (NoDup_nth_error _) Nd'); [apply nth_error_Some; congruence|congruence].
Qed.
Lemma paired_one x y x' y' : paired x x' -> paired y y' -> (x = y <-> x' = y').
Proof.
  intros A A'. pose proof (proj2 (proj2 (flat_owned _ F (p_good _ _ _ _ P)))) as O. pose proof (proj2 (proj2 (flat_owned _ F' (p_good _ _ _ _ P')))) as O'.
  destruct A as [es D|es k i i' D E E'], A' as [fs D2|fs k2 j j' D2 E2 E2']; try (split; congruence).
  split; intros Q; injection Q as ->.
  - pose proof (O _ _ j (nth_error_In _ _ E) (nth_error_In _ _ E2)) as Q. rewrite Q in *. rewrite (nth_once _ F (p_good _ _ _ _ P) _ _ _ _ E E2) in *. congruence.
  - pose proof (O' _ _ j' (nth_error_In _ _ E') (nth_error_In _ _ E2')) as Q. rewrite Q in *. rewrite (nth_once _ F' (p_good _ _ _ _ P') _ _ _ _ E' E2') in *. congruence.
Qed.
Lemma here_F es : in_stage H es -> here F (abs_path es) = true.
Proof. unfold in_stage. now rewrite (fin_here layers H1 F H P). Qed.
Lemma here_F' es : in_stage H' es -> here F' (abs_path es) = true.
Proof. unfold in_stage. now rewrite (fin_here layers' H1' F' H' P'). Qed.
Lemma spec_nodes_length (T : list data) is : (forall i, In i is -> i < length T) -> length (spec_nodes T (map Sp is)) = length is.
Proof.
  induction is as [|i is IH]; intros L; [reflexivity|]. assert (I1 : length (spec_nodes T (map Sp is)) = length is) by (apply IH; intros j Hj; apply L; now right). cbn [map spec_nodes flat_map].
  match goal with |- context [match ?o with _ => _ end] => destruct o as [d|] eqn:E end; [|apply nth_error_None in E; exfalso; exact (Nat.lt_irrefl _ (Nat.lt_le_trans _ _ _ (L i (or_introl eq_refl)) E))]. cbn [app length]. f_equal. exact I1.
Qed.
(** The layers of a node have the same values, one by one. *)
Lemma layers_pair es : draws H top es -> exists is is', layers_of F (abs_path es) = map Sp is /\ layers_of F' (abs_path es) = map Sp is' /\
  Forall2 (fun i i' => forall a, ~ In a internal_keys -> own_attr H a (Sp i) = own_attr H' a (Sp i')) is is'.
Proof.
  intros D. destruct (drawn_there es D) as (He & Heh). pose proof (all_same es D) as Sm. pose proof (s_here _ Sm) as Heh'. pose proof (al es D) as A.
  assert (Q : opinions es layers = [] \/ opinions es layers <> []) by (destruct (opinions es layers); [now left|right; discriminate]). destruct Q as [Eo|Eo].
  - assert (Eo' : opinions es layers' = []) by (now apply (alike_nil _ _ A)). destruct es as [|nm ps _] using rev_ind; [now apply (one_root layers H Rg B) in Heh|].
    destruct (fin_made layers H1 F H wf P ps nm He (here_F _ Heh) Eo) as (i & cm & en & sl & El & Ei). destruct (fin_made layers' H1' F' H' wf' P' ps nm He (here_F' _ Heh') Eo') as (i' & cm' & en' & sl' & El' & Ei').
    exists [i], [i']. split; [exact El|]. split; [exact El'|]. constructor; [|constructor]. intros a Ha. cbn [own_attr]. rewrite Ei, Ei'.
    destruct (dget a (proxy_spec nm cm en sl (abs_path ps))) eqn:E1; [destruct Ha; apply (proxy_keys nm cm en sl (abs_path ps)); congruence|].
    destruct (dget a (proxy_spec nm cm' en' sl' (abs_path ps))) eqn:E2; [destruct Ha; apply (proxy_keys nm cm' en' sl' (abs_path ps)); congruence|reflexivity].
  - assert (Eo' : opinions es layers' <> []) by (intros Q; apply Eo; now apply (alike_nil _ _ A)).
    destruct (fin_layers layers H1 F H wf P es He Eo) as (is & El & L & Sn). destruct (fin_layers layers' H1' F' H' wf' P' es He Eo') as (is' & El' & L' & Sn').
    exists is, is'. split; [exact El|]. split; [exact El'|]. unfold said_alike in A. rewrite <- Sn, <- Sn' in A. clear - A L L'.
    revert is' L' A. induction is as [|i is IH]; intros [|i' is'] L' A.
    + constructor.
    + exfalso. pose proof (spec_nodes_length (specs H') _ L') as Q. apply F2_length in A. pose proof (eq_trans A Q) as Q2. discriminate Q2.
    + exfalso. pose proof (spec_nodes_length (specs H) _ L) as Q. apply F2_length in A. pose proof (eq_trans (eq_sym A) Q) as Q2. discriminate Q2.
    + cbn [map spec_nodes flat_map] in A.
      match type of A with context [match ?o with Some n => [n] | None => [] end ++ flat_map _ (map Sp is)] => destruct o as [d|] eqn:E end; [|apply nth_error_None in E; exfalso; exact (Nat.lt_irrefl _ (Nat.lt_le_trans _ _ _ (L i (or_introl eq_refl)) E))].
      match type of A with context [match ?o with Some n => [n] | None => [] end ++ flat_map _ (map Sp is')] => destruct o as [d'|] eqn:E' end; [|apply nth_error_None in E'; exfalso; exact (Nat.lt_irrefl _ (Nat.lt_le_trans _ _ _ (L' i' (or_introl eq_refl)) E'))]. cbn [app] in A. inversion A as [|? ? ? ? Q1 Q2]; subst.
      constructor; [|apply IH; [intros j Hj; apply L; now right|intros j Hj; apply L'; now right|exact Q2]].
      intros a Ha. cbn [own_attr]. rewrite E, E'. apply Q1. intros ->. apply Ha. apply str_in_In. reflexivity.
Qed.
Lemma paired_bases x x' : paired x x' -> Forall2 paired (bs H x) (bs H' x').
Proof.
  intros A. destruct A as [es D|es k i i' D E E']; [|constructor]. destruct (drawn_there es D) as (He & Heh). pose proof (all_same es D) as Sm. pose proof (s_here _ Sm) as Heh'.
  destruct (bases_form layers H H1 F Rg B P es He Heh) as (rest & -> & Rs). destruct (bases_form layers' H' H1' F' Rg' B' P' es He Heh') as (rest' & -> & Rs').
  assert (Dd : forall ds, parent H es ds -> draws H top ds) by (intros ds K; apply (draws_trans _ _ _ D); apply draws_parent with ds; [exact K|constructor]).
  assert (Ds : forall ds, instances H es ds -> draws H top ds) by (intros ds K; apply (draws_trans _ _ _ D); apply draws_source with ds; [exact K|constructor]).
  apply Forall2_app.
  - destruct (layers_pair es D) as (is & is' & El & El' & Q). rewrite El, El'.
    assert (G : forall k j j', nth_error is k = Some j -> nth_error is' k = Some j' -> paired (Sp j) (Sp j')).
    { intros k j j' E E'. apply paired_layer with es k; [exact D|rewrite El; exact (map_nth_error Sp k is E)|rewrite El'; exact (map_nth_error Sp k is' E')]. }
    clear - Q G. induction Q as [|i i' is is' _ _ IH]; [constructor|]. constructor; [apply (G 0); reflexivity|]. apply IH. intros k. apply (G (S k)).
  - rewrite <- (rest_same _ _ _ _ _ _ rest rest' (fun d e => closest_unique _ _ d e) (one_inst_fun H es) (s_par _ Sm) (s_inst _ Sm) (fun r d I => draws_same r d (Ds r I)) Rs Rs').
    destruct Rs; repeat constructor; auto.
Qed.
Lemma paired_own a x x' : ~ In a internal_keys -> paired x x' -> own_attr H a x = own_attr H' a x'.
Proof.
  intros Ha A. destruct A as [es D|es k i i' D E E'].
  - rewrite (own_co _ F H (p_good _ _ _ _ P) (p_post _ _ _ _ P) a Ha (abs_path es)). now rewrite (own_co _ F' H' (p_good _ _ _ _ P') (p_post _ _ _ _ P') a Ha (abs_path es)).
  - destruct (layers_pair es D) as (is & is' & El & El' & Q). rewrite El in E. rewrite El' in E'. clear El El'. revert k E E'. induction Q as [|j j' is is' Q _ IH]; intros [|k] E E'; try discriminate.
    + injection E as ->. injection E' as ->. now apply Q.
    + exact (IH k E E').
Qed.
Lemma user_same a : ~ In a internal_keys -> reads H' top a = reads H top a.
Proof.
  intros Ha. destruct (one_sound layers H Rg B) as (V & So). destruct (one_sound layers' H' Rg' B') as (V' & _). destruct (So (abs_path top) Hth) as (l & El).
  unfold reads, getattr. rewrite El. pose proof (mro_short _ _ _ _ El) as Es. change (bases_in (comps H)) with (bs H) in Es.
  pose proof (mro_alike ref_eqb ref_eqb_eq paired paired_one (bs H) (bs H') paired_bases (length l) _ _ (paired_node top (draws_self H top))) as M.
  rewrite Es in M. unfold RO in M. destruct (mro ref_eqb (bs H') (length l) (Co (abs_path top))) as [l'|] eqn:El'; [|destruct M].
  rewrite (mro_enough H' _ _ _ V' El'). symmetry. apply (lookup_alike paired _ _ (fun x x' => paired_own a x x' Ha) l l' M).
Qed.
End Classes.
End All.
End Two.
