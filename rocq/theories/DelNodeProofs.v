(** Proofs about deleting a node from a composed stage. *)

From Coq Require Import String List NArith ZArith Bool Arith Lia Relations Permutation.
From Verif Require Import PyStr PyStrFacts NxtPath PathSpec PathProofs Dict DictFacts ListMerger MergeProofs SortRows Layer PyVal NodeIO NodeIOProofs PyClass PyClassSpec PyClassProofs
  Comp CompSpec CompProofs CompProxyProofs CompPostProofs CompLookProofs CompTreeProofs CompOrderProofs CompStageProofs StageView StageViewProofs DirtyStageSpec DirtyStageProofs
  Props_Comp LocalSpec MroRelProofs LocalProofs Props_Local Props_Dirty Live Arcs ArcsProofs AddNode AddNodeSpec AddNodeProofs DelNode.
Import ListNotations.

(** *** A stage without one of its nodes *)
Record shrunk (H X : heap) (p : pystr) : Prop := {
  s_here : forall q, here X q = here H q && negb (str_eqb q p);
  s_bs : forall q, q <> p -> bs X (Co q) = bs H (Co q);
  s_own : forall q a, q <> p -> a <> CHILD_ORDER -> own_attr X a (Co q) = own_attr H a (Co q);
  s_sp : forall i a, a <> CHILD_ORDER -> own_attr X a (Sp i) = own_attr H a (Sp i);
  s_specs : length (specs X) = length (specs H) }.

Lemma name_out_spec H home nm : comps (name_out_of_layer H home nm) = comps H /\ dirty (name_out_of_layer H home nm) = dirty H /\ length (specs (name_out_of_layer H home nm)) = length (specs H) /\
  (forall i a, a <> CHILD_ORDER -> own_attr (name_out_of_layer H home nm) a (Sp i) = own_attr H a (Sp i)) /\
  forall i, own_attr (name_out_of_layer H home nm) CHILD_ORDER (Sp i) = own_attr H CHILD_ORDER (Sp i) \/
    exists l, In nm l /\ l = listed (own_attr H CHILD_ORDER (Sp i)) /\ own_attr (name_out_of_layer H home nm) CHILD_ORDER (Sp i) = Some (VStrs (try_remove nm l)).
Proof.
  unfold name_out_of_layer. destruct home as [j|]; [|repeat split; auto]. destruct (nth_error (specs H) j) as [n|] eqn:E; [|repeat split; auto]. cbv zeta. destruct (str_in nm _) eqn:Es; [|repeat split; auto].
  assert (L : j < length (specs H)) by (apply nth_error_Some; congruence). split; [reflexivity|]. split; [reflexivity|]. split; [now apply with_spec_length|]. split.
  - intros i a Ha. unfold own_attr. rewrite with_spec_nth by exact L.
    destruct (Nat.eqb i j) eqn:Ei; [|reflexivity]. apply Nat.eqb_eq in Ei as ->. rewrite E. rewrite dget_dset. destruct (str_eqb CHILD_ORDER a) eqn:Ea; [apply str_eqb_eq in Ea; congruence|reflexivity].
  - intros i. unfold own_attr. rewrite with_spec_nth by exact L. destruct (Nat.eqb i j) eqn:Ei; [|now left]. apply Nat.eqb_eq in Ei as ->. right. rewrite E. apply str_in_In in Es. eexists. split; [exact Es|]. split.
    + unfold attr_or_none, listed. now destruct (dget CHILD_ORDER n).
    + now rewrite dget_dset_same.
Qed.
Lemma try_remove_in nm l x : NoDup l -> In x (try_remove nm l) <-> x <> nm /\ In x l.
Proof.
  intros Nd. unfold try_remove. destruct (py_remove nm l) as [l'|] eqn:E.
  - assert (I : In nm l). { clear Nd. revert l' E. induction l as [|y l IH]; intros l' E; cbn in E; [discriminate|]. destruct (str_eqb y nm) eqn:Ey; [apply str_eqb_eq in Ey; now left|]. destruct (py_remove nm l); [|discriminate]. right. eauto. }
    destruct (py_remove_perm nm l I) as (l2 & E2 & Pm). rewrite E in E2. injection E2 as <-. pose proof (Permutation_NoDup Pm Nd) as N2. inversion N2 as [|? ? Na _]; subst. split.
    + intros Hx. split; [congruence|]. eapply Permutation_in; [symmetry; exact Pm|now right].
    + intros (Ne & Hx). apply (Permutation_in _ Pm) in Hx as [Q|Hx]; [congruence|exact Hx].
  - assert (I : ~ In nm l). { intros I. destruct (py_remove_perm nm l I) as (l2 & E2 & _). congruence. }
    split; [|tauto]. intros Hx. split; [congruence|exact Hx].
Qed.

Section Gone.
Variables (H : heap) (home : option nat) (ps : list pystr) (nm : pystr).
Let p := abs_path (ps ++ [nm]).
Let K := name_out_of_layer H home nm.
Hypothesis Hn : names (ps ++ [nm]).
Hypothesis Nd : NoDup (dkeys (comps H)).
Hypothesis Enm : attr H p NAME = VStr nm.
Hypothesis Epp : attr H p PARENT_PATH = VStr (abs_path ps).

Lemma K_attr q a : a <> CHILD_ORDER -> attr K q a = attr H q a.
Proof.
  intros Ha. destruct (name_out_spec H home nm) as (C & _ & _ & O & _). fold K in C, O. rewrite !attr_own.
  assert (E1 : own_attr K a (Co q) = own_attr H a (Co q)) by (unfold own_attr; now rewrite C). assert (E2 : bs K (Co q) = bs H (Co q)) by (unfold bs; now rewrite C). rewrite E1, E2.
  destruct (own_attr H a (Co q)); [reflexivity|]. destruct (bs H (Co q)) as [|[i|r] l]; try reflexivity. now rewrite O.
Qed.
Lemma K_here q : here K q = here H q. Proof. unfold here, dmem, K. now rewrite (proj1 (name_out_spec H home nm)). Qed.
Definition cut := with_comps K (ddel p (comps K)).
Lemma cut_dget q : dget q (comps cut) = if str_eqb q p then None else dget q (comps H).
Proof. unfold cut. cbn [comps with_comps]. unfold K. rewrite (proj1 (name_out_spec H home nm)). rewrite dget_ddel by exact Nd. now rewrite str_eqb_sym. Qed.
Lemma cut_shrunk : shrunk H cut p.
Proof.
  destruct (name_out_spec H home nm) as (C & D & L & O & _). fold K in C, D, L, O. constructor.
  - intros q. unfold here, dmem. rewrite cut_dget. destruct (str_eqb q p); [now rewrite andb_false_r|now rewrite andb_true_r].
  - intros q Hq. unfold bs, bases_in. rewrite cut_dget. destruct (str_eqb q p) eqn:E; [apply str_eqb_eq in E; contradiction|reflexivity].
  - intros q a Hq Ha. unfold own_attr. rewrite cut_dget. destruct (str_eqb q p) eqn:E; [apply str_eqb_eq in E; contradiction|reflexivity].
  - exact O.
  - exact L.
Qed.
Lemma set_order_shrunk X q o : shrunk H X p -> shrunk H (set_order X q o) p.
Proof.
  intros [A B C D E]. constructor; auto.
  - intros x. unfold set_order. rewrite here_set_attr. apply A.
  - intros x Hx. unfold set_order, set_attr. rewrite bs_with. rewrite <- (B x Hx). unfold bs, bases_in. destruct (str_eqb x q); [|reflexivity]. now destruct (dget x (comps X)).
  - intros x a Hx Ha. unfold set_order, set_attr. rewrite own_change. rewrite <- (C x a Hx Ha). unfold own_attr. destruct (str_eqb x q); [|reflexivity]. destruct (dget x (comps X)) as [c|]; [|reflexivity]. cbn [own].
    rewrite dget_dset. destruct (str_eqb CHILD_ORDER a) eqn:Ea; [apply str_eqb_eq in Ea; congruence|reflexivity].
Qed.
Definition X := remove_comp K p true.
Lemma K_name : name_of K p = nm /\ parent_of K p = abs_path ps.
Proof. unfold name_of, parent_of. rewrite !K_attr by discriminate. now rewrite Enm, Epp. Qed.
Lemma X_form : X = if here cut (abs_path ps) && str_in nm (order_of cut (abs_path ps)) then set_order cut (abs_path ps) (try_remove nm (order_of cut (abs_path ps))) else cut.
Proof. unfold X, remove_comp. destruct K_name as (-> & ->). cbv zeta. cbn [andb]. reflexivity. Qed.
Lemma X_shrunk : shrunk H X p.
Proof. rewrite X_form. destruct (_ && _); [apply set_order_shrunk|]; exact cut_shrunk. Qed.
(** The order of the parent's children. *)
Lemma up_neq : abs_path ps <> p. Proof. unfold p. intros E. apply path_inj in E; [|now apply Forall_app in Hn as (Hp & _)|exact Hn]. revert E. apply up_not_new'. Qed.
Lemma cut_order : order_of cut (abs_path ps) = order_of H (abs_path ps) \/ order_of cut (abs_path ps) = try_remove nm (order_of H (abs_path ps)).
Proof.
  destruct (name_out_spec H home nm) as (_ & _ & _ & _ & O). fold K in O. unfold order_of. rewrite !attr_own. rewrite (s_bs _ _ _ cut_shrunk _ up_neq).
  assert (E1 : own_attr cut CHILD_ORDER (Co (abs_path ps)) = own_attr H CHILD_ORDER (Co (abs_path ps))). { unfold own_attr. rewrite cut_dget. destruct (str_eqb (abs_path ps) p) eqn:E; [apply str_eqb_eq in E; now apply up_neq in E|reflexivity]. }
  rewrite E1. destruct (own_attr H CHILD_ORDER (Co (abs_path ps))); [now left|]. destruct (bs H (Co (abs_path ps))) as [|[i|r] l]; try now left.
  change (own_attr cut CHILD_ORDER (Sp i)) with (own_attr K CHILD_ORDER (Sp i)). destruct (O i) as [-> |(l0 & _ & -> & ->)]; [now left|right]. rewrite as_strs_VStrs. f_equal. unfold listed. now destruct (own_attr H CHILD_ORDER (Sp i)).
Qed.
Lemma X_order x : here H (abs_path ps) = true -> NoDup (order_of H (abs_path ps)) -> In x (order_of X (abs_path ps)) <-> x <> nm /\ In x (order_of H (abs_path ps)).
Proof.
  intros Hp No. assert (Hc : here cut (abs_path ps) = true). { rewrite (s_here _ _ _ cut_shrunk), Hp. cbn [andb]. apply negb_true_iff, str_eqb_neq, up_neq. }
  assert (Z : In x (try_remove nm (order_of cut (abs_path ps))) <-> x <> nm /\ In x (order_of H (abs_path ps))).
  { destruct cut_order as [-> | ->]; [now apply try_remove_in|]. rewrite <- (try_remove_in nm (order_of H (abs_path ps)) x No). unfold try_remove at 1. destruct (py_remove nm (try_remove nm (order_of H (abs_path ps)))) eqn:E; [|reflexivity].
    exfalso. assert (I : In nm (try_remove nm (order_of H (abs_path ps)))).
    { revert E. generalize (try_remove nm (order_of H (abs_path ps))). intros m. revert l. induction m as [|y m IH]; intros l E; cbn in E; [discriminate|]. destruct (str_eqb y nm) eqn:Ey; [apply str_eqb_eq in Ey; now left|]. destruct (py_remove nm m); [|discriminate]. right. eauto. }
    apply (try_remove_in _ _ _ No) in I. now apply (proj1 I). }
  rewrite <- Z. rewrite X_form, Hc. cbn [andb]. destruct (str_in nm (order_of cut (abs_path ps))) eqn:Es.
  - unfold order_of at 1. rewrite attr_own. unfold set_order, set_attr. rewrite own_change, str_eqb_refl. unfold here, dmem in Hc. destruct (dget (abs_path ps) (comps cut)); [|discriminate]. cbn [own]. rewrite dget_dset_same. rewrite as_strs_VStrs. reflexivity.
  - unfold try_remove. destruct (py_remove nm (order_of cut (abs_path ps))) as [l|] eqn:E; [|reflexivity]. exfalso. assert (I : In nm (order_of cut (abs_path ps))); [|apply str_in_In in I; congruence].
    revert E. generalize (order_of cut (abs_path ps)). intros m. revert l. induction m as [|y m IH]; intros l E; cbn in E; [discriminate|]. destruct (str_eqb y nm) eqn:Ey; [apply str_eqb_eq in Ey; now left|]. destruct (py_remove nm m); [|discriminate]. right. eauto.
Qed.

(** Method resolution orders. *)
Hypothesis So : sound H.
Hypothesis free : forall q, here H q = true -> q <> p -> ~ In (Co p) (bs H (Co q)).
Definition stays (x y : ref) : Prop := x = y /\ match x with Sp _ => True | Co q => here H q = true /\ q <> p end.
Lemma stays_one x y x' y' : stays x x' -> stays y y' -> (x = y <-> x' = y').
Proof. intros (-> & _) (-> & _). tauto. Qed.
Lemma stays_bases x x' : stays x x' -> Forall2 stays (bs H x) (bs X x').
Proof.
  intros (<- & Q). destruct x as [i|q]; [constructor|]. destruct Q as (Hq & Nq). rewrite (s_bs _ _ _ X_shrunk q Nq). assert (V : forall r, In r (bs H (Co q)) -> stays r r).
  { intros r Hr. split; [reflexivity|]. pose proof (proj1 (valid_bs H) (proj1 So) q r Hq Hr) as V. destruct r as [i|r]; [exact I|]. split; [exact V|]. intros ->. exact (free q Hq Nq Hr). }
  induction (bs H (Co q)) as [|r l IH]; constructor; [apply V; now left|]. apply IH. intros r' Hr'. apply V. now right.
Qed.
Lemma X_valid : valid X.
Proof.
  apply valid_bs. intros q r Hq Hr. rewrite (s_here _ _ _ X_shrunk) in Hq. apply andb_prop in Hq as (Hq & Nq). apply negb_true_iff, str_eqb_neq in Nq. rewrite (s_bs _ _ _ X_shrunk q Nq) in Hr.
  pose proof (proj1 (valid_bs H) (proj1 So) q r Hq Hr) as V. destruct r as [i|r]; [now rewrite (s_specs _ _ _ X_shrunk)|]. rewrite (s_here _ _ _ X_shrunk), V. apply negb_true_iff, str_eqb_neq. intros ->. exact (free q Hq Nq Hr).
Qed.
Lemma stays_eq l l' : Forall2 stays l l' -> l = l'.
Proof. induction 1 as [|x y l l' (-> & _) _ ->]; reflexivity. Qed.
Lemma X_mro q l : here H q = true -> q <> p -> mro_of H (Co q) = Some l -> mro_of X (Co q) = Some l /\ Forall2 stays l l.
Proof.
  intros Hq Nq El. unfold mro_of in El. pose proof (mro_alike ref_eqb ref_eqb_eq stays stays_one (bases_in (comps H)) (bases_in (comps X)) stays_bases (S (length (specs H) + length (comps H))) (Co q) (Co q) (conj eq_refl (conj Hq Nq))) as M. rewrite El in M.
  destruct (mro ref_eqb (bases_in (comps X)) _ (Co q)) as [l'|] eqn:E'; [|contradiction]. cbn [RO] in M. pose proof (stays_eq _ _ M). subst l'. split; [|exact M]. exact (mro_enough X _ _ _ X_valid E').
Qed.
Lemma X_reads cs a : names cs -> in_stage H cs -> cs <> ps ++ [nm] -> a <> CHILD_ORDER -> reads X cs a = reads H cs a.
Proof.
  intros Hc Hh Ne Ha. assert (Nq : abs_path cs <> p) by (intros Q; apply path_inj in Q; auto). destruct So as (_ & M). destruct (M _ Hh) as (l & El). destruct (X_mro _ l Hh Nq El) as (El' & R). unfold reads, getattr. rewrite El, El'. symmetry.
  apply (lookup_alike stays); [|exact R]. intros x x' (<- & Q). destruct x as [i|q]; [now rewrite (s_sp _ _ _ X_shrunk)|]. now rewrite (s_own _ _ _ X_shrunk).
Qed.
Lemma X_in cs : names cs -> in_stage X cs <-> in_stage H cs /\ cs <> ps ++ [nm].
Proof.
  intros Hc. unfold in_stage. rewrite (s_here _ _ _ X_shrunk), andb_true_iff, negb_true_iff, str_eqb_neq. unfold p. split; intros (A & C); (split; [exact A|]); [congruence|]. intros Q. apply path_inj in Q; auto.
Qed.

(** The run. *)
Hypothesis there : here H p = true.
Hypothesis quiet : dirties H p = [].
Variable real : pystr.
Hypothesis alone : other_specs H real (bs H (Co p)) = [].
Hypothesis free_parent : inst_of H (abs_path ps) = None \/ inst_of H (abs_path ps) = Some [].
Hypothesis no_inst : inst_of H p = None \/ inst_of H p = Some [].
Lemma K_others l : other_specs K real l = other_specs H real l.
Proof.
  destruct (name_out_spec H home nm) as (_ & _ & _ & O & _). fold K in O. induction l as [|[i|q] l IH]; try reflexivity. cbn [other_specs]. rewrite IH.
  assert (E : ref_attr K (Sp i) SOURCE_LAYER = ref_attr H (Sp i) SOURCE_LAYER); [|now rewrite E].
  specialize (O i SOURCE_LAYER ltac:(discriminate)). unfold own_attr in O. unfold ref_attr, attr_or_none. destruct (nth_error (specs K) i), (nth_error (specs H) i); rewrite ?O; auto; now rewrite <- O.
Qed.
Lemma gone_run top one fuel L : delete_node top one fuel H home real L p = Some (Ok (X, [])).
Proof.
  unfold delete_node, name_of. rewrite Enm. fold K. unfold delete_comp. rewrite K_here, there. cbn [negb]. cbv zeta.
  assert (D : dirties K p = []) by (unfold dirties, K in *; rewrite (proj1 (proj2 (name_out_spec H home nm))); exact quiet). rewrite D.
  assert (Eb : bases_in (comps K) (Co p) = bs H (Co p)) by (unfold bs, K; now rewrite (proj1 (name_out_spec H home nm))). rewrite Eb, K_others, alone.
  assert (Par : get_parent_path p = abs_path ps) by (apply get_parent_path_abs, names_comp; exact Hn). rewrite Par.
  assert (Nk : has_kid_named K (inst_of K (abs_path ps)) (name_of K p) = false). { unfold inst_of. rewrite K_attr by discriminate. fold (inst_of H (abs_path ps)). destruct free_parent as [-> | ->]; reflexivity. }
  rewrite Nk, andb_false_r. unfold ripple_delete. cbv zeta.
  assert (Ei : match inst_of K p with Some s => s | None => [] end = []). { unfold inst_of. rewrite K_attr by discriminate. fold (inst_of H p). destruct no_inst as [-> | ->]; reflexivity. }
  rewrite Ei. cbn [is_empty]. fold X.
  assert (Hx : here X p = false) by (rewrite (s_here _ _ _ X_shrunk), str_eqb_refl; apply andb_false_r). now rewrite Hx.
Qed.
End Gone.

(** *** The layers without the node *)
Lemma nil_or (l : list pystr) : l = [] \/ l <> []. Proof. destruct l; [now left|right; discriminate]. Qed.
Section Less.
Variables (layers layers' : list (list layer_row)) (H H' : heap) (data : dict pyval) (rp : pyval) (ps : list pystr) (nm : pystr) (sp : node).
Let new := ps ++ [nm].
Let p := abs_path new.
Hypotheses (Rg : regular layers) (Rg' : regular layers') (B : stage_of layers H) (B' : stage_of layers' H').
Hypothesis Hn : names new.
Hypothesis no_inst : value sp INSTANCE_PATH = VNone \/ value sp INSTANCE_PATH = VStr [].
Hypothesis M : one_more new sp layers layers'.
Hypothesis unseen : forall es, ~ points H' es new.
Let wf := r_fits layers Rg.
Let wf' := r_fits layers' Rg'.

Lemma less_ps : names ps. Proof. now apply Forall_app in Hn as (Hp & _). Qed.
Lemma less_none : ~ in_stage H new.
Proof.
  intros Hh. destruct (one_proxy layers H Rg B ps nm Hn Hh (proj2 (more_new layers layers' ps nm sp M))) as (rs & Hp & _ & I & _). pose proof I as (Hr & Hrn & _ & Er). destruct (parent_said layers layers' ps nm sp Hn M Rg') as [Eps|Ho].
  - apply (one_world layers H Rg B rs); [rewrite <- Eps; exact Hp|rewrite <- Eps; exact I].
  - apply (C34_instance_path layers H wf B ps rs less_ps (one_pure layers Rg ps less_ps) Ho Hr Hrn) in Er. apply (alike_source layers layers' ps rs (more_elsewhere layers layers' ps nm sp Hn M ps less_ps (up_not_new' ps nm))) in Er.
    apply (r_pure layers' Rg' ps [nm] rs Hn) in Er; auto; [discriminate|]. change (opinions new layers' <> []). unfold new. rewrite (proj1 (more_new layers layers' ps nm sp M)). discriminate.
Qed.
(** What is left was there before, instancing the same. *)
Lemma before : forall k cs, tall H (Co (abs_path cs)) < k -> names cs -> in_stage H cs ->
  in_stage H' cs /\ forall rs, names rs -> rs <> [] -> reads H cs INSTANCE_PATH = Some (VStr (abs_path rs)) -> reads H' cs INSTANCE_PATH = Some (VStr (abs_path rs)).
Proof.
  induction k as [|k IH]; intros cs Hk Hc Hh; [lia|]. assert (Ne : cs <> new) by (intros ->; now apply less_none). pose proof (more_elsewhere layers layers' ps nm sp Hn M cs Hc Ne) as Al. destruct (opinions cs layers) as [|d l] eqn:Eo.
  - destruct (removelast_snoc' cs) as [->|(qs & nm' & ->)]; [exfalso; now apply (proj1 (one_root layers H Rg B)) in Hh|].
    destruct (one_proxy layers H Rg B qs nm' Hc Hh Eo) as (rs & Hq & K & I & I' & _). pose proof (parent_names H _ _ Hc K) as (Hqn & _).
    assert (T1 : tall H (Co (abs_path qs)) < k) by (pose proof (one_parent_tall layers H Rg B _ _ Hc Hh K); lia). pose proof (one_source_tall layers H Rg B _ _ Hq I) as T2. pose proof (one_source_tall layers H Rg B _ _ Hh I') as T3.
    pose proof I as (Hr & Hrn & Hrh & Er). pose proof I' as (Hr' & _ & Hrh' & Er').
    destruct (IH qs T1 Hqn Hq) as (Q1 & Q2). specialize (Q2 rs Hr Hrn Er). destruct (IH rs ltac:(lia) Hr Hrh) as (R1 & _).
    assert (I0 : instances H' qs rs) by (repeat split; auto). destruct (IH (rs ++ [nm']) ltac:(lia) Hr' Hrh') as (S1 & _).
    assert (Hx : names [nm']) by (unfold names in *; apply Forall_app in Hc as (_ & Hc'); exact Hc').
    destruct (C43_mirror layers' H' wf' B' (r_gapless _ Rg') (r_pure _ Rg') qs rs Hqn Q1 I0 (one_not_above layers' H' Rg' B' qs rs Hqn Q1 I0) [nm'] Hx) as (M1 & M2). apply M1 in S1. split; [exact S1|].
    intros ts Ht Htn Et. rewrite Er' in Et. injection Et as Et. rewrite <- Et. apply M2, S1.
  - assert (Ho : opinions cs layers <> []) by (rewrite Eo; discriminate). assert (Ho' : opinions cs layers' <> []) by (intros Q; apply Ho; now apply (more_said layers layers' ps nm sp Hn M)). split; [now apply (C32_conserved layers' H' wf' B')|]. intros rs Hr Hrn E.
    apply (C34_instance_path layers H wf B cs rs Hc (one_pure layers Rg cs Hc) Ho Hr Hrn) in E. apply (C34_instance_path layers' H' wf' B' cs rs Hc (one_pure layers' Rg' cs Hc) Ho' Hr Hrn).
    now apply (alike_source layers layers' cs rs Al).
Qed.
Lemma less_points es rs : names rs -> rs <> [] -> points H es rs -> points H' es rs.
Proof. intros Hr Hrn (He & Hh & E). destruct (before (S (tall H (Co (abs_path es)))) es (Nat.lt_succ_diag_r _) He Hh) as (A & C). repeat split; auto. Qed.
Lemma less_unseen_new es : ~ points H es new.
Proof. intros Q. apply (unseen es). apply less_points; [exact Hn|unfold new; destruct ps; discriminate|exact Q]. Qed.
Lemma less_up : ps = [] \/ in_stage H' ps.
Proof.
  destruct (parent_said layers layers' ps nm sp Hn M Rg') as [->|Ho]; [now left|right]. apply (C32_conserved layers' H' wf' B' ps less_ps). intros Q. apply Ho. apply (more_said layers layers' ps nm sp Hn M ps less_ps (up_not_new' ps nm) Q).
Qed.
Lemma less_new : in_stage H' new.
Proof. exact (new_there layers layers' ps nm sp Hn M H' Rg' B'). Qed.
Lemma less_unseen_parent : ps = [] \/ forall es, ~ points H es ps.
Proof.
  destruct less_up as [E|Hp]; [now left|]. destruct (nil_or ps) as [E|Eps]; [now left|]. right. intros es Q. apply less_points in Q; [|exact less_ps|exact Eps]. destruct Q as (He & Hh & Er).
  assert (I0 : instances H' es ps) by (repeat split; auto; exact less_ps). assert (Hx : names [nm]) by (unfold names, new in *; apply Forall_app in Hn as (_ & Hn'); exact Hn').
  destruct (C43_mirror layers' H' wf' B' (r_gapless _ Rg') (r_pure _ Rg') es ps He Hh I0 (one_not_above layers' H' Rg' B' es ps He Hh I0) [nm] Hx) as (M1 & M2). pose proof less_new as Hw. apply M1 in Hw.
  apply (unseen (es ++ [nm])). split; [unfold names in *; apply Forall_app; auto|]. split; [exact Hw|]. apply M2, Hw.
Qed.

(** Nothing draws from the node. *)
Lemma less_below qs nm' : names (qs ++ [nm']) -> in_stage H' (qs ++ [nm']) -> qs <> new.
Proof.
  intros Hq Hh ->. assert (Ne : new ++ [nm'] <> new) by (intros Q; symmetry in Q; revert Q; apply up_not_new'). assert (Hnw : names new) by exact Hn.
  destruct (opinions (new ++ [nm']) layers') as [|d l] eqn:Eo.
  - destruct (one_proxy layers' H' Rg' B' new nm' Hq Hh Eo) as (rs & _ & _ & (Hr & Hrn & _ & Er) & _). exact (new_no_source layers layers' ps nm sp Hn M H' Rg' B' no_inst rs Hr Hrn Er).
  - assert (Ho : opinions (new ++ [nm']) layers <> []). { intros Q. apply (more_said' layers layers' ps nm sp Hn M _ Hq Ne) in Q. congruence. }
    destruct (r_gapless layers Rg new nm' Hq Ho) as [Q|Q]; [unfold new in Q; destruct ps; discriminate|]. apply Q. exact (proj2 (more_new layers layers' ps nm sp M)).
Qed.
Lemma less_draws cs es : draws H' cs es -> names cs -> in_stage H' cs -> es = new -> cs = new.
Proof.
  induction 1 as [cs|cs ds es K D IH|cs rs es I D IH]; intros Hc Hh E.
  - exact E.
  - exfalso. destruct (parent_names H' _ _ Hc K) as (Hd & Hdh). specialize (IH Hd Hdh E). subst ds. destruct (removelast_snoc' cs) as [->|(qs & nm' & ->)]; [exact (one_no_parent H' new K)|].
    apply (one_parent layers' H' Rg' B' qs nm' new Hc Hh) in K as (K & _). apply (less_below qs nm' Hc Hh). now symmetry.
  - exfalso. pose proof I as (Hr & Hrn & Hrh & Er). specialize (IH Hr Hrh E). subst rs. apply (unseen cs). repeat split; auto.
Qed.
Lemma less_free q : here H' q = true -> q <> p -> ~ In (Co p) (bs H' (Co q)).
Proof.
  intros Hq Nq Hi. destruct (stage_parts layers' H' wf' B') as (H1 & F & P). destruct (fin_path layers' H1 F H' P q Hq) as (cs & Hc & ->). apply Nq. unfold p. f_equal.
  destruct (view_up_co layers' H1 F H' wf' P cs p Hc Hq Hi) as (ds & Ed & K). assert (Hd : names ds) by (destruct K as [K|K]; [exact (proj1 (parent_names H' _ _ Hc K))|exact (proj1 K)]).
  apply path_inj in Ed; [|exact Hn|exact Hd]. subst ds. apply (less_draws cs new); auto. destruct K as [K|K]; [eapply draws_parent|eapply draws_source]; try exact K; constructor.
Qed.

(** The run and its end. *)
Hypothesis real_path : value sp SOURCE_LAYER = rp.
Hypothesis apart_world : reads H' ps INSTANCE_PATH <> Some (VStr (lit "/")).
Variables (home : option nat) (real : pystr).
Hypothesis Er : rp = VStr real.
Let Xd := X H' home ps nm.

Lemma less_nodup : NoDup (dkeys (comps H')).
Proof. destruct (stage_parts layers' H' wf' B') as (H1 & F & P). destruct (post_structure _ F (p_good _ _ _ _ P) H' (p_post _ _ _ _ P)) as (_ & -> & _). apply (p_good _ _ _ _ P). Qed.
Lemma less_place : attr H' p PARENT_PATH = VStr (abs_path ps) /\ attr H' p NAME = VStr nm.
Proof. exact (at_place layers' H' wf' B' ps nm Hn less_new). Qed.
Lemma less_alone : other_specs H' real (bs H' (Co p)) = [].
Proof.
  destruct (stage_parts layers' H' wf' B') as (H1 & F & P). pose proof less_new as Hh. unfold in_stage in Hh. rewrite (fin_here layers' H1 F H' P) in Hh.
  destruct (node_bases _ F H' (p_good _ _ _ _ P) (p_post _ _ _ _ P) _ Hh) as (rest & Eb & Hr & _). unfold p. rewrite Eb.
  destruct (more_new layers layers' ps nm sp M) as (Q & _). fold new in Q. destruct (fin_layers layers' H1 F H' wf' P new Hn) as (is & El & L & Sn); [rewrite Q; discriminate|]. rewrite El.
  assert (A : forall i, In i is -> str_of (ref_attr H' (Sp i) SOURCE_LAYER) = real).
  { intros i Hi. specialize (L i Hi). destruct (nth_error (specs H') i) as [d0|] eqn:Ed; [|apply nth_error_None in Ed; lia]. assert (Hd : In d0 (opinions new layers')). { rewrite <- Sn. unfold spec_nodes. apply in_flat_map. exists (Sp i). split; [now apply in_map|]. rewrite Ed. now left. }
    rewrite Q in Hd. destruct Hd as [<-|[]]. unfold ref_attr. rewrite Ed. change (attr_or_none sp SOURCE_LAYER) with (value sp SOURCE_LAYER). now rewrite real_path, Er. }
  clear - A Hr. induction is as [|i is IH]; cbn [map app].
  - destruct rest as [|r rest]; [reflexivity|]. destruct (Hr r (or_introl eq_refl)) as (q & ->). reflexivity.
  - cbn [other_specs]. rewrite (A i (or_introl eq_refl)), str_eqb_refl. cbn [app]. apply IH. intros j Hj. apply A. now right.
Qed.
Lemma less_free_parent : inst_of H' (abs_path ps) = None \/ inst_of H' (abs_path ps) = Some [].
Proof.
  destruct (stage_parts layers' H' wf' B') as (H1 & F & P). destruct (inst_of H' (abs_path ps)) as [s|] eqn:Ei; [|now left]. right. f_equal. pose proof Ei as Ei0. unfold inst_of in Ei0. rewrite (fin_untouched layers' H1 F H' P _ _ untouched_inst) in Ei0. fold (inst_of F (abs_path ps)) in Ei0.
  destruct (t_inst _ (fin_tree layers' H1 F H' P) _ _ Ei0) as [->|(rs & Hr & ->)]; [reflexivity|exfalso]. destruct less_up as [E|Hp].
  - rewrite E in Ei0. change (abs_path []) with WORLD in Ei0. rewrite (t_world _ (fin_tree layers' H1 F H' P)) in Ei0. discriminate.
  - assert (Rd : reads H' ps INSTANCE_PATH = Some (VStr (abs_path rs))). { rewrite (view_internal layers' H1 F H' wf' P ps _ Hp inst_key). f_equal. unfold inst_of in Ei. destruct (attr H' (abs_path ps) INSTANCE_PATH); try discriminate Ei. cbn [as_str] in Ei. congruence. }
    destruct rs as [|x l] eqn:El; [apply apart_world; exact Rd|]. rewrite <- El in *. assert (Hrn : rs <> []) by (rewrite El; discriminate).
    destruct (parent_said layers layers' ps nm sp Hn M Rg') as [E|Ho]; [rewrite E in Ei0; change (abs_path []) with WORLD in Ei0; rewrite (t_world _ (fin_tree layers' H1 F H' P)) in Ei0; discriminate|].
    assert (Ho' : opinions ps layers' <> []) by (intros Q; apply Ho; apply (more_said layers layers' ps nm sp Hn M ps less_ps (up_not_new' ps nm) Q)).
    apply (C34_instance_path layers' H' wf' B' ps rs less_ps (one_pure layers' Rg' ps less_ps) Ho' Hr Hrn) in Rd. apply (r_pure layers' Rg' ps [nm] rs Hn) in Rd; auto; [discriminate|].
    change (opinions new layers' <> []). unfold new. rewrite (proj1 (more_new layers layers' ps nm sp M)). discriminate.
Qed.
Lemma less_attr : inst_of H' p = None \/ inst_of H' p = Some [].
Proof.
  destruct (more_new layers layers' ps nm sp M) as (Q & _). fold new in Q. destruct (stage_parts layers' H' wf' B') as (H1 & F & P). assert (Ho : opinions new layers' <> []) by (rewrite Q; discriminate).
  pose proof less_new as Hh. unfold in_stage in Hh. rewrite (fin_here layers' H1 F H' P) in Hh.
  assert (E : inst_of H' p = inst_of (comp_pre_proxies (sorted_layers layers')) p).
  { unfold inst_of at 1. rewrite (fin_untouched layers' H1 F H' P _ _ untouched_inst). unfold p. rewrite (fin_attr layers' H1 F H' P _ _ Hh). apply (i_layer _ _ _ (p_inv _ _ _ _ P) new Hn); [|now apply (start_here layers' wf')].
    apply (pure_clear layers' wf' new Hn). exact (one_pure layers' Rg' new Hn). }
  rewrite E. destruct (inst_of (comp_pre_proxies (sorted_layers layers')) p) as [s|] eqn:Es; [|now left]. right. f_equal. destruct (start_inst layers' wf' new s Hn Es) as (m & Hm & Em). rewrite Q in Hm. destruct Hm as [<-|[]].
  destruct no_inst as [Z|Z]; rewrite Z in Em; congruence.
Qed.
Lemma less_run top one fuel L : delete_node top one fuel H' home real L p = Some (Ok (Xd, [])).
Proof.
  destruct less_place as (E1 & E2). apply (gone_run H' home ps nm Hn less_nodup E2 E1 less_new).
  - apply (no_reliers layers' H' Rg' B'); [exact Hn|unfold new; destruct ps; discriminate|exact unseen].
  - exact less_alone.
  - exact less_free_parent.
  - exact less_attr.
Qed.
Lemma less_in cs : names cs -> in_stage Xd cs <-> in_stage H cs.
Proof.
  intros Hc. destruct less_place as (E1 & E2). unfold Xd. rewrite (X_in H' home ps nm Hn less_nodup E2 E1 cs Hc). split.
  - intros (A & Ne). exact (others layers layers' ps nm sp Hn M H H' Rg Rg' B B' no_inst less_unseen_parent less_unseen_new cs Hc A Ne).
  - intros A. split; [exact (proj1 (before (S (tall H (Co (abs_path cs)))) cs (Nat.lt_succ_diag_r _) Hc A))|]. intros ->. now apply less_none.
Qed.
Lemma less_same cs : names cs -> in_stage H cs -> (forall a, asked a -> reads Xd cs a = reads H cs a) /\ forall rs, instances Xd cs rs <-> instances H cs rs.
Proof.
  intros Hc Hh. destruct less_place as (E1 & E2). destruct (others_same layers layers' ps nm sp Hn M H H' Rg Rg' B B' no_inst less_unseen_parent less_unseen_new cs Hc Hh) as (A & C).
  assert (Ne : cs <> new) by (intros ->; now apply less_none). assert (R : forall a, a <> CHILD_ORDER -> reads Xd cs a = reads H' cs a) by (intros a Ha; exact (X_reads H' home ps nm Hn less_nodup E2 E1 (one_sound layers' H' Rg' B') less_free cs a Hc A Ne Ha)).
  split.
  - intros a Ha. rewrite <- (C a Ha). apply R. intros ->. destruct Ha as [Ha|Ha]; [apply str_in_In in Ha; vm_compute in Ha; discriminate Ha|]. apply Ha. apply str_in_In. reflexivity.
  - intros rs. assert (Z : instances H' cs rs <-> instances H cs rs).
    { apply (C61_local layers layers' H H' cs Rg Rg' B B' Hc Hh).
      - apply (alike_nil _ _ (more_elsewhere layers layers' ps nm sp Hn M [] (Forall_nil _) (nil_not_new' ps nm))).
      - intros es D. destruct (draws_names H cs es D Hc Hh) as (He & Hee). apply (more_elsewhere layers layers' ps nm sp Hn M); [exact He|]. intros ->. now apply less_none.
      - intros es ts D Ht Htn E Hth. destruct (draws_names H cs es D Hc Hh) as (He & Hee). apply (others layers layers' ps nm sp Hn M H H' Rg Rg' B B' no_inst less_unseen_parent less_unseen_new); auto. intros ->. apply (less_unseen_new es). repeat split; auto. }
    rewrite <- Z. unfold instances. rewrite (R INSTANCE_PATH) by discriminate. split; intros (R1 & R2 & R3 & R4); (split; [exact R1|split; [exact R2|split; [|exact R4]]]).
    + apply (less_in rs R1) in R3. exact (proj1 (before (S (tall H (Co (abs_path rs)))) rs (Nat.lt_succ_diag_r _) R1 R3)).
    + apply (less_in rs R1). apply (others layers layers' ps nm sp Hn M H H' Rg Rg' B B' no_inst less_unseen_parent less_unseen_new rs R1 R3). intros ->. apply (unseen cs). repeat split; auto.
Qed.
Lemma listed_order Y q i l r : mro_of Y (Co (abs_path q)) = Some (Co (abs_path q) :: Sp i :: l) -> bs Y (Co (abs_path q)) = Sp i :: r -> own_attr Y CHILD_ORDER (Sp i) <> None -> listed (reads Y q CHILD_ORDER) = order_of Y (abs_path q).
Proof.
  intros Em Eb No. unfold order_of. rewrite attr_own, Eb. unfold reads, getattr. rewrite Em. cbn [lookup_in]. destruct (own_attr Y CHILD_ORDER (Co (abs_path q))); [reflexivity|].
  destruct (own_attr Y CHILD_ORDER (Sp i)); [reflexivity|congruence].
Qed.
Lemma less_order x : in_stage H' ps -> NoDup (listed (reads H' ps CHILD_ORDER)) -> In x (listed (reads Xd ps CHILD_ORDER)) <-> x <> nm /\ In x (listed (reads H' ps CHILD_ORDER)).
Proof.
  intros Hh. destruct less_place as (E1 & E2). destruct (stage_parts layers' H' wf' B') as (H1 & F & P). destruct (first_layer layers' H' ps wf' B' Hh) as (i & l & r & Em & Ebs).
  assert (Rd : listed (reads H' ps CHILD_ORDER) = order_of H' (abs_path ps)) by (rewrite (view_internal layers' H1 F H' wf' P ps CHILD_ORDER Hh) by (apply str_in_In; reflexivity); reflexivity).
  assert (No : own_attr H' CHILD_ORDER (Sp i) <> None).
  { assert (Ho : opinions ps layers' <> []).
    { destruct (parent_said layers layers' ps nm sp Hn M Rg') as [E|Ho]; [rewrite E in *; now apply (one_root layers' H' Rg' B')|]. intros Q. apply Ho. apply (more_said layers layers' ps nm sp Hn M ps less_ps (up_not_new' ps nm) Q). }
    pose proof Hh as Hf. unfold in_stage in Hf. rewrite (fin_here layers' H1 F H' P) in Hf. destruct (node_bases _ F H' (p_good _ _ _ _ P) (p_post _ _ _ _ P) _ Hf) as (rest & Eb & Hr & _).
    destruct (fin_layers layers' H1 F H' wf' P ps less_ps Ho) as (is & El & L & Sn). rewrite Eb, El in Ebs. assert (Hi : In i is).
    { destruct is as [|j is]; [|injection Ebs as -> _; now left]. exfalso. apply Ho. rewrite <- Sn. reflexivity. }
    specialize (L i Hi). unfold own_attr. destruct (nth_error (specs H') i) as [d0|] eqn:Ed; [|apply nth_error_None in Ed; lia]. apply (opinion_keys layers' wf' ps d0 CHILD_ORDER less_ps); [|apply str_in_In; reflexivity].
    rewrite <- Sn. unfold spec_nodes. apply in_flat_map. exists (Sp i). split; [now apply in_map|]. rewrite Ed. now left. }
  assert (Up : abs_path ps <> p) by exact (up_neq ps nm Hn).
  assert (Rx : listed (reads Xd ps CHILD_ORDER) = order_of Xd (abs_path ps)).
  { apply (listed_order Xd ps i l r).
    - exact (proj1 (X_mro H' home ps nm less_nodup E2 E1 (one_sound layers' H' Rg' B') less_free _ _ Hh Up Em)).
    - unfold Xd. rewrite (s_bs _ _ _ (X_shrunk H' home ps nm less_nodup E2 E1)); [exact Ebs|exact Up].
    - unfold Xd. rewrite X_form by assumption. assert (Z : own_attr (name_out_of_layer H' home nm) CHILD_ORDER (Sp i) <> None). { destruct (name_out_spec H' home nm) as (_ & _ & _ & _ & O). destruct (O i) as [-> |(l0 & _ & _ & ->)]; [exact No|discriminate]. }
      destruct (_ && _); exact Z. }
  rewrite Rd, Rx. intros Nd. exact (X_order H' home ps nm Hn less_nodup E2 E1 x Hh Nd).
Qed.
End Less.

(** *** Adding a node and deleting it again *)
Section Undo.
Variables (layers layers' : list (list layer_row)) (H X : heap) (ps : list pystr) (nm : pystr) (sp : node) (real : pystr).
Let new := ps ++ [nm].
Let p := abs_path new.
Hypotheses (Rg : regular layers) (Rg' : regular layers') (B : stage_of layers H).
Hypothesis Hn : names new.
Hypothesis Enm : value sp NAME = VStr nm.
Hypothesis Epp : value sp PARENT_PATH = VStr (abs_path ps).
Hypothesis no_inst : value sp INSTANCE_PATH = VNone \/ value sp INSTANCE_PATH = VStr [].
Hypothesis real_path : value sp SOURCE_LAYER = VStr real.
Hypothesis M : one_more new sp layers layers'.
Hypothesis unseen_new : forall es, ~ points H es new.
Hypothesis apart_world : reads H ps INSTANCE_PATH <> Some (VStr (lit "/")).
Hypothesis G : grown H X p sp.
Hypothesis Eb : bs X (Co p) = Sp (length (specs H)) :: rest H ps.
Hypothesis Eo : forall a, ~ In a INSTANCE_ATTRS -> own_attr X a (Co p) = None.
Let wf := r_fits layers Rg.

Lemma undo_new : here H p = false.
Proof. apply not_true_iff_false. exact (less_none layers layers' H ps nm sp Rg Rg' B Hn M). Qed.
Lemma undo_ps : names ps. Proof. now apply Forall_app in Hn as (Hp & _). Qed.
Lemma undo_up : ps = [] \/ in_stage H ps.
Proof. destruct (parent_said layers layers' ps nm sp Hn M Rg') as [->|Ho]; [now left|right]. exact (C32_conserved layers H wf B ps undo_ps Ho). Qed.
Lemma undo_nodup : NoDup (dkeys (comps X)).
Proof.
  destruct (stage_parts layers H wf B) as (H1 & F & P). assert (Nd : NoDup (dkeys (comps H))). { destruct (post_structure _ F (p_good _ _ _ _ P) H (p_post _ _ _ _ P)) as (_ & -> & _). apply (p_good _ _ _ _ P). }
  apply (@NoDup_incl_NoDup pystr (p :: dkeys (comps H))).
  - constructor; [|exact Nd]. intros I. apply here_In in I. rewrite undo_new in I. discriminate.
  - unfold dkeys. cbn [length]. rewrite !map_length, (g_comps _ _ _ _ G). lia.
  - intros q [<-|Hq]; apply here_In; rewrite (g_here _ _ _ _ G); [now rewrite str_eqb_refl|]. apply here_In in Hq. rewrite Hq. apply orb_true_r.
Qed.
Lemma undo_attr a : ~ In a INSTANCE_ATTRS -> attr X p a = value sp a.
Proof. intros Ha. apply (new_attr H sp ps nm X a G); [exact (Eo a Ha)|]. exists (rest H ps). exact Eb. Qed.
Lemma undo_old q a : here H q = true -> a <> CHILD_ORDER -> attr X q a = attr H q a.
Proof.
  intros Hq Ha. assert (Nq : q <> p) by (intros ->; rewrite undo_new in Hq; discriminate). rewrite !attr_own, (g_own _ _ _ _ G _ _ Nq Ha), (g_bs _ _ _ _ G _ Nq). destruct (own_attr H a (Co q)); [reflexivity|].
  destruct (bs H (Co q)) as [|[i|r] l] eqn:E; try reflexivity. rewrite (g_sp _ _ _ _ G); [reflexivity| |exact Ha]. apply (proj1 (valid_bs H) (proj1 (one_sound layers H Rg B)) q (Sp i) Hq). rewrite E. now left.
Qed.
Lemma undo_valid : valid X.
Proof.
  apply valid_bs. intros q r Hq Hr. destruct (str_eqb q p) eqn:Ex.
  - apply str_eqb_eq in Ex as ->. rewrite Eb in Hr. destruct Hr as [<-|Hr]; [rewrite (g_specs _ _ _ _ G); lia|]. unfold rest in Hr. destruct (here H (abs_path ps)) eqn:Hp; [|destruct Hr]. destruct Hr as [<-|[]]. rewrite (g_here _ _ _ _ G), Hp. apply orb_true_r.
  - rewrite (g_here _ _ _ _ G), Ex in Hq. cbn in Hq. assert (Nq : q <> p) by (intros ->; rewrite undo_new in Hq; discriminate). rewrite (g_bs _ _ _ _ G _ Nq) in Hr. pose proof (proj1 (valid_bs H) (proj1 (one_sound layers H Rg B)) q r Hq Hr) as V.
    destruct r as [i|y]; [rewrite (g_specs _ _ _ _ G); lia|]. rewrite (g_here _ _ _ _ G), V. apply orb_true_r.
Qed.
Lemma undo_sound : sound X.
Proof.
  split; [exact undo_valid|]. apply all_mros_spec. apply (grown_mros H sp ps nm undo_new (one_sound layers H Rg B) X G). unfold rest in Eb. destruct (here H (abs_path ps)) eqn:Hp.
  - destruct (one_sound layers H Rg B) as (V & Ms). destruct (Ms _ Hp) as (l & El). eexists. apply (new_mro_parent H sp ps nm undo_new (conj V Ms) X G (abs_path ps) l Hp El Eb).
  - eexists. exact (new_mro_alone H sp ps nm X G Eb).
Qed.
Lemma undo_free q : here X q = true -> q <> p -> ~ In (Co p) (bs X (Co q)).
Proof.
  intros Hq Nq Hi. rewrite (g_bs _ _ _ _ G _ Nq) in Hi. rewrite (g_here _ _ _ _ G) in Hq. apply str_eqb_neq in Nq. rewrite Nq in Hq. cbn in Hq. pose proof (proj1 (valid_bs H) (proj1 (one_sound layers H Rg B)) q _ Hq Hi) as V. cbn in V. rewrite undo_new in V. discriminate.
Qed.
Lemma undo_free_parent : inst_of X (abs_path ps) = None \/ inst_of X (abs_path ps) = Some [].
Proof.
  destruct (stage_parts layers H wf B) as (H1 & F & P). destruct (here H (abs_path ps)) eqn:Hp.
  - unfold inst_of. rewrite undo_old by (exact Hp || discriminate). fold (inst_of H (abs_path ps)). destruct (inst_of H (abs_path ps)) as [s|] eqn:Ei; [|now left]. right. f_equal. pose proof Ei as Ei0. unfold inst_of in Ei0. rewrite (fin_untouched layers H1 F H P _ _ untouched_inst) in Ei0. fold (inst_of F (abs_path ps)) in Ei0.
    destruct (t_inst _ (fin_tree layers H1 F H P) _ _ Ei0) as [->|(rs & Hr & ->)]; [reflexivity|exfalso].
    destruct (parent_said layers layers' ps nm sp Hn M Rg') as [E|Ho]; [rewrite E in Ei0; change (abs_path []) with WORLD in Ei0; rewrite (t_world _ (fin_tree layers H1 F H P)) in Ei0; discriminate|].
    assert (Rd : reads H ps INSTANCE_PATH = Some (VStr (abs_path rs))). { rewrite (view_internal layers H1 F H wf P ps _ Hp inst_key). f_equal. unfold inst_of in Ei. destruct (attr H (abs_path ps) INSTANCE_PATH); try discriminate Ei. cbn [as_str] in Ei. congruence. }
    destruct (nil_or rs) as [->|Hrn]; [apply apart_world; exact Rd|].
    apply (C34_instance_path layers H wf B ps rs undo_ps (one_pure layers Rg ps undo_ps) Ho Hr Hrn) in Rd. apply (alike_source layers layers' ps rs (more_elsewhere layers layers' ps nm sp Hn M ps undo_ps (up_not_new' ps nm))) in Rd.
    apply (r_pure layers' Rg' ps [nm] rs Hn) in Rd; auto; [discriminate|]. change (opinions new layers' <> []). unfold new. rewrite (proj1 (more_new layers layers' ps nm sp M)). discriminate.
  - left. unfold inst_of, attr. assert (Hx : here X (abs_path ps) = false). { rewrite (g_here _ _ _ _ G), Hp, orb_false_r. apply str_eqb_neq. exact (pp_neq ps nm Hn). } apply here_false in Hx. now rewrite Hx.
Qed.
Lemma undo_alone : other_specs X real (bs X (Co p)) = [].
Proof.
  rewrite Eb. cbn [other_specs]. assert (E : ref_attr X (Sp (length (specs H))) SOURCE_LAYER = value sp SOURCE_LAYER).
  { pose proof (g_new _ _ _ _ G SOURCE_LAYER) as N. unfold own_attr in N. unfold ref_attr, value. rewrite <- N. now destruct (nth_error (specs X) (length (specs H))). }
  rewrite E, real_path. cbn [str_of]. rewrite str_eqb_refl. cbn [app]. unfold rest. destruct (here H (abs_path ps)); reflexivity.
Qed.
Lemma undo_run home top one fuel L : delete_node top one fuel X home real L p = Some (Ok (DelNodeProofs.X X home ps nm, [])) /\
  (forall cs, names cs -> in_stage (DelNodeProofs.X X home ps nm) cs <-> in_stage H cs) /\
  (forall cs a, names cs -> in_stage H cs -> a <> CHILD_ORDER -> reads (DelNodeProofs.X X home ps nm) cs a = reads H cs a).
Proof.
  assert (Na : attr X p NAME = VStr nm) by (rewrite undo_attr; [exact Enm|intros Z; apply str_in_In in Z; vm_compute in Z; discriminate Z]).
  assert (Pa : attr X p PARENT_PATH = VStr (abs_path ps)) by (rewrite undo_attr; [exact Epp|intros Z; apply str_in_In in Z; vm_compute in Z; discriminate Z]).
  assert (Hp : here X p = true) by (rewrite (g_here _ _ _ _ G), str_eqb_refl; reflexivity).
  split; [|split].
  - apply (gone_run X home ps nm Hn undo_nodup Na Pa Hp); [|exact undo_alone|exact undo_free_parent|].
    + unfold dirties. rewrite (g_dirty _ _ _ _ G). apply (no_reliers layers H Rg B new); [exact Hn|unfold new; destruct ps; discriminate|exact unseen_new].
    + unfold inst_of. change (abs_path (ps ++ [nm])) with p. rewrite undo_attr by (intros Z; apply str_in_In in Z; vm_compute in Z; discriminate Z). destruct no_inst as [-> | ->]; [now left|now right].
  - intros cs Hc. rewrite (X_in X home ps nm Hn undo_nodup Na Pa cs Hc). unfold in_stage. rewrite (g_here _ _ _ _ G). split.
    + intros (A & Ne). apply orb_prop in A as [A|A]; [|exact A]. apply str_eqb_eq in A. apply path_inj in A; [contradiction|exact Hc|exact Hn].
    + intros A. split; [rewrite A; apply orb_true_r|]. intros ->. pose proof undo_new as Z. unfold p, new in Z. congruence.
  - intros cs a Hc Hh Ha. assert (Ne : cs <> ps ++ [nm]) by (intros ->; pose proof undo_new as Z; unfold p, new, in_stage in *; congruence).
    rewrite (X_reads X home ps nm Hn undo_nodup Na Pa undo_sound undo_free cs a Hc); [|unfold in_stage in *; rewrite (g_here _ _ _ _ G), Hh; apply orb_true_r|exact Ne|exact Ha].
    exact (old_reads H sp ps nm undo_new (one_sound layers H Rg B) X G cs a Hh Ha).
Qed.
End Undo.

(** *** The nodes of the layers *)
Lemma remove_comp_specs K p b : specs (remove_comp K p b) = specs K.
Proof. unfold remove_comp. cbv zeta. now destruct (b && _ && _). Qed.
Lemma X_specs H home ps nm i n : nth_error (specs H) i = Some n -> exists n', nth_error (specs (X H home ps nm)) i = Some n' /\
  (home <> Some i -> n' = n) /\ (forall a, a <> CHILD_ORDER -> dget a n' = dget a n) /\
  (home = Some i -> NoDup (listed (dget CHILD_ORDER n)) -> forall x, In x (listed (dget CHILD_ORDER n')) <-> x <> nm /\ In x (listed (dget CHILD_ORDER n))).
Proof.
  intros E. unfold X. rewrite remove_comp_specs. unfold name_out_of_layer. destruct home as [j|].
  2: { exists n. repeat split; try discriminate; auto. }
  assert (W : forall m, listed (dget CHILD_ORDER m) = as_strs (attr_or_none m CHILD_ORDER)) by (intros m; unfold attr_or_none, listed; now destruct (dget CHILD_ORDER m)).
  destruct (nth_error (specs H) j) as [m|] eqn:Ej.
  2: { exists n. split; [exact E|]. split; [auto|]. split; [auto|]. intros [= ->]. congruence. }
  cbv zeta. destruct (str_in nm (as_strs (attr_or_none m CHILD_ORDER))) eqn:Es.
  - assert (L : j < length (specs H)) by (apply nth_error_Some; congruence). rewrite with_spec_nth by exact L. destruct (Nat.eqb i j) eqn:Ei.
    + apply Nat.eqb_eq in Ei as ->. rewrite Ej in E. injection E as ->. eexists. split; [reflexivity|]. split; [congruence|]. split.
      * intros a Ha. rewrite dget_dset. destruct (str_eqb CHILD_ORDER a) eqn:Ea; [apply str_eqb_eq in Ea; congruence|reflexivity].
      * intros _ Nd x. rewrite dget_dset_same, W. rewrite W in Nd. rewrite <- (try_remove_in nm _ x Nd). unfold listed. now rewrite as_strs_VStrs.
    + apply Nat.eqb_neq in Ei. exists n. split; [exact E|]. split; [auto|]. split; [auto|]. intros [= ->]. congruence.
  - exists n. split; [exact E|]. split; [auto|]. split; [auto|]. intros [= ->] Nd x. rewrite Ej in E. injection E as ->. split; [|now intros []].
    intros I. split; [|exact I]. intros ->. rewrite W in I. apply str_in_In in I. congruence.
Qed.
