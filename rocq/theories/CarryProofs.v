(** Proofs about what composition carries along. *)

From Coq Require Import String List NArith ZArith Bool Arith Lia Relations.
From Verif Require Import PyStr PyStrFacts NxtPath PathSpec PathProofs Dict DictFacts ListMerger SortRows Layer PyVal NodeIO PyClass PyClassProofs
  Comp CompSpec CompProofs CompPostProofs CompProxyProofs CompTreeProofs CompLookProofs CompStageProofs StageView StageViewProofs LiveSpec CompLiveProofs CompSimProofs CarrySpec.
From Verif Require MergeProofs.
Import ListNotations.

(** A source is closer to the end of its chain. *)
Definition height (H : heap) (p : pystr) : nat := match mro_of H (Co p) with Some l => length l | None => 0 end.
Lemma source_lower layers H1 F H p b : parts layers H1 F H -> here F p = true -> src F p = Some b -> height H b < height H p.
Proof.
  intros P Hy Ey. destruct (post_structure _ F (p_good _ _ _ _ P) H (p_post _ _ _ _ P)) as (_ & K & _ & (_ & So) & _ & _ & _ & Arc).
  destruct (Arc p Hy) as (rest & Eb & Er). rewrite Ey in Er. destruct Er as (_ & Er).
  assert (Iz : In (Co b) (bs H (Co p))). { rewrite Eb. apply in_or_app. right. destruct Er as [->|(-> & _)]; [apply in_or_app; right|]; now left. }
  assert (Hy' : here H p = true) by (rewrite (here_keys F H); assumption). destruct (So p Hy') as (l & El'). unfold height. rewrite El'.
  unfold mro_of in *. destruct (mro_laws ref_eqb ref_eqb_eq _ _ _ _ El') as ((t & ->) & Hnd & _ & _ & Hs).
  destruct (mro ref_eqb (bases_in (comps H)) (S (length (specs H) + length (comps H))) (Co b)) as [lz|] eqn:Ez; [|cbn; lia].
  specialize (Hs _ _ _ Iz Ez). destruct (mro_laws ref_eqb ref_eqb_eq _ _ _ _ Ez) as (_ & _ & Hz & _).
  inversion Hs as [|? a b' Hs' Ea|? a b' Hs' Ea]; subst; [cbn; apply sub_length in Hs'; lia|].
  exfalso. apply (mro_acyclic ref_eqb _ _ _ _ _ El' Iz). apply Hz. now left.
Qed.

(** What the layers, or the proxy, say at a place. *)
Definition empty_of (a : pystr) : pyval := if str_eqb a COMPUTE then VList [] else VNone.
Definition said (a : pystr) (sps : list data) : pyval :=
  match sps with
  | [] => empty_of a
  | d :: _ => match find (fun m => has_opinion (value m a)) sps with Some m => value m a | None => value d a end
  end.
Lemma said_first a sps m : speaks_first a sps m -> said a sps = value m a.
Proof.
  intros (s & w & E & S & Q). unfold said. destruct sps as [|d l] eqn:El; [now destruct s|]. rewrite E. clear El E. assert (Fi : find (fun m => has_opinion (value m a)) (s ++ m :: w) = Some m).
  { clear d l. induction s as [|x s IH]; cbn [app find]; [apply says_opinion in S; now rewrite S|]. assert (has_opinion (value x a) = false) as -> by (apply no_opinion_says, Q; now left). apply IH. intros y Hy. apply Q. now right. }
  now rewrite Fi.
Qed.
Lemma said_silent a d l : silent a (d :: l) -> said a (d :: l) = value d a.
Proof.
  intros S. unfold said. assert (Fi : find (fun m => has_opinion (value m a)) (d :: l) = None); [|now rewrite Fi].
  generalize dependent (d :: l). clear d l. intros l S. induction l as [|x l IH]; [reflexivity|]. cbn [find]. assert (has_opinion (value x a) = false) as -> by (apply no_opinion_says, S; now left). apply IH. intros y Hy. apply S. now right.
Qed.
Lemma plainly_tracked a : In a plainly -> In a tracked. Proof. intros [<-|[<-|[<-|[]]]]; cbn; tauto. Qed.
Lemma plainly_loose a : In a plainly -> ~ loose a /\ a <> SOURCE_LAYER.
Proof. intros Ha. split; [apply (tight_cases a (tracked_tight a (plainly_tracked a Ha)))|]. destruct Ha as [<-|[<-|[<-|[]]]]; discriminate. Qed.

Section Said.
Variables (layers : list (list layer_row)) (H1 F H : heap).
Hypothesis wf : well_formed layers.
Hypothesis P : parts layers H1 F H.
Lemma own_said es a : names es -> here F (abs_path es) = true -> In a plainly -> attr F (abs_path es) a = said a (opinions es layers).
Proof.
  intros He Hh Ha. destruct (plainly_loose a Ha) as (L1 & L2). pose proof (tracked_tight a (plainly_tracked a Ha)) as Ti. destruct (opinions es layers) as [|d l] eqn:Eo.
  - destruct es as [|nm ps _] using rev_ind; [destruct (fin_root_layer layers H1 F H wf P Hh Eo)|]. destruct (fin_born layers H1 F H wf P ps nm He Hh Eo) as (A & B).
    destruct (i_born _ _ _ (p_inv _ _ _ _ P) ps nm He A B) as (_ & _ & _ & M). rewrite (fin_attr layers H1 F H P) by exact Hh. destruct (made_attr layers _ _ _ _ M L1 L2) as (cm & en & sl & ->).
    destruct (proxy_values nm cm en sl (abs_path ps)) as (_ & _ & _ & V1 & _ & _ & _ & _ & V2 & V3 & _). destruct Ha as [<-|[<-|[<-|[]]]]; assumption.
  - rewrite (fin_old layers H1 F H wf P) by (auto; rewrite Eo; discriminate). assert (Hs : here (comp_pre_proxies (sorted_layers layers)) (abs_path es) = true) by (apply (start_here layers wf es He); rewrite Eo; discriminate).
    destruct (start_tracked layers wf es a He Hs (proj1 Ti)) as [(m & S & -> & _)|(S & d' & l' & E & -> & _)]; rewrite <- Eo; [symmetry; now apply said_first|].
    rewrite E in S |- *. symmetry. now apply said_silent.
Qed.
(** One step along the sources. *)
Lemma stage_said es a : names es -> in_stage H es -> In a plainly ->
  attr H (abs_path es) a =
    (if has_opinion (said a (opinions es layers)) || negb (str_eqb a COMPUTE) then said a (opinions es layers)
     else match src F (abs_path es) with None => said a (opinions es layers) | Some b => attr H b a end).
Proof.
  intros He Hh Ha. unfold in_stage in Hh. rewrite (fin_here layers H1 F H P) in Hh. rewrite <- (own_said es a He Hh Ha). destruct (str_eqb a COMPUTE) eqn:Ea.
  - apply str_eqb_eq in Ea as ->. rewrite orb_false_r. apply (fin_post layers H1 F H P); [exact Hh|cbn; tauto].
  - rewrite orb_true_r. apply (fin_untouched layers H1 F H P). destruct (tight_cases a (tracked_tight a (plainly_tracked a Ha))) as (_ & _ & [C|(C & _)]); [|exact C].
    destruct Ha as [<-|[<-|[<-|[]]]]; [discriminate|..]; exfalso; revert C; apply MergeProofs.str_in_false; reflexivity.
Qed.
Lemma src_instances es b : names es -> in_stage H es -> src F (abs_path es) = Some b -> exists rs, b = abs_path rs /\ instances H es rs.
Proof. intros He Hh Es. apply (view_src layers H1 F H wf P es b Hh). now apply (fin_src layers H1 F H P). Qed.
Lemma instances_src es rs : in_stage H es -> instances H es rs -> src F (abs_path es) = Some (abs_path rs).
Proof. intros Hh I. apply (fin_src layers H1 F H P). now apply (view_source layers H1 F H wf P). Qed.
End Said.

(** *** Edits *)

Definition only (a : pystr) (b : pystr) : bool := str_eqb b a || str_eqb b (source_of a).
Lemma only_steers a : In a tracked -> forall b, In b STRUCTURE -> only a b = false.
Proof.
  intros Ha b Hb. assert (Q : forallb (fun a => forallb (fun b => negb (only a b)) STRUCTURE) tracked = true) by (vm_compute; reflexivity).
  rewrite forallb_forall in Q. specialize (Q a Ha). rewrite forallb_forall in Q. specialize (Q b Hb). now apply negb_true_iff.
Qed.
Lemma only_sources a : In a tracked -> forall b, In b TRACKED -> only a b = true -> only a (b ++ META_SOURCE) = true.
Proof.
  intros Ha b Hb E. assert (Q : forallb (fun a => forallb (fun b => negb (only a b) || only a (b ++ META_SOURCE)) TRACKED) tracked = true) by (vm_compute; reflexivity).
  rewrite forallb_forall in Q. specialize (Q a Ha). rewrite forallb_forall in Q. specialize (Q b Hb). now rewrite E in Q.
Qed.

Section Edit.
Variables (a : pystr) (cs : list pystr) (layers layers' : list (list layer_row)) (H1 F H H1' F' H' : heap).
Hypothesis Ha : In a tracked.
Hypothesis wf : well_formed layers.
Hypothesis wf' : well_formed layers'.
Hypothesis P : parts layers H1 F H.
Hypothesis P' : parts layers' H1' F' H'.
Hypothesis R : sim (only a) H H'.
Hypothesis same : forall es, names es -> es <> cs -> opinions es layers = opinions es layers'.
Let st := only_steers a Ha.

Lemma edit_here p : here H p = here H' p. Proof. exact (sim_here _ H H' R p). Qed.
Lemma edit_src p : src F p = src F' p.
Proof.
  assert (Q : forall b, src F p = Some b <-> src F' p = Some b).
  { intros b. rewrite (fin_src layers H1 F H P), (fin_src layers' H1' F' H' P'). rewrite (sim_attr _ H H' R p INSTANCE_PATH) by (apply st; cbn; tauto). rewrite edit_here. tauto. }
  destruct (src F p) as [b|]; [symmetry; now apply Q|]. destruct (src F' p) as [b|]; [now apply Q|reflexivity].
Qed.
Lemma edit_local es : In a plainly -> names es -> in_stage H es -> es <> cs -> ~ (In a passed_on /\ takes_from H es cs) -> attr H (abs_path es) a = attr H' (abs_path es) a.
Proof.
  intros Hp. remember (height H (abs_path es)) as k eqn:Ek. revert es Ek. induction k as [k IH] using lt_wf_ind. intros es -> He Hh Hne Ht.
  assert (Hh' : in_stage H' es) by (unfold in_stage; now rewrite <- edit_here).
  rewrite (stage_said layers H1 F H wf P es a He Hh Hp), (stage_said layers' H1' F' H' wf' P' es a He Hh' Hp). rewrite <- (same es He Hne), <- edit_src.
  destruct (has_opinion (said a (opinions es layers)) || negb (str_eqb a COMPUTE)) eqn:Eh; [reflexivity|]. destruct (src F (abs_path es)) as [b|] eqn:Es; [|reflexivity].
  apply orb_false_iff in Eh as (_ & Ec). apply negb_false_iff, str_eqb_eq in Ec. destruct (src_instances layers H1 F H wf P es b He Hh Es) as (rs & -> & I).
  pose proof I as (Hr & _ & Hrh & _). assert (Pass : In a passed_on) by (rewrite Ec; cbn; tauto). assert (HF : here F (abs_path es) = true) by (now rewrite <- (fin_here layers H1 F H P)).
  apply (IH (height H (abs_path rs)) (source_lower layers H1 F H _ _ P HF Es) rs eq_refl Hr Hrh).
  - intros ->. apply Ht. split; [exact Pass|]. now apply t_step.
  - intros (_ & T). apply Ht. split; [exact Pass|]. apply t_trans with rs; [apply t_step; exact I|exact T].
Qed.
End Edit.
