(** Proofs about the lists of code lines of a composed stage. *)

From Coq Require Import String List NArith ZArith Bool Arith Lia Relations Permutation.
From Verif Require Import PyStr PyStrFacts NxtPath PathSpec PathProofs Dict DictFacts ListMerger SortRows Layer PyVal NodeIO PyClass PyClassProofs Live Arcs
  Comp CompSpec CompProofs CompPostProofs CompProxyProofs CompTreeProofs CompLookProofs CompStageProofs StageView StageViewProofs LiveSpec CompLiveProofs CompSimProofs CarrySpec CarryProofs
  DirtyStageSpec DirtyStageProofs CodeLinesSpec CodeLines.
From Verif Require SortProofs LiveBase LiveOrderProofs ArcsProofs Props_Arcs MergeProofs.
Import ListNotations.

(** *** The spec nodes of a composed node *)

Lemma pick_layers is rest : (forall r, In r rest -> exists q, r = Co q) ->
  flat_map (fun r => match r with Sp i => [i] | Co _ => [] end) (map Sp is ++ rest) = is.
Proof.
  intros Hr. induction is as [|i is IH]; cbn; [|now rewrite IH]. induction rest as [|r rest IH]; [reflexivity|]. destruct (Hr r) as (q & ->); [now left|]. cbn. apply IH. intros; apply Hr; now right.
Qed.

Section Bases.
Variables (layers : list (list layer_row)) (H1 F H : heap).
Hypothesis wf : well_formed layers.
Hypothesis P : parts layers H1 F H.

Lemma bases_flat p : here H p = true -> layers_of F p = map Sp (layer_bases H p) /\ layer_bases H p <> [] /\ NoDup (layer_bases H p) /\ (forall i, In i (layer_bases H p) -> i < length (specs H)) /\
  exists rest, bases_in (comps H) (Co p) = map Sp (layer_bases H p) ++ rest /\ forall r, In r rest -> exists q, r = Co q.
Proof.
  intros Hh. rewrite (fin_here layers H1 F H P) in Hh. destruct (node_bases _ F H (p_good _ _ _ _ P) (p_post _ _ _ _ P) p Hh) as (rest & Eb & Hr & _).
  destruct (flat_bases _ F (p_good _ _ _ _ P) p) as (is & El & Nd & Hne & L). unfold bs in Eb. rewrite El in Eb.
  assert (E : layer_bases H p = is) by (unfold layer_bases; rewrite Eb; now apply pick_layers). rewrite E. split; [exact El|]. split; [now apply Hne|]. split; [exact Nd|].
  split; [intros i Hi; rewrite (fin_specs layers H1 F H P); now apply L|]. exists rest. auto.
Qed.
Lemma bases_own p q i : here H p = true -> here H q = true -> In i (layer_bases H p) -> In i (layer_bases H q) -> p = q.
Proof.
  intros Hp Hq Ip Iq. destruct (flat_owned _ F (p_good _ _ _ _ P)) as (_ & _ & O). apply (O p q i).
  - destruct (bases_flat p Hp) as (-> & _). now apply in_map.
  - destruct (bases_flat q Hq) as (-> & _). now apply in_map.
Qed.
(** ... in a layer, in the order of the layers. *)
Lemma bases_numbers cs : names cs -> opinions cs layers <> [] -> layer_bases H (abs_path cs) = numbers 0 (abs_path cs) (numbered layers).
Proof.
  intros Hc Ho. assert (Hh : here (comp_pre_proxies (sorted_layers layers)) (abs_path cs) = true) by (now apply (start_here layers wf)).
  assert (Hh' : here H (abs_path cs) = true) by (rewrite (fin_here layers H1 F H P); now apply (fin_layer layers H1 F H wf P)).
  pose proof Hh as Hd. unfold here, dmem in Hd. destruct (dget (abs_path cs) (comps (comp_pre_proxies (sorted_layers layers)))) as [c|] eqn:Ec; [|discriminate].
  destruct (p_later _ _ _ _ P) as (K & _). destruct (k_nodes _ _ K _ _ Ec) as (c' & Ec' & Eb & _).
  destruct (bases_flat _ Hh') as (El & _). unfold layers_of, bs, bases_in in El. rewrite (fin_get layers H1 F H P) in El by (now apply (fin_layer layers H1 F H wf P)). rewrite Ec' in El.
  rewrite pre_get in Ec. destruct (stack _ _) as [|sp l]; [discriminate|]. injection Ec as <-. cbn [cbases] in Eb. rewrite Eb in El.
  apply (f_equal (flat_map (fun r => match r with Sp i => [i] | Co _ => [] end))) in El. pose proof (fun is => pick_layers is [] ltac:(intros ? [])) as Q.
  rewrite <- (app_nil_r (map Sp (layer_bases H (abs_path cs)))), <- (app_nil_r (map Sp (numbers _ _ _))), !Q in El. symmetry. exact El.
Qed.
(** What they say. *)
Lemma bases_said cs : names cs -> here H (abs_path cs) = true ->
  (forall i, In i (layer_bases H (abs_path cs)) -> nth_error (specs H) i <> None) /\
  (opinions cs layers <> [] -> spec_nodes (specs H) (map Sp (layer_bases H (abs_path cs))) = opinions cs layers) /\
  (opinions cs layers = [] -> exists i d, layer_bases H (abs_path cs) = [i] /\ nth_error (specs H) i = Some d /\ value d COMPUTE = VList []).
Proof.
  intros Hc Hh. destruct (bases_flat _ Hh) as (El & Hne & _ & L & _). split; [intros i Hi; apply nth_error_Some, L, Hi|]. split.
  - intros Ho. destruct (fin_layers layers H1 F H wf P cs Hc Ho) as (is & El' & _ & Sn). rewrite <- El, El'. exact Sn.
  - intros Ho. destruct cs as [|nm ps _] using rev_ind; [rewrite (fin_here layers H1 F H P) in Hh; destruct (fin_root_layer layers H1 F H wf P Hh Ho)|].
    rewrite (fin_here layers H1 F H P) in Hh. destruct (fin_made layers H1 F H wf P ps nm Hc Hh Ho) as (i & cm & en & sl & El' & Ei). rewrite El' in El.
    apply (f_equal (flat_map (fun r => match r with Sp i => [i] | Co _ => [] end))) in El. pose proof (pick_layers (layer_bases H (abs_path (ps ++ [nm]))) [] ltac:(intros ? [])) as Q. rewrite app_nil_r in Q. rewrite Q in El.
    exists i, (proxy_spec nm cm en sl (abs_path ps)). split; [symmetry; exact El|]. split; [exact Ei|]. apply proxy_values.
Qed.
End Bases.

Lemma find_said (H : heap) is : (forall i, In i is -> nth_error (specs H) i <> None) ->
  match find (fun i => has_opinion (list_at H i)) is with
  | Some k => In k is /\ exists m, nth_error (specs H) k = Some m /\ find (fun m => has_opinion (value m COMPUTE)) (spec_nodes (specs H) (map Sp is)) = Some m
  | None => find (fun m => has_opinion (value m COMPUTE)) (spec_nodes (specs H) (map Sp is)) = None
  end.
Proof.
  induction is as [|i is IH]; intros Hs; [reflexivity|]. cbn [find map]. destruct (nth_error (specs H) i) as [d|] eqn:Ei; [|destruct (Hs i (or_introl eq_refl) Ei)].
  assert (El : list_at H i = value d COMPUTE) by (unfold list_at; now rewrite Ei). rewrite El. cbn [spec_nodes flat_map]. rewrite Ei. cbn [app find]. destruct (has_opinion (value d COMPUTE)) eqn:Eo.
  - split; [now left|]. exists d. auto.
  - specialize (IH (fun j Hj => Hs j (or_intror Hj))). destruct (find _ is) as [k|]; [|exact IH]. destruct IH as (A & B). split; [now right|exact B].
Qed.

Definition listed_code (v : pyval) : Prop := exists l, v = VList l.
Lemma silent_code v : listed_code v -> has_opinion v = false -> v = VList [].
Proof. intros ([|x l] & ->) E; [reflexivity|discriminate]. Qed.
Lemma truthy_code v : listed_code v -> truthy v = has_opinion v.
Proof. intros ([|x l] & ->); reflexivity. Qed.

Section Codes.
Variables (layers : list (list layer_row)) (H1 F H : heap).
Hypothesis wf : well_formed layers.
Hypothesis P : parts layers H1 F H.
Hypothesis Cl : code_lists layers.

Lemma opinion_listed cs m : In m (opinions cs layers) -> listed_code (value m COMPUTE).
Proof.
  unfold opinions. intros Hm. apply in_map_iff in Hm as (r & <- & Hr). apply filter_In in Hr as (Hr & _). apply in_concat in Hr as (l & Hl & Hr). exact (Cl l r Hl Hr).
Qed.
Lemma list_listed cs i : names cs -> here H (abs_path cs) = true -> In i (layer_bases H (abs_path cs)) -> listed_code (list_at H i).
Proof.
  intros Hc Hh Hi. destruct (bases_said layers H1 F H wf P cs Hc Hh) as (S0 & S1 & S2). destruct (opinions cs layers) as [|d l] eqn:Eo.
  - destruct (S2 eq_refl) as (j & d & Ej & Ed & V). rewrite Ej in Hi. destruct Hi as [<-|[]]. exists []. unfold list_at. rewrite Ed. exact V.
  - destruct (nth_error (specs H) i) as [m|] eqn:Em; [|destruct (S0 i Hi Em)]. unfold list_at. rewrite Em. apply (opinion_listed cs). rewrite Eo, <- S1 by discriminate.
    unfold spec_nodes. apply in_flat_map. exists (Sp i). split; [now apply in_map|]. rewrite Em. now left.
Qed.
Lemma said_listed cs : listed_code (said COMPUTE (opinions cs layers)).
Proof.
  unfold said. destruct (opinions cs layers) as [|d l] eqn:Eo; [exists []; reflexivity|]. destruct (find _ _) as [m|] eqn:Ef.
  - apply find_some in Ef as (Hm & _). apply (opinion_listed cs). now rewrite Eo.
  - apply (opinion_listed cs). rewrite Eo. now left.
Qed.
Lemma spoken_said cs : names cs -> here H (abs_path cs) = true ->
  match spoken H (abs_path cs) with
  | Some k => In k (layer_bases H (abs_path cs)) /\ list_at H k = said COMPUTE (opinions cs layers) /\ has_opinion (said COMPUTE (opinions cs layers)) = true
  | None => said COMPUTE (opinions cs layers) = VList [] /\ forall k, In k (layer_bases H (abs_path cs)) -> list_at H k = VList []
  end.
Proof.
  intros Hc Hh. destruct (bases_said layers H1 F H wf P cs Hc Hh) as (S0 & S1 & S2). pose proof (find_said H _ S0) as Fi. fold (spoken H (abs_path cs)) in Fi.
  assert (So : spoken H (abs_path cs) = None -> forall k, In k (layer_bases H (abs_path cs)) -> list_at H k = VList []).
  { intros Es k Hk. apply silent_code; [now apply (list_listed cs)|]. now apply (find_none _ _ Es). }
  destruct (opinions cs layers) as [|d l] eqn:Eo.
  - destruct (S2 eq_refl) as (j & d & Ej & Ed & V). assert (Es : spoken H (abs_path cs) = None). { unfold spoken. rewrite Ej. cbn [find]. unfold list_at. rewrite Ed. change (attr_or_none d COMPUTE) with (value d COMPUTE). now rewrite V. }
    rewrite Es. split; [reflexivity|now apply So].
  - rewrite S1 in Fi by discriminate. destruct (spoken H (abs_path cs)) as [k|] eqn:Es.
    + destruct Fi as (Hk & m & Em & Fm). split; [exact Hk|]. unfold said. rewrite Fm. unfold list_at. rewrite Em. split; [reflexivity|]. now apply find_some in Fm.
    + split; [|now apply So]. unfold said. rewrite Fi. apply silent_code; [apply (opinion_listed cs); rewrite Eo; now left|]. apply (find_none _ _ Fi). now left.
Qed.
Lemma src_fin p : src H p = src F p.
Proof. apply src_same; [intros x; apply (fin_here layers H1 F H P)|]. apply (fin_untouched layers H1 F H P), untouched_inst. Qed.
Lemma src_stage es b : names es -> in_stage H es -> src H (abs_path es) = Some b -> exists rs, b = abs_path rs /\ instances H es rs /\ height H b < height H (abs_path es).
Proof.
  intros He Hh Es. rewrite src_fin in Es. destruct (src_instances layers H1 F H wf P es b He Hh Es) as (rs & -> & I). exists rs. split; [reflexivity|]. split; [exact I|].
  apply (source_lower layers H1 F H _ _ P); [|exact Es]. now rewrite <- (fin_here layers H1 F H P).
Qed.

(** How the lists are handed out. *)
Definition handed_out (K : codes) : Prop := forall p, here H p = true ->
  match spoken H p with
  | Some k => shown H K p = Some k
  | None => match src H p with
            | Some b => shown H K p = shown H K b
            | None => exists k, In k (layer_bases H p) /\ shown H K p = Some k
            end
  end.

Section Share.
Lemma share_eq K p : share H K p = match src H p with None => K | Some b => if has_opinion (lines_of H (shown H K p)) then K else match shown H K b with Some i => dset p i K | None => K end end.
Proof. unfold share, src. destruct (inst_of H p) as [b|]; [|reflexivity]. now destruct (str_eqb b WORLD || negb (here H b)). Qed.
Lemma share_other K p q : q <> p -> dget q (share H K p) = dget q K.
Proof.
  intros Hn. rewrite share_eq. destruct (src H p) as [b|]; [|reflexivity]. destruct (has_opinion _); [reflexivity|]. destruct (shown H K b); [|reflexivity]. rewrite dget_dset.
  destruct (str_eqb p q) eqn:E; [apply str_eqb_eq in E; congruence|reflexivity].
Qed.
Lemma shown_other K K' q : dget q K' = dget q K -> shown H K' q = shown H K q.
Proof. intros E. unfold shown. now rewrite E. Qed.
Lemma fold_other l : forall K q, ~ In q l -> dget q (fold_left (share H) l K) = dget q K.
Proof.
  induction l as [|p l IH]; intros K q Hq; [reflexivity|]. cbn [fold_left]. rewrite IH by (intros Q; apply Hq; now right). apply share_other. intros ->. apply Hq. now left.
Qed.
Lemma fold_share l : forall K, NoDup l -> (forall l1 p l2 b, l = l1 ++ p :: l2 -> src H p = Some b -> ~ In b (p :: l2)) ->
  forall p, In p l -> let K' := fold_left (share H) l K in
  shown H K' p = match src H p with None => shown H K p | Some b => if has_opinion (lines_of H (shown H K p)) then shown H K p else match shown H K' b with Some i => Some i | None => shown H K p end end.
Proof.
  induction l as [|q l IH]; intros K Nd Ord p Hp; [destruct Hp|]. cbn [fold_left]. inversion Nd as [|? ? Hq Nd']; subst. cbv zeta. destruct Hp as [->|Hp].
  - rewrite (shown_other (share H K p) _ p) by (now apply fold_other). rewrite share_eq. destruct (src H p) as [b|] eqn:Es; [|reflexivity].
    destruct (has_opinion _) eqn:Eo; [reflexivity|]. assert (Nb : b <> p /\ ~ In b l). { specialize (Ord [] p l b eq_refl Es). split; intros Q; apply Ord; [now left|now right]. }
    assert (Eb : shown H K b = shown H (fold_left (share H) l match shown H K b with Some i => dset p i K | None => K end) b).
    { symmetry. apply shown_other. rewrite fold_other by apply Nb. destruct (shown H K b); [|reflexivity]. rewrite dget_dset. destruct (str_eqb p b) eqn:E; [apply str_eqb_eq in E; destruct Nb; congruence|reflexivity]. }
    rewrite <- Eb. destruct (shown H K b) as [i|]; [|reflexivity]. unfold shown. rewrite dget_dset, str_eqb_refl. reflexivity.
  - assert (Hn : p <> q) by (intros ->; contradiction). specialize (IH (share H K q) Nd'). rewrite IH; [|intros l1 x l2 b E; apply (Ord (q :: l1) x l2 b); now rewrite E|exact Hp].
    rewrite (shown_other K (share H K q) p) by (now apply share_other). reflexivity.
Qed.
End Share.

Lemma sorted_sources : NoDup (sort_instances H) /\ (forall p, In p (sort_instances H) <-> here H p = true) /\
  forall l1 p l2 b, sort_instances H = l1 ++ p :: l2 -> src H p = Some b -> ~ In b (p :: l2).
Proof.
  destruct (SortProofs.sort_rows_spec (fun p => length (trace H p)) (dkeys (comps H))) as (Pm & SS & _). change (sort_multidimensional_list (fun p => length (trace H p)) (dkeys (comps H))) with (sort_instances H) in *.
  assert (Nd : NoDup (sort_instances H)).
  { apply (Permutation_NoDup (Permutation_sym Pm)). destruct (post_structure _ F (p_good _ _ _ _ P) H (p_post _ _ _ _ P)) as (_ & K & _). rewrite K. apply (p_good _ _ _ _ P). }
  assert (Hin : forall p, In p (sort_instances H) <-> here H p = true).
  { intros p. rewrite here_In. split; apply Permutation_in; [exact Pm|now apply Permutation_sym]. }
  split; [exact Nd|]. split; [exact Hin|]. intros l1 p l2 b El Es. assert (Hp : here H p = true). { apply Hin. rewrite El. apply in_or_app. right. now left. }
  assert (L : length (trace H b) < length (trace H p)).
  { apply (trace_longer H (height H)); [| |exact Hp|exact Es].
    - rewrite (fin_inst_same layers H1 F H P). apply (t_world _ (fin_tree layers H1 F H P)).
    - intros y z Ey Hy. rewrite src_fin in Ey. apply (source_lower layers H1 F H _ _ P); [|exact Ey]. now rewrite <- (fin_here layers H1 F H P). }
  rewrite El in SS. intros [F1|F1]; [subst; lia|]. clear -SS F1 L. induction l1 as [|y l1 IH]; cbn in SS; inversion SS as [|? ? SS' Fa]; subst; [|now apply IH].
  rewrite Forall_forall in Fa. specialize (Fa _ F1). unfold SortProofs.le_key in Fa. lia.
Qed.
Lemma pre_codes_get p : here H p = true -> dget p (pre_codes H) = spoken H p.
Proof.
  intros Hp. apply here_In in Hp. unfold pre_codes. induction (dkeys (comps H)) as [|q l IH]; [destruct Hp|]. cbn [flat_map].
  destruct (str_eqb q p) eqn:E.
  - apply str_eqb_eq in E as ->. destruct (spoken H p) as [k|] eqn:Es; [cbn [app dget]; now rewrite str_eqb_refl|]. cbn [app]. clear -Es. induction l as [|q l IH]; [reflexivity|]. cbn [flat_map].
    destruct (spoken H q) eqn:Eq; cbn [app]; [|exact IH]. cbn [dget]. destruct (str_eqb q p) eqn:E; [apply str_eqb_eq in E; congruence|exact IH].
  - destruct Hp as [->|Hp]; [rewrite str_eqb_refl in E; discriminate|]. destruct (spoken H q); cbn [app]; [cbn [dget]; rewrite E|]; now apply IH.
Qed.

(** Composition hands them out so. *)
Lemma stage_handed : handed_out (stage_codes H).
Proof.
  destruct sorted_sources as (Nd & Hin & Ord). intros p Hp. destruct (fin_path layers H1 F H P p Hp) as (es & He & ->).
  pose proof (spoken_said es He Hp) as Sp. pose proof (fold_share (sort_instances H) (pre_codes H) Nd Ord (abs_path es) (proj2 (Hin _) Hp)) as E. cbv zeta in E. fold (stage_codes H) in E.
  assert (E0 : shown H (pre_codes H) (abs_path es) = match spoken H (abs_path es) with Some k => Some k | None => hd_error (layer_bases H (abs_path es)) end) by (unfold shown; now rewrite pre_codes_get).
  destruct (bases_flat layers H1 F H P _ Hp) as (_ & Hne & _). destruct (spoken H (abs_path es)) as [k|] eqn:Es.
  - rewrite E, E0. destruct (src H (abs_path es)) as [b|]; [|reflexivity]. destruct Sp as (_ & Ek & Eo). cbn [lines_of]. now rewrite Ek, Eo.
  - destruct (layer_bases H (abs_path es)) as [|k is] eqn:Eb; [congruence|]. cbn [hd_error] in E0. destruct (src H (abs_path es)) as [b|] eqn:Er.
    + rewrite E0 in E. cbn [lines_of] in E. destruct Sp as (_ & Sp). rewrite (Sp k) in E by now left. cbn [has_opinion] in E. rewrite E.
      destruct (src_stage es b He Hp Er) as (rs & -> & (Hr & _ & Hrh & _) & _). destruct (shown H (stage_codes H) (abs_path rs)) as [i|] eqn:Ei; [reflexivity|]. exfalso. unfold shown in Ei. destruct (dget (abs_path rs) (stage_codes H)) as [i|]; [discriminate|].
      destruct (bases_flat layers H1 F H P _ Hrh) as (_ & Hnr & _). now destruct (layer_bases H (abs_path rs)).
    + exists k. split; [now left|]. now rewrite E, E0.
Qed.

(** ... and then every node shows the lines composition gives it. *)
Lemma handed_lines K es : handed_out K -> names es -> in_stage H es -> attr H (abs_path es) COMPUTE = lines_of H (shown H K (abs_path es)).
Proof.
  intros Ho. remember (height H (abs_path es)) as k eqn:Ek. revert es Ek. induction k as [k IH] using lt_wf_ind. intros es -> He Hh.
  rewrite (stage_said layers H1 F H wf P es COMPUTE He Hh) by (cbn; tauto). rewrite str_eqb_refl. cbn [negb]. rewrite orb_false_r. pose proof (spoken_said es He Hh) as Sp. specialize (Ho _ Hh).
  destruct (spoken H (abs_path es)) as [i|] eqn:Es.
  - destruct Sp as (_ & Ei & Eo). now rewrite Eo, Ho.
  - destruct Sp as (E0 & Ek). rewrite E0. cbn [has_opinion]. rewrite <- src_fin. destruct (src H (abs_path es)) as [b|] eqn:Er.
    + rewrite Ho. destruct (src_stage es b He Hh Er) as (rs & -> & (Hr & _ & Hrh & _) & L). exact (IH _ L rs eq_refl Hr Hrh).
    + destruct Ho as (k & Hk & ->). cbn [lines_of]. now rewrite (Ek k Hk).
Qed.
End Codes.
