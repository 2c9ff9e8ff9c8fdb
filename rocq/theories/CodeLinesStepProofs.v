(** Setting the code of one node keeps the lists in step with a new
    composition. *)

From Coq Require Import String List NArith ZArith Bool Arith Lia Relations Permutation.
From Verif Require Import PyStr PyStrFacts NxtPath PathSpec PathProofs Dict DictFacts ListMerger SortRows Layer PyVal NodeIO PyClass PyClassProofs Live Arcs
  Comp CompSpec CompProofs CompPostProofs CompProxyProofs CompTreeProofs CompLookProofs CompStageProofs StageView StageViewProofs LiveSpec CompLiveProofs CompSimProofs CarrySpec CarryProofs
  DirtyStageSpec DirtyStageProofs CodeLinesSpec CodeLines CodeLinesProofs.
From Verif Require SortProofs LiveBase LiveOrderProofs ArcsProofs Props_Arcs MergeProofs.
Import ListNotations.

Notation alike_but_code := (sim (only COMPUTE)).
Lemma only_code b : b <> COMPUTE -> b <> source_of COMPUTE -> only COMPUTE b = false.
Proof. intros A B. unfold only. apply orb_false_iff. split; now apply str_eqb_neq. Qed.
Lemma code_steers b : In b STRUCTURE -> only COMPUTE b = false.
Proof. apply only_steers. cbn. tauto. Qed.
Lemma F2_trans {X} (R : X -> X -> Prop) l : (forall x y z, R x y -> R y z -> R x z) -> forall m n, Forall2 R l m -> Forall2 R m n -> Forall2 R l n.
Proof. intros T. induction l as [|x l IH]; intros m n F G; inversion F; subst; inversion G; subst; constructor; eauto. Qed.
Lemma sim_trans E H X Y : sim E H X -> sim E X Y -> sim E H Y.
Proof.
  intros (A & B & C) (A' & B' & C'). split; [congruence|]. split.
  - apply (F2_trans _ _ (near_trans E) _ _ B B').
  - refine (F2_trans _ _ _ _ _ C C'). intros x y z (E1 & E2 & E3) (E4 & E5 & E6). split; [congruence|]. split; [congruence|]. now apply near_trans with (own (snd y)).
Qed.

(** *** Setting one list *)

Lemma with_spec_nth H i n j : i < length (specs H) -> nth_error (specs (with_spec H i n)) j = if j =? i then Some n else nth_error (specs H) j.
Proof.
  intros Hi. unfold with_spec. cbn [specs]. destruct (j =? i) eqn:E.
  - apply Nat.eqb_eq in E as ->. rewrite nth_error_app2 by (rewrite firstn_length; lia). rewrite firstn_length. replace (i - Nat.min i (length (specs H))) with 0 by lia. reflexivity.
  - apply Nat.eqb_neq in E. destruct (Nat.lt_ge_cases j i) as [L|L].
    + rewrite nth_error_app1 by (rewrite firstn_length; lia). clear -L Hi. revert j i L Hi. induction (specs H) as [|x l IH]; intros j i L Hi; [cbn in Hi; lia|].
      destruct i as [|i]; [lia|]. destruct j as [|j]; [reflexivity|]. cbn in *. apply IH; lia.
    + rewrite nth_error_app2 by (rewrite firstn_length; lia). rewrite firstn_length. replace (j - Nat.min i (length (specs H))) with (S (j - S i)) by lia. cbn [nth_error].
      clear -L E Hi. revert i j L E Hi. induction (specs H) as [|x l IH]; intros i j L E Hi; [cbn in Hi; lia|]. destruct j as [|j]; [lia|]. destruct i as [|i]; cbn [skipn nth_error]; [f_equal; lia|].
      cbn [length] in Hi. apply (IH i j); lia.
Qed.
Lemma with_spec_near E H i n n' : nth_error (specs H) i = Some n -> near E n n' -> sim E H (with_spec H i n').
Proof.
  intros Ei N. split; [reflexivity|]. split; [|cbn [comps with_spec]; apply F2_refl_of; intros x; split; [reflexivity|]; split; [reflexivity|apply near_refl]].
  unfold with_spec. cbn [specs]. clear -Ei N. revert i Ei. induction (specs H) as [|x l IH]; intros [|i] Ei; try discriminate.
  - cbn in *. injection Ei as ->. constructor; [exact N|]. apply F2_refl_of, near_refl.
  - cbn [nth_error] in Ei. cbn [firstn app skipn]. constructor; [apply near_refl|]. now apply IH.
Qed.
Lemma sync_sim H K : alike_but_code H (sync H K).
Proof.
  split; [reflexivity|]. split; [apply F2_refl_of, near_refl|]. unfold sync. cbn [comps with_comps]. induction (comps H) as [|(p & c) l IH]; constructor; [|].
  - split; [reflexivity|]. split; [reflexivity|]. cbn [snd own]. apply near_sym, near_one; [reflexivity|apply near_refl].
  - assert (G : forall d, Forall2 (knear (only COMPUTE)) d (map (fun kc => (fst kc, {| own := dset COMPUTE (lines_of H (shown H K (fst kc))) (own (snd kc)); cbases := cbases (snd kc) |})) d)); [|apply G].
    clear. induction d as [|(p & c) d IH]; constructor; [|exact IH]. split; [reflexivity|]. split; [reflexivity|]. cbn [snd own]. apply near_sym, near_one; [reflexivity|apply near_refl].
Qed.
Lemma sim_layers H X : alike_but_code H X -> forall p, layer_bases X p = layer_bases H p.
Proof. intros S p. unfold layer_bases. now rewrite (sim_bases _ H X S). Qed.
Lemma sim_shown H X K : alike_but_code H X -> forall p, shown X K p = shown H K p.
Proof. intros S p. unfold shown. now rewrite (sim_layers H X S). Qed.
Lemma sync_own H K p : here H p = true -> own_attr (sync H K) COMPUTE (Co p) = Some (lines_of H (shown H K p)).
Proof.
  unfold here, dmem, own_attr, sync. cbn [comps with_comps]. induction (comps H) as [|(q & c) l IH]; [discriminate|]. cbn [dget map fst snd]. destruct (str_eqb q p) eqn:E; [|exact IH].
  intros _. apply str_eqb_eq in E as ->. cbn [own]. now rewrite dget_dset, str_eqb_refl.
Qed.

(** *** Handing the list on *)

Lemma hand_on_spec H l old ds : forall K, NoDup ds -> (forall d, In d ds -> here H d = true) ->
  (forall d K, In d ds -> existsb (fun r => has_lines H (object_of H K r)) (references (bases_arcs H d)) = false) ->
  (forall d, In d ds -> shown H K d = old) ->
  forall q, shown H (hand_on H K (Some l) ds) q = if str_in q ds then Some l else shown H K q.
Proof.
  induction ds as [|d ds IH]; intros K Nd Hh Hs Ho q; [reflexivity|]. cbn [hand_on]. rewrite (Hh d) by now left. cbn [negb]. rewrite Hs by now left. inversion Nd as [|? ? Hd Nd']; subst.
  destruct (same_list (Some l) (shown H K d) && has_lines H (shown H K d)) eqn:Eb.
  - apply andb_true_iff in Eb as (Eb & _). unfold same_list in Eb. destruct (shown H K d) as [j|] eqn:Ej; [|discriminate]. apply Nat.eqb_eq in Eb as <-.
    destruct (str_in q (d :: ds)) eqn:Eq; [|reflexivity]. apply str_in_In in Eq. rewrite (Ho q Eq), <- (Ho d (or_introl eq_refl)). exact Ej.
  - cbn [give]. rewrite IH; [| exact Nd'|intros; apply Hh; now right|intros; apply Hs; now right|].
    + cbn [str_in existsb]. unfold shown at 1. rewrite dget_dset. destruct (str_in q ds) eqn:Eq; [|].
      * unfold str_in in Eq. rewrite Eq. now rewrite orb_true_r.
      * unfold str_in in Eq. rewrite Eq, orb_false_r. destruct (str_eqb d q) eqn:E.
        -- apply str_eqb_eq in E as ->. now rewrite str_eqb_refl.
        -- destruct (str_eqb q d) eqn:E'; [apply str_eqb_eq in E' as ->; rewrite str_eqb_refl in E; discriminate|]. reflexivity.
    + intros e He. unfold shown. rewrite dget_dset. destruct (str_eqb d e) eqn:E; [apply str_eqb_eq in E as ->; contradiction|]. apply Ho. now right.
Qed.

(** *** The layers after the edit *)

Section Edited.
Variables (layers layers' : list (list layer_row)) (cs : list pystr) (A B : list layer_row) (n : node) (lines : list pyval).
Let n' : node := dset COMPUTE (VList lines) n.
Hypothesis E : numbered layers = A ++ (ns_of cs, n) :: B.
Hypothesis E' : numbered layers' = A ++ (ns_of cs, n') :: B.

Lemma edit_near : near (only COMPUTE) n n'.
Proof. unfold n'. apply near_sym, near_one; [reflexivity|apply near_refl]. Qed.
Lemma edit_rows : Forall2 (row_near (only COMPUTE)) (numbered layers) (numbered layers').
Proof.
  rewrite E, E'. assert (R : forall l, Forall2 (row_near (only COMPUTE)) l l) by (intros l; apply F2_refl_of; intros x; split; [reflexivity|apply near_refl]).
  apply Forall2_app; [apply R|]. constructor; [|apply R]. split; [reflexivity|exact edit_near].
Qed.
Lemma edit_fits : well_formed layers -> well_formed layers'.
Proof.
  intros wf. refine (LiveBase.switch_fits layers layers' _ _ (LiveBase.tracked_spreads COMPUTE ltac:(cbn; tauto)) cs A B n n' wf E E' _ _).
  - intros a Ha. unfold n'. rewrite dget_dset. destruct (str_eqb COMPUTE a) eqn:Q; [|reflexivity]. apply str_eqb_eq in Q. destruct Ha. left. exact Q.
  - intros a Hi Ha. unfold n'. rewrite dget_dset. destruct (str_eqb COMPUTE a) eqn:Q; [discriminate|]. pose proof (proj1 (LiveBase.well_formed_numbered layers) wf (ns_of cs, n)) as Ft.
    destruct Ft as (ds & _ & _ & Ft & _); [rewrite E; apply in_or_app; right; now left|]. now apply Ft.
Qed.
Lemma edit_opinions es : Forall2 (near (only COMPUTE)) (opinions es layers) (opinions es layers').
Proof.
  destruct (LiveBase.switch_opinions layers layers' cs A B n n' E E' es) as (X & Y & -> & -> & _). assert (R : forall l, Forall2 (near (only COMPUTE)) l l) by (intros l; apply F2_refl_of, near_refl).
  apply Forall2_app; [apply R|]. apply Forall2_app; [|apply R]. match goal with |- context [if ?d then _ else _] => destruct d end; [|constructor]. constructor; [exact edit_near|constructor].
Qed.
Lemma edit_same es : ns_of es <> ns_of cs -> opinions es layers = opinions es layers'.
Proof.
  intros Hn. destruct (LiveBase.switch_opinions layers layers' cs A B n n' E E' es) as (X & Y & -> & -> & _). match goal with |- context [if ?d then _ else _] => destruct d as [Q|] end; [congruence|reflexivity].
Qed.
Lemma edit_none es : opinions es layers = [] <-> opinions es layers' = [].
Proof. pose proof (edit_opinions es) as F. split; intros Q; rewrite Q in F; inversion F; reflexivity. Qed.
Lemma near_source l l' v : Forall2 (near (only COMPUTE)) l l' -> (exists m, speaks_first INSTANCE_PATH l' m /\ value m INSTANCE_PATH = v) -> exists m, speaks_first INSTANCE_PATH l m /\ value m INSTANCE_PATH = v.
Proof.
  intros F (m & (s & w & -> & Sy & Si) & V). apply Forall2_app_inv_r in F as (s0 & r0 & F1 & F2 & ->). inversion F2 as [|m0 m1 w0 w1 F3 F4]; subst.
  assert (VI : forall x y, near (only COMPUTE) x y -> value x INSTANCE_PATH = value y INSTANCE_PATH) by (intros x y Q; exact (near_or _ x y INSTANCE_PATH Q (code_steers _ ltac:(cbn; tauto)))).
  exists m0. split; [|now apply VI]. exists s0, w0. split; [reflexivity|]. split; [now rewrite (VI m0 m F3)|]. intros x Hx.
  assert (exists y, In y s /\ near (only COMPUTE) x y) as (y & Hy & Q). { clear -F1 Hx. induction F1 as [|u v l l' Huv _ IH]; [destruct Hx|]. destruct Hx as [<-|Hx]; [exists v; split; [now left|exact Huv]|]. destruct (IH Hx) as (y & ? & ?). exists y. split; [now right|assumption]. }
  rewrite (VI x y Q). now apply Si.
Qed.
Lemma edit_source es rs : source_in layers' es rs -> source_in layers es rs.
Proof. apply near_source, edit_opinions. Qed.
Lemma edit_plain : plain_layers layers -> plain_layers layers'.
Proof.
  intros [wf Gl Pu Lo Cl Wo]. constructor.
  - now apply edit_fits.
  - intros ps nm Hn Ho. destruct (Gl ps nm Hn) as [Q|Q]; [now rewrite edit_none|now left|right; now rewrite <- edit_none].
  - intros a b rs Hab Hb Ho Hr Hrn S. apply (Pu a b rs Hab Hb); auto; [now rewrite edit_none|now apply edit_source].
  - intros es rs He Hr Hrn S. apply (Lo es rs He Hr Hrn). now apply edit_source.
  - intros l r Hl Hr. assert (Hr' : In r (numbered layers')) by (apply LiveBase.numbered_in; eauto). rewrite E' in Hr'.
    assert (Q : forall r, In r (numbered layers) -> exists x, value (snd r) COMPUTE = VList x) by (intros x Hx; apply LiveBase.numbered_in in Hx as (l0 & A1 & A2); now apply (Cl l0)). rewrite E in Q.
    apply in_app_or in Hr' as [Hr'|[<-|Hr']]; [apply Q, in_or_app; now left| |apply Q, in_or_app; right; now right]. exists lines. unfold value, n'. cbn [snd]. now rewrite dget_dset, str_eqb_refl.
  - intros m Hm. assert (exists y, In y (opinions [] layers) /\ near (only COMPUTE) y m) as (y & Hy & Q).
    { pose proof (edit_opinions []) as F. clear -F Hm. induction F as [|u v l l' Huv _ IH]; [destruct Hm|]. destruct Hm as [<-|Hm]; [exists u; split; [now left|exact Huv]|]. destruct (IH Hm) as (y & ? & ?). exists y. split; [now right|assumption]. }
    rewrite <- (Wo y Hy). symmetry. exact (near_or _ y m NAME Q (code_steers _ ltac:(cbn; tauto))).
Qed.
End Edited.

(** *** A stage in step with a composition *)

Record in_step (H X : heap) (K : codes) : Prop := {
  s_sim : alike_but_code H X;
  s_lists : forall p k, here H p = true -> In k (layer_bases H p) -> list_at X k = list_at H k;
  s_reads : forall es, names es -> in_stage H es -> reads X es COMPUTE = Some (lines_of X (shown X K (abs_path es)));
  s_handed : handed_out H K }.

Section Reads.
Variables (layers : list (list layer_row)) (H1 F H : heap).
Hypothesis wf : well_formed layers.
Hypothesis P : parts layers H1 F H.
Hypothesis Cl : code_lists layers.

Lemma handed_in K es : handed_out H K -> names es -> in_stage H es -> exists k q, shown H K (abs_path es) = Some k /\ here H q = true /\ In k (layer_bases H q).
Proof.
  intros Ho. remember (height H (abs_path es)) as k eqn:Ek. revert es Ek. induction k as [k IH] using lt_wf_ind. intros es -> He Hh. pose proof (Ho _ Hh) as Q.
  pose proof (spoken_said layers H1 F H wf P Cl es He Hh) as Sp. destruct (spoken H (abs_path es)) as [i|]; [exists i, (abs_path es); tauto|].
  destruct (src H (abs_path es)) as [b|] eqn:Er.
  - rewrite Q. destruct (src_stage layers H1 F H wf P es b He Hh Er) as (rs & -> & (Hr & _ & Hrh & _) & L). exact (IH _ L rs eq_refl Hr Hrh).
  - destruct Q as (k & Hk & ->). exists k, (abs_path es). auto.
Qed.
Lemma step_reads X K es b : in_step H X K -> names es -> in_stage H es -> b <> source_of COMPUTE -> reads X es b = reads H es b.
Proof.
  intros [S L R Ho] He Hh Hb. destruct (list_eq_dec N.eq_dec b COMPUTE) as [->|Hc].
  - rewrite (R es He Hh), (view_internal layers H1 F H wf P es COMPUTE Hh) by (cbn; tauto). rewrite (handed_lines layers H1 F H wf P Cl K es Ho He Hh). rewrite (sim_shown H X K S).
    destruct (handed_in K es Ho He Hh) as (k & q & -> & Hq & Hk). cbn [lines_of]. now rewrite (L q k Hq Hk).
  - unfold reads. now rewrite (sim_getattr _ H X S) by (now apply only_code).
Qed.
Lemma start_step : in_step H H (stage_codes H).
Proof.
  constructor.
  - apply sim_refl.
  - reflexivity.
  - intros es He Hh. rewrite (view_internal layers H1 F H wf P es COMPUTE Hh) by (cbn; tauto). f_equal. apply (handed_lines layers H1 F H wf P Cl); auto. now apply (stage_handed layers H1 F H wf P).
  - now apply (stage_handed layers H1 F H wf P).
Qed.
End Reads.

Section Relies.
Variables (layers : list (list layer_row)) (fuel : nat) (top : pyval) (one : bool) (H : heap).
Hypothesis Pl : plain_layers layers.
Hypothesis Bu : build_stage fuel top one layers = Built H.

Lemma points_src es rs : rs <> [] -> names rs -> in_stage H rs -> points H es rs <-> names es /\ in_stage H es /\ src H (abs_path es) = Some (abs_path rs).
Proof.
  destruct (built_parts _ _ _ _ _ (l_fits _ Pl) Bu) as (H1 & F & P). intros Hn Hr Hh. rewrite (points_attr layers fuel top one H (l_fits _ Pl) Bu). rewrite (src_fin layers H1 F H P), (fin_src layers H1 F H P). unfold in_stage in *. split.
  - intros (A & B & C). split; [exact A|]. split; [exact B|]. split; [exact C|]. split; [now apply not_world|exact Hh].
  - intros (A & B & C & _). auto.
Qed.
(** What relies on a node in the stage shows in its sources. *)
Lemma relies_src es cs : names cs -> cs <> [] -> in_stage H cs -> relies H es cs ->
  names es /\ in_stage H es /\ height H (abs_path cs) < height H (abs_path es) /\
  exists rs, src H (abs_path es) = Some (abs_path rs) /\ (rs = cs \/ relies H rs cs).
Proof.
  destruct (built_parts _ _ _ _ _ (l_fits _ Pl) Bu) as (H1 & F & P). intros Hc Hn Hh R. apply clos_trans_t1n in R. revert Hc Hn Hh.
  assert (Low : forall es rs, names es -> in_stage H es -> src H (abs_path es) = Some (abs_path rs) -> height H (abs_path rs) < height H (abs_path es)).
  { intros x y Hx Hxh Ex. rewrite (src_fin layers H1 F H P) in Ex. apply (source_lower layers H1 F H _ _ P); [|exact Ex]. unfold in_stage in Hxh. now rewrite <- (fin_here layers H1 F H P). }
  induction R as [es cs Q|es rs cs Q R IH]; intros Hc Hn Hh.
  - apply points_src in Q as (A & B & C); auto. split; [exact A|]. split; [exact B|]. split; [now apply Low|]. exists cs. auto.
  - destruct (IH Hc Hn Hh) as (A & B & L & _). assert (Hrn : rs <> []).
    { intros ->. apply clos_t1n_trans in R. destruct (IH Hc Hn Hh) as (_ & _ & _ & x & Ex & _). change (abs_path []) with WORLD in Ex. unfold src in Ex.
      rewrite (fin_inst_same layers H1 F H P) in Ex. rewrite (t_world _ (fin_tree layers H1 F H P)) in Ex. discriminate. }
    apply points_src in Q as (A' & B' & C'); auto. split; [exact A'|]. split; [exact B'|]. specialize (Low _ _ A' B' C'). split; [lia|]. exists rs. split; [exact C'|]. right. now apply clos_t1n_trans.
Qed.
Lemma src_relies es rs cs : names es -> in_stage H es -> src H (abs_path es) = Some (abs_path rs) -> names rs -> rs = cs \/ relies H rs cs -> relies H es cs.
Proof.
  destruct (built_parts _ _ _ _ _ (l_fits _ Pl) Bu) as (H1 & F & P). intros He Hh Es Hr Hc. assert (Q : points H es rs).
  { apply (points_attr layers fuel top one H (l_fits _ Pl) Bu). rewrite (src_fin layers H1 F H P), (fin_src layers H1 F H P) in Es. destruct Es as (A & _). auto. }
  destruct Hc as [->|Hc]; [now apply t_step|]. apply t_trans with rs; [now apply t_step|exact Hc].
Qed.
End Relies.

(** The references of a node are its spec nodes. *)
Lemma refs_fold H p l : (forall i, In (Sp i) l -> get_arc H p (Sp i) = Some Reference) -> (forall q, In (Co q) l -> get_arc H p (Co q) <> Some Reference) ->
  forall d, references (fold_left (fun d b =>
    match get_arc H p b with
    | Some Reference => {| references := references d ++ [b]; parent_base := parent_base d; instance_base := instance_base d; no_arc := no_arc d |}
    | Some Parent => {| references := references d; parent_base := Some b; instance_base := instance_base d; no_arc := no_arc d |}
    | Some Instance => {| references := references d; parent_base := parent_base d; instance_base := Some b; no_arc := no_arc d |}
    | None => {| references := references d; parent_base := parent_base d; instance_base := instance_base d; no_arc := Some b |}
    end) l d) = references d ++ map Sp (flat_map (fun r => match r with Sp i => [i] | Co _ => [] end) l).
Proof.
  induction l as [|r l IH]; intros Hs Hc d; [cbn; now rewrite app_nil_r|]. cbn [fold_left flat_map]. rewrite IH; [|intros; apply Hs; now right|intros; apply Hc; now right]. destruct r as [i|q].
  - rewrite (Hs i) by now left. cbn [references]. now rewrite <- app_assoc.
  - specialize (Hc q (or_introl eq_refl)). destruct (get_arc H p (Co q)) as [[]|]; try congruence; reflexivity.
Qed.
Lemma stage_refs layers fuel top one H X es : plain_layers layers -> build_stage fuel top one layers = Built H -> alike_but_code H X -> names es -> es <> [] -> in_stage H es ->
  references (bases_arcs X (abs_path es)) = map Sp (layer_bases H (abs_path es)).
Proof.
  intros Pl Bu S He Hn Hh. assert (Ea : bases_arcs X (abs_path es) = bases_arcs H (abs_path es)).
  { symmetry. apply LiveOrderProofs.bases_arcs_ext.
    - intros r a Ha. assert (Q : only COMPUTE a = false) by (apply code_steers; cbn in Ha |- *; tauto). destruct r as [i|q]; cbn [ref_attr].
      + pose proof (sim_nth _ H X S i) as Ni. destruct (nth_error (specs H) i), (nth_error (specs X) i); try contradiction; [|reflexivity]. now apply (near_or (only COMPUTE)).
      + now apply (sim_attr _ H X S).
    - intros r. apply (sim_bases _ H X S).
    - intros q. apply (sim_here _ H X S).
    - apply (sim_count _ H X S). }
  rewrite Ea. destruct es as [|nm ps _] using rev_ind; [congruence|]. destruct (built_parts _ _ _ _ _ (l_fits _ Pl) Bu) as (H1 & F & P).
  assert (Hp : in_stage H ps \/ ps = []) by (destruct (fin_linked layers H1 F H (l_fits _ Pl) P ps nm (l_gapless _ Pl) He Hh); auto).
  assert (St : stage_of layers H) by (now exists fuel, top, one).
  pose proof (Props_Arcs.C53_every_base layers H ps nm (l_fits _ Pl) St (l_world _ Pl) He Hh Hp) as Ar. unfold bases_arcs. rewrite refs_fold; [reflexivity| |].
  - intros i Hi. apply (Ar _ Hi).
  - intros q Hq. rewrite (Ar _ Hq). destruct (str_eqb q (abs_path ps)); discriminate.
Qed.

(** The spec nodes of the layers come first. *)
Lemma row_spec layers fuel top one H k r : well_formed layers -> build_stage fuel top one layers = Built H -> nth_error (numbered layers) k = Some r -> nth_error (specs H) k = Some (snd r).
Proof.
  intros wf Bu Er. destruct (built_parts _ _ _ _ _ wf Bu) as (H1 & F & P). destruct (p_later _ _ _ _ P) as (Kp & _). destruct (k_specs _ _ Kp) as (more & Em).
  rewrite (fin_specs layers H1 F H P), (p_specs _ _ _ _ P), Em. assert (L : k < length (specs (comp_pre_proxies (sorted_layers layers)))).
  { cbn [specs comp_pre_proxies]. rewrite map_length. apply nth_error_Some. change (nth_error (numbered layers) k <> None). congruence. }
  rewrite nth_error_app1 by exact L. cbn [specs comp_pre_proxies]. exact (map_nth_error snd k (numbered layers) Er).
Qed.

Section Step.
Variables (layers layers' : list (list layer_row)) (fuel : nat) (top : pyval) (one : bool) (H H' X : heap) (K : codes).
Variables (cs : list pystr) (A B : list layer_row) (n : node) (lines : list pyval).
Let n' : node := dset COMPUTE (VList lines) n.
Hypothesis Pl : plain_layers layers.
Hypothesis Bu : build_stage fuel top one layers = Built H.
Hypothesis Bu' : build_stage fuel top one layers' = Built H'.
Hypothesis Hc : names cs.
Hypothesis Hn : cs <> [].
Hypothesis E : numbered layers = A ++ (ns_of cs, n) :: B.
Hypothesis E' : numbered layers' = A ++ (ns_of cs, n') :: B.
Hypothesis May : may_set layers H cs A B lines.
Hypothesis St : in_step H X K.
Let p := abs_path cs.
Let i := length A.

Lemma step_sim : alike_but_code H H'.
Proof.
  pose proof (sim_numbered (only COMPUTE) code_steers (only_sources COMPUTE ltac:(cbn; tauto)) fuel top one layers layers' (edit_rows layers layers' cs A B n lines E E')) as S.
  rewrite Bu, Bu' in S. exact S.
Qed.
Lemma cs_opinions : exists U V, opinions cs layers = U ++ n :: V /\ opinions cs layers' = U ++ n' :: V /\ (forall m, In m U -> In (ns_of cs, m) A).
Proof.
  destruct (LiveBase.switch_opinions layers layers' cs A B n n' E E' cs) as (U & V & E1 & E2 & E3). exists U, V. rewrite E1, E2. match goal with |- context [if ?d then _ else _] => destruct d; [|congruence] end. auto.
Qed.
Lemma cs_there : opinions cs layers <> [] /\ in_stage H cs.
Proof.
  assert (Ho : opinions cs layers <> []) by (destruct cs_opinions as (U & V & -> & _); now destruct U). split; [exact Ho|]. destruct (built_parts _ _ _ _ _ (l_fits _ Pl) Bu) as (H1 & F & P).
  unfold in_stage. rewrite (fin_here layers H1 F H P). now apply (fin_layer layers H1 F H (l_fits _ Pl) P).
Qed.
Lemma numbers_app rows rows' q : forall k, numbers k q (rows ++ rows') = numbers k q rows ++ numbers (k + length rows) q rows'.
Proof.
  induction rows as [|r rows IH]; intros k; cbn [app numbers length]; [now rewrite Nat.add_0_r|]. rewrite IH. replace (S k + length rows) with (k + S (length rows)) by lia. now destruct (str_eqb (row_path r) q).
Qed.
Lemma cs_bases : layer_bases H p = numbers 0 p A ++ i :: numbers (S i) p B.
Proof.
  destruct (built_parts _ _ _ _ _ (l_fits _ Pl) Bu) as (H1 & F & P). unfold p. rewrite (bases_numbers layers H1 F H (l_fits _ Pl) P cs Hc (proj1 cs_there)). rewrite E, numbers_app. cbn [numbers].
  assert (Er : row_path (ns_of cs, n) = abs_path cs). { apply (fits_path (ns_of cs, n) cs); [|exact Hc|reflexivity]. apply (proj1 (LiveBase.well_formed_numbered layers) (l_fits _ Pl)). rewrite E. apply in_or_app. right. now left. }
  rewrite Er, str_eqb_refl. reflexivity.
Qed.
Lemma i_spec : nth_error (specs H) i = Some n.
Proof. rewrite (row_spec layers fuel top one H i (ns_of cs, n) (l_fits _ Pl) Bu); [reflexivity|]. rewrite E, nth_error_app2 by (unfold i; lia). unfold i. now rewrite Nat.sub_diag. Qed.

Lemma x_spec : exists nx, nth_error (specs X) i = Some nx /\ near (only COMPUTE) n nx /\ listed_code (attr_or_none nx COMPUTE).
Proof.
  destruct (built_parts _ _ _ _ _ (l_fits _ Pl) Bu) as (H1 & F & P). pose proof (sim_nth _ H X (s_sim _ _ _ St) i) as Ni. rewrite i_spec in Ni. destruct (nth_error (specs X) i) as [nx|] eqn:Ex; [|contradiction]. exists nx. split; [reflexivity|]. split; [exact Ni|].
  assert (Q : list_at X i = list_at H i). { apply (s_lists _ _ _ St p); [exact (proj2 cs_there)|]. rewrite cs_bases. apply in_or_app. right. now left. }
  assert (Lx : list_at X i = attr_or_none nx COMPUTE) by (unfold list_at; now rewrite Ex). rewrite <- Lx, Q. apply (list_listed layers H1 F H (l_fits _ Pl) P (l_code _ Pl) cs i Hc (proj2 cs_there)).
  fold p. rewrite cs_bases. apply in_or_app. right. now left.
Qed.
Lemma spec_place : path_of X (Sp i) = p.
Proof.
  destruct x_spec as (nx & Ex & Ni & _). unfold path_of, ref_attr. rewrite Ex. rewrite <- !(near_or _ n nx _ Ni) by (apply code_steers; cbn; tauto).
  destruct cs_opinions as (U & V & Eo & _). destruct (exists_last Hn) as (ps & nm & Ec). assert (Hc' : names (ps ++ [nm])) by (rewrite <- Ec; exact Hc).
  destruct (opinion_at layers (l_fits _ Pl) ps nm n Hc') as (A1 & A2 & _); [rewrite <- Ec, Eo; apply in_or_app; right; now left|].
  change (attr_or_none n PARENT_PATH) with (value n PARENT_PATH). change (attr_or_none n NAME) with (value n NAME). rewrite A1, A2. cbn [str_of]. unfold p. rewrite Ec. apply join_node_paths_abs. now apply names_comp.
Qed.

Section New.
Variable nx : node.
Hypothesis Ex : nth_error (specs X) i = Some nx.
Hypothesis Nx : near (only COMPUTE) n nx.
Let Hw := with_spec X i (dset COMPUTE (VList lines) nx).

Lemma w_sim : alike_but_code H Hw.
Proof. apply sim_trans with X; [apply St|]. apply (with_spec_near _ X i nx _ Ex). apply near_sym, near_one; [reflexivity|apply near_refl]. Qed.
Lemma w_list k : list_at Hw k = if k =? i then VList lines else list_at X k.
Proof.
  unfold list_at, Hw. rewrite with_spec_nth by (apply nth_error_Some; congruence). destruct (k =? i); [|reflexivity]. unfold attr_or_none. now rewrite dget_dset, str_eqb_refl.
Qed.
Lemma i_in : In i (layer_bases H p). Proof. rewrite cs_bases. apply in_or_app. right. now left. Qed.
Lemma other_number q k : here H q = true -> q <> p -> In k (layer_bases H q) -> k <> i.
Proof.
  destruct (built_parts _ _ _ _ _ (l_fits _ Pl) Bu) as (H1 & F & P). intros Hq Hne Hk ->. apply Hne. exact (bases_own layers H1 F H P q p i Hq (proj2 cs_there) Hk i_in).
Qed.
Lemma new_lists q k : here H q = true -> In k (layer_bases H q) -> list_at H' k = list_at Hw k.
Proof.
  destruct (built_parts _ _ _ _ _ (l_fits _ Pl) Bu) as (H1 & F & P). pose proof (edit_plain layers layers' cs A B n lines E E' Pl) as Pl'. destruct (built_parts _ _ _ _ _ (l_fits _ Pl') Bu') as (H1' & F' & P').
  intros Hq Hk. destruct (fin_path layers H1 F H P q Hq) as (es & He & ->). rewrite w_list. destruct (opinions es layers) as [|d l] eqn:Eo.
  - destruct (bases_said layers H1 F H (l_fits _ Pl) P es He Hq) as (_ & _ & S2). destruct (S2 Eo) as (j & dj & Ej & Ed & V). assert (Hq' : here H' (abs_path es) = true) by (rewrite <- (sim_here _ H H' step_sim); exact Hq).
    destruct (bases_said layers' H1' F' H' (l_fits _ Pl') P' es He Hq') as (_ & _ & S2'). destruct (S2' (proj1 (edit_none layers layers' cs A B n lines E E' es) Eo)) as (j' & dj' & Ej' & Ed' & V').
    rewrite (sim_layers H H' step_sim), Ej in Ej'. injection Ej' as <-. pose proof Hk as Hk'. rewrite Ej in Hk. destruct Hk as [<-|[]].
    assert (Nj : j <> i). { apply (other_number (abs_path es)); [exact Hq| |exact Hk']. intros Q. unfold p in Q. apply path_inj in Q; [|exact He|exact Hc]. rewrite Q in Eo. now apply (proj1 cs_there). }
    apply Nat.eqb_neq in Nj. rewrite Nj. rewrite (s_lists _ _ _ St _ _ Hq Hk'). unfold list_at. rewrite Ed, Ed'. change (value dj' COMPUTE = value dj COMPUTE). congruence.
  - pose proof Hk as Hk'. rewrite (bases_numbers layers H1 F H (l_fits _ Pl) P es He) in Hk by (rewrite Eo; discriminate). apply numbers_nth in Hk as (r & _ & Er & _). rewrite Nat.sub_0_r in Er.
    destruct (k =? i) eqn:Ek.
    + apply Nat.eqb_eq in Ek as ->. unfold list_at. rewrite (row_spec layers' fuel top one H' i (ns_of cs, n') (l_fits _ Pl') Bu').
      * cbn [snd]. unfold n', attr_or_none. now rewrite dget_dset, str_eqb_refl.
      * rewrite E', nth_error_app2 by (unfold i; lia). unfold i. now rewrite Nat.sub_diag.
    + rewrite (s_lists _ _ _ St _ _ Hq Hk'). apply Nat.eqb_neq in Ek. unfold list_at. rewrite (row_spec layers fuel top one H k r (l_fits _ Pl) Bu Er). rewrite (row_spec layers' fuel top one H' k r (l_fits _ Pl') Bu'); [reflexivity|].
      rewrite E in Er. rewrite E'. destruct (Nat.lt_ge_cases k (length A)) as [L|L]; [rewrite nth_error_app1 in * by exact L; exact Er|]. rewrite nth_error_app2 in * by exact L.
      unfold i in Ek. destruct (k - length A) as [|x] eqn:Eq; [lia|]. exact Er.
Qed.
Lemma find_ext_in {T} (f g : T -> bool) l : (forall x, In x l -> f x = g x) -> find f l = find g l.
Proof. induction l as [|x l IH]; intros Q; [reflexivity|]. cbn [find]. rewrite (Q x) by now left. destruct (g x); [reflexivity|]. apply IH. intros; apply Q; now right. Qed.
Lemma spoken_new q : here H q = true -> spoken H' q = find (fun k => has_opinion (list_at Hw k)) (layer_bases H q).
Proof. intros Hq. unfold spoken. rewrite (sim_layers H H' step_sim). apply find_ext_in. intros k Hk. now rewrite (new_lists q k Hq Hk). Qed.
Lemma spoken_other q : here H q = true -> q <> p -> spoken H' q = spoken H q.
Proof.
  intros Hq Hne. rewrite spoken_new by exact Hq. apply find_ext_in. intros k Hk. rewrite w_list. pose proof (other_number q k Hq Hne Hk) as Q. apply Nat.eqb_neq in Q. rewrite Q. now rewrite (s_lists _ _ _ St q k Hq Hk).
Qed.
Lemma numbers_row k rows j : In j (numbers k p rows) -> (forall r, In r rows -> fits r) -> exists m, In (ns_of cs, m) rows /\ nth_error rows (j - k) = Some (ns_of cs, m).
Proof.
  intros Hj Ft. apply numbers_nth in Hj as (r & _ & Er & Ep). pose proof (nth_error_In _ _ Er) as Hr. apply (fits_path r cs (Ft r Hr) Hc) in Ep. exists (snd r). destruct r as [ns m]. cbn [fst snd] in *. subst ns. auto.
Qed.
Lemma stronger_silent j : In j (numbers 0 p A) -> j <> i /\ has_opinion (list_at Hw j) = false.
Proof.
  intros Hj. assert (Ft : forall r, In r A -> fits r). { intros r Hr. apply (proj1 (LiveBase.well_formed_numbered layers) (l_fits _ Pl)). rewrite E. apply in_or_app. now left. }
  destruct (numbers_row 0 A j Hj Ft) as (m & Hm & Em). rewrite Nat.sub_0_r in Em. assert (L : j < length A) by (apply nth_error_Some; intros Q; pose proof (eq_trans (eq_sym Q) Em) as Q2; discriminate Q2).
  split; [unfold i; lia|]. assert (Hk : In j (layer_bases H p)) by (rewrite cs_bases; apply in_or_app; now left). rewrite <- (new_lists p j (proj2 cs_there) Hk).
  unfold list_at. rewrite (row_spec layers' fuel top one H' j (ns_of cs, m) (l_fits _ (edit_plain layers layers' cs A B n lines E E' Pl)) Bu'); [|rewrite E', nth_error_app1 by exact L; exact Em].
  apply no_opinion_says. exact (proj1 May m Hm).
Qed.
Lemma weaker_row j : In j (numbers (S i) p B) -> j <> i /\ exists m, In (ns_of cs, m) B /\ list_at Hw j = value m COMPUTE.
Proof.
  intros Hj. assert (Ft : forall r, In r B -> fits r). { intros r Hr. apply (proj1 (LiveBase.well_formed_numbered layers) (l_fits _ Pl)). rewrite E. apply in_or_app. right. now right. }
  pose proof Hj as Hj'. apply numbers_nth in Hj' as (_ & L & _). destruct (numbers_row (S i) B j Hj Ft) as (m & Hm & Em). split; [lia|]. exists m. split; [exact Hm|].
  assert (Hk : In j (layer_bases H p)) by (rewrite cs_bases; apply in_or_app; right; now right). rewrite <- (new_lists p j (proj2 cs_there) Hk).
  unfold list_at. rewrite (row_spec layers' fuel top one H' j (ns_of cs, m) (l_fits _ (edit_plain layers layers' cs A B n lines E E' Pl)) Bu'); [reflexivity|].
  rewrite E', nth_error_app2 by (unfold i in L; lia). replace (j - length A) with (S (j - S i)) by (unfold i in *; lia). exact Em.
Qed.
Lemma find_skip {T} (f : T -> bool) l r : (forall x, In x l -> f x = false) -> find f (l ++ r) = find f r.
Proof. induction l as [|x l IH]; intros Q; [reflexivity|]. cbn [app find]. rewrite (Q x) by now left. apply IH. intros; apply Q; now right. Qed.
Lemma spoken_here : spoken H' p = if none_of lines then find (fun k => has_opinion (list_at Hw k)) (numbers (S i) p B) else Some i.
Proof.
  rewrite spoken_new by (exact (proj2 cs_there)). rewrite cs_bases, find_skip by (intros x Hx; now apply stronger_silent). cbn [find]. rewrite w_list, Nat.eqb_refl. now destruct lines.
Qed.

Lemma source_there b : src H p = Some b -> source_list X K p = shown H K b.
Proof.
  destruct (built_parts _ _ _ _ _ (l_fits _ Pl) Bu) as (H1 & F & P). intros Es. pose proof Es as Es'. rewrite (src_fin layers H1 F H P), (fin_src layers H1 F H P) in Es'. destruct Es' as (Ei & _ & Hb).
  destruct (fin_path layers H1 F H P b Hb) as (rs & Hr & ->). unfold source_list, inst_of. rewrite <- (sim_attr _ H X (s_sim _ _ _ St) p INSTANCE_PATH) by (apply code_steers; cbn; tauto). rewrite Ei. cbn [as_str].
  assert (Ex' : expand_relative_node_path (abs_path rs) p = Some (abs_path rs)) by (destruct rs as [|x rs]; apply expand_relative_absolute). rewrite Ex'. rewrite <- (sim_here _ H X (s_sim _ _ _ St)), Hb.
  rewrite (sim_shown H X K (s_sim _ _ _ St)). now destruct rs.
Qed.
Lemma source_not_there : src H p = None -> reads H cs INSTANCE_PATH <> Some (VStr (lit "/")) -> source_list X K p = None.
Proof.
  destruct (built_parts _ _ _ _ _ (l_fits _ Pl) Bu) as (H1 & F & P). intros Es Hw0. rewrite (view_internal layers H1 F H (l_fits _ Pl) P cs INSTANCE_PATH (proj2 cs_there)) in Hw0 by (cbn; tauto). fold p in Hw0.
  unfold source_list. assert (Ei : inst_of X p = inst_of H p). { unfold inst_of. now rewrite <- (sim_attr _ H X (s_sim _ _ _ St) p INSTANCE_PATH) by (apply code_steers; cbn; tauto). } rewrite Ei.
  destruct (inst_of H p) as [b|] eqn:Eb; [|reflexivity]. destruct (t_inst _ (fin_tree layers H1 F H P) p b) as [->|(rs & Hr & ->)]; [now rewrite <- (fin_inst_same layers H1 F H P)|reflexivity|].
  assert (Ex' : expand_relative_node_path (abs_path rs) p = Some (abs_path rs)) by (destruct rs as [|x rs]; apply expand_relative_absolute). rewrite Ex'.
  assert (Nh : here X (abs_path rs) = false).
  { rewrite <- (sim_here _ H X (s_sim _ _ _ St)). unfold src in Es. rewrite Eb in Es. destruct (str_eqb (abs_path rs) WORLD) eqn:Ew.
    - apply str_eqb_eq in Ew. exfalso. apply Hw0. f_equal. unfold inst_of in Eb. destruct (attr H p INSTANCE_PATH); try discriminate. cbn [as_str] in Eb. injection Eb as ->. now rewrite Ew.
    - cbn [orb] in Es. destruct (here H (abs_path rs)); [discriminate|reflexivity]. }
  rewrite Nh. now destruct rs.
Qed.
Lemma silent_spoken es : relies H es cs -> spoken H (abs_path es) = None.
Proof.
  destruct (built_parts _ _ _ _ _ (l_fits _ Pl) Bu) as (H1 & F & P). intros R. destruct (relies_src layers fuel top one H Pl Bu es cs Hc Hn (proj2 cs_there) R) as (He & Hh & _).
  pose proof (spoken_said layers H1 F H (l_fits _ Pl) P (l_code _ Pl) es He Hh) as Sp. destruct (spoken H (abs_path es)) as [k|]; [|reflexivity]. destruct Sp as (_ & _ & Sp). exfalso.
  pose proof (proj1 (proj2 May) es R) as Si. unfold said in Sp. destruct (opinions es layers) as [|d l] eqn:Eo; [discriminate|]. destruct (find _ (d :: l)) as [m|] eqn:Ef.
  - apply find_some in Ef as (Hm & _). apply has_opinion_says in Sp. now apply (Si m Hm).
  - pose proof (find_none _ _ Ef d (or_introl eq_refl)) as Q. cbn beta in Q. congruence.
Qed.
Lemma old_shared es : relies H es cs -> shown H K (abs_path es) = shown H K p.
Proof.
  remember (height H (abs_path es)) as k eqn:Ek. revert es Ek. induction k as [k IH] using lt_wf_ind. intros es -> R. destruct (built_parts _ _ _ _ _ (l_fits _ Pl) Bu) as (H1 & F & P).
  destruct (relies_src layers fuel top one H Pl Bu es cs Hc Hn (proj2 cs_there) R) as (He & Hh & _ & rs & Es & Q). pose proof (s_handed _ _ _ St _ Hh) as Ho. rewrite (silent_spoken es R), Es in Ho. rewrite Ho.
  destruct Q as [->|Q]; [reflexivity|]. destruct (src_stage layers H1 F H (l_fits _ Pl) P es _ He Hh Es) as (rs' & Er & (Hr' & _) & L).
  exact (IH _ L rs eq_refl Q).
Qed.
Lemma dirty_relies d : In d (dirties X p) <-> exists es, names es /\ d = abs_path es /\ relies H es cs.
Proof.
  rewrite <- (sim_dirties _ H X (s_sim _ _ _ St)). exact (dirties_relies layers fuel top one H (l_fits _ Pl) (l_gapless _ Pl) (l_pure _ Pl) (l_low _ Pl) Bu cs d Hc Hn).
Qed.
Lemma dirty_silent d K0 : In d (dirties X p) -> existsb (fun r => has_lines Hw (object_of Hw K0 r)) (references (bases_arcs Hw d)) = false.
Proof.
  destruct (built_parts _ _ _ _ _ (l_fits _ Pl) Bu) as (H1 & F & P). intros Hd. apply dirty_relies in Hd as (es & He & -> & R). destruct (relies_src layers fuel top one H Pl Bu es cs Hc Hn (proj2 cs_there) R) as (_ & Hh & L & _).
  assert (Hen : es <> []). { intros ->. destruct (relies_src layers fuel top one H Pl Bu [] cs Hc Hn (proj2 cs_there) R) as (_ & _ & _ & x & Q & _). change (abs_path []) with WORLD in Q. unfold src in Q.
    rewrite (fin_inst_same layers H1 F H P), (t_world _ (fin_tree layers H1 F H P)) in Q. discriminate. }
  rewrite (stage_refs layers fuel top one H Hw es Pl Bu w_sim He Hen Hh). assert (Hne : abs_path es <> p). { intros Q. rewrite Q in L. unfold p in L. lia. }
  destruct (existsb _ _) eqn:Eb; [|reflexivity]. apply existsb_exists in Eb as (r & Hr & Eb). apply in_map_iff in Hr as (k & <- & Hk). exfalso. cbn [object_of] in Eb. unfold has_lines, lines_of in Eb.
  rewrite w_list in Eb. pose proof (other_number _ k Hh Hne Hk) as Nk. apply Nat.eqb_neq in Nk. rewrite Nk in Eb. rewrite (s_lists _ _ _ St _ _ Hh Hk) in Eb.
  rewrite truthy_code in Eb by (now apply (list_listed layers H1 F H (l_fits _ Pl) P (l_code _ Pl) es)). pose proof (silent_spoken es R) as Sp. unfold spoken in Sp. pose proof (find_none _ _ Sp k Hk) as Q. cbn beta in Q. congruence.
Qed.

(** What the node shows afterwards. *)
Definition right_list (l : nat) : Prop :=
  match spoken H' p with
  | Some k => l = k
  | None => match src H p with Some b => Some l = shown H K b | None => In l (layer_bases H p) end
  end.
Lemma new_right : exists l,
  (let inst := if none_of lines then source_list X K p else None in
   let weaker := find (fun r => has_lines Hw (object_of Hw K r)) (references (bases_arcs Hw p)) in
   match inst with
   | Some _ => inst
   | None => match (if none_of lines then weaker else None) with Some r => object_of Hw K r | None => Some i end
   end) = Some l /\ right_list l /\ (none_of lines = false -> l = i).
Proof.
  destruct (built_parts _ _ _ _ _ (l_fits _ Pl) Bu) as (H1 & F & P). cbv zeta. unfold right_list. rewrite spoken_here. fold Hw. destruct (none_of lines) eqn:En; [|exists i; auto].
  assert (El : lines = []) by (destruct lines; [reflexivity|discriminate]). destruct (proj2 (proj2 May) El) as (M1 & M2). destruct (src H p) as [b|] eqn:Es.
  - rewrite (source_there b Es). destruct (src_stage layers H1 F H (l_fits _ Pl) P cs b Hc (proj2 cs_there) Es) as (rs & -> & I & _). pose proof I as (Hr & _ & Hrh & _).
    destruct (handed_in layers H1 F H (l_fits _ Pl) P (l_code _ Pl) K rs (s_handed _ _ _ St) Hr Hrh) as (l & q & Eq & _). rewrite Eq. exists l. split; [reflexivity|]. split; [|discriminate].
    destruct (find _ (numbers (S i) p B)) as [k|] eqn:Ef; [|reflexivity]. exfalso. apply find_some in Ef as (Hk & Q). destruct (weaker_row k Hk) as (_ & m & Hm & Em). fold Hw in Em. rewrite Em in Q.
    apply has_opinion_says in Q. revert Q. apply M2; [now exists rs|exact Hm].
  - rewrite (source_not_there Es M1). pose proof (stage_refs layers fuel top one H Hw cs Pl Bu w_sim Hc Hn (proj2 cs_there)) as Rf. fold p in Rf. rewrite Rf, cs_bases.
    assert (Fm : find (fun r => has_lines Hw (object_of Hw K r)) (map Sp (numbers 0 p A ++ i :: numbers (S i) p B)) = option_map Sp (find (fun k => has_opinion (list_at Hw k)) (numbers (S i) p B))).
    { assert (G : forall l, find (fun r => has_lines Hw (object_of Hw K r)) (map Sp l) = option_map Sp (find (fun k => truthy (list_at Hw k)) l)).
      { induction l as [|x l IH]; [reflexivity|]. cbn [map find]. unfold has_lines at 1. cbn [object_of lines_of]. destruct (truthy (list_at Hw x)); [reflexivity|exact IH]. }
      rewrite G. f_equal. assert (T : forall k, In k (layer_bases H p) -> truthy (list_at Hw k) = has_opinion (list_at Hw k)).
      { intros k Hk. apply truthy_code. rewrite w_list. destruct (k =? i); [now exists lines|]. rewrite (s_lists _ _ _ St p k (proj2 cs_there) Hk). now apply (list_listed layers H1 F H (l_fits _ Pl) P (l_code _ Pl) cs k Hc (proj2 cs_there)). }
      rewrite cs_bases in T. rewrite (find_ext_in _ _ _ T). rewrite find_skip by (intros x Hx; now apply stronger_silent). cbn [find]. rewrite w_list, Nat.eqb_refl, El. reflexivity. }
    rewrite Fm. destruct (find _ (numbers (S i) p B)) as [k|] eqn:Ef; cbn [option_map object_of].
    + exists k. split; [reflexivity|]. split; [reflexivity|discriminate].
    + exists i. split; [reflexivity|]. split; [|discriminate]. apply in_or_app. right. now left.
Qed.
End New.

Lemma src_same Y q : alike_but_code H Y -> src Y q = src H q.
Proof.
  intros S. unfold src. assert (Ei : inst_of Y q = inst_of H q) by (unfold inst_of; now rewrite <- (sim_attr _ H Y S q INSTANCE_PATH) by (apply code_steers; cbn; tauto)). rewrite Ei.
  destruct (inst_of H q) as [b|]; [|reflexivity]. now rewrite <- (sim_here _ H Y S).
Qed.
(** Who shows what afterwards. *)
Lemma handed_new K2 l (ds : list pystr) :
  (forall d, In d ds <-> exists es, names es /\ d = abs_path es /\ relies H es cs) ->
  (forall q, here H q = true -> q <> p -> spoken H' q = spoken H q) ->
  (forall es, relies H es cs -> spoken H (abs_path es) = None) ->
  match spoken H' p with
  | Some k => l = k
  | None => match src H p with Some b => Some l = shown H K b | None => In l (layer_bases H p) end
  end ->
  (forall q, shown H K2 q = if str_in q ds then Some l else if str_eqb q p then Some l else shown H K q) ->
  handed_out H' K2.
Proof.
  intros Hd So Si Rl Sh. destruct (built_parts _ _ _ _ _ (l_fits _ Pl) Bu) as (H1 & F & P).
  assert (Rs : forall es, relies H es cs -> names es /\ in_stage H es /\ height H p < height H (abs_path es) /\ exists rs, src H (abs_path es) = Some (abs_path rs) /\ (rs = cs \/ relies H rs cs))
    by (intros es R; exact (relies_src layers fuel top one H Pl Bu es cs Hc Hn (proj2 cs_there) R)).
  assert (In_ds : forall es, relies H es cs -> str_in (abs_path es) ds = true) by (intros es R; apply str_in_In, Hd; exists es; split; [apply (Rs es R)|auto]).
  assert (Np : str_in p ds = false). { destruct (str_in p ds) eqn:Q; [|reflexivity]. apply str_in_In, Hd in Q as (es & He & Ep & R). destruct (Rs es R) as (_ & _ & L & _). rewrite <- Ep in L. lia. }
  assert (Shp : shown H K2 p = Some l) by (rewrite Sh, Np, str_eqb_refl; reflexivity).
  assert (Shd : forall es, relies H es cs -> shown H K2 (abs_path es) = Some l) by (intros es R; rewrite Sh, (In_ds es R); reflexivity).
  assert (Sho : forall es, names es -> es <> cs -> ~ relies H es cs -> shown H K2 (abs_path es) = shown H K (abs_path es)).
  { intros es He Ne Nr. rewrite Sh. destruct (str_in (abs_path es) ds) eqn:Q.
    - exfalso. apply str_in_In, Hd in Q as (es' & He' & Ee & R). apply path_inj in Ee; [|exact He|exact He']. subst es'. now apply Nr.
    - destruct (str_eqb (abs_path es) p) eqn:Q'; [|reflexivity]. exfalso. apply str_eqb_eq in Q'. apply Ne. now apply path_inj. }
  intros q Hq. rewrite <- (sim_here _ H H' step_sim) in Hq. rewrite (src_same H' q step_sim), (sim_layers H H' step_sim), !(sim_shown H H' K2 step_sim). destruct (fin_path layers H1 F H P q Hq) as (es & He & ->).
  destruct (list_eq_dec (list_eq_dec N.eq_dec) es cs) as [->|Ne].
  - fold p. rewrite Shp. destruct (spoken H' p) as [k|]; [now rewrite Rl|]. destruct (src H p) as [b|] eqn:Es; [|exists l; auto]. rewrite (sim_shown H H' K2 step_sim).
    destruct (src_stage layers H1 F H (l_fits _ Pl) P cs b Hc (proj2 cs_there) Es) as (rs & -> & (Hr & _) & L). rewrite Rl. symmetry. apply Sho; [exact Hr| |].
    + intros ->. lia.
    + intros R. destruct (Rs rs R) as (_ & _ & L' & _). unfold p in L'. lia.
  - assert (Nq : abs_path es <> p) by (intros Q; apply Ne; now apply path_inj). rewrite (So _ Hq Nq). destruct (In_dec (list_eq_dec N.eq_dec) (abs_path es) ds) as [Hi|Hi].
    + apply Hd in Hi as (es' & He' & Ee & R). apply path_inj in Ee; [|exact He|exact He']. subst es'. rewrite (Si es R). destruct (Rs es R) as (_ & _ & _ & rs & -> & Q). rewrite (Shd es R), (sim_shown H H' K2 step_sim).
      destruct Q as [->|Q]; [now rewrite <- Shp|now rewrite (Shd rs Q)].
    + assert (Nr : ~ relies H es cs) by (intros R; apply Hi, Hd; exists es; auto). rewrite (Sho es He Ne Nr). pose proof (s_handed _ _ _ St _ Hq) as Ho. destruct (spoken H (abs_path es)); [exact Ho|].
      destruct (src H (abs_path es)) as [b|] eqn:Es; [|exact Ho]. rewrite (sim_shown H H' K2 step_sim). destruct (src_stage layers H1 F H (l_fits _ Pl) P es b He Hq Es) as (rs & -> & (Hr & _) & L).
      rewrite Ho. symmetry. apply Sho; [exact Hr| |].
      * intros ->. apply Nr. apply (src_relies layers fuel top one H Pl Bu es cs cs); auto.
      * intros R. apply Nr. apply (src_relies layers fuel top one H Pl Bu es rs cs); auto.
Qed.
Theorem step_ok : exists X' K', set_node_code_lines X K i lines = Some (X', K', Ok lines) /\ in_step H' X' K'.
Proof.
  destruct (built_parts _ _ _ _ _ (l_fits _ Pl) Bu) as (H1 & F & P). destruct x_spec as (nx & Ex & Nx & (old & El)). unfold set_node_code_lines. rewrite Ex, El. cbv zeta. rewrite spec_place.
  rewrite <- (sim_here _ H X (s_sim _ _ _ St)). change (here H p) with (here H (abs_path cs)). rewrite (proj2 cs_there : here H (abs_path cs) = true). cbn [negb].
  destruct (new_right nx Ex) as (l & El' & Rl & Rn). cbv zeta in El'. fold i p in El'. rewrite El'. set (Hw := with_spec X i (dset COMPUTE (VList lines) nx)) in *. pose proof (w_sim nx Ex) as Sw. fold i in Sw. change (alike_but_code H Hw) in Sw.
  set (pr := if negb (same_list (shown Hw K p) (Some i)) || none_of lines then (give p (Some l) K, Some l) else (K, shown Hw K p)).
  assert (Pr : exists K1, pr = (K1, Some l) /\ forall q, shown H K1 q = if str_eqb q p then Some l else shown H K q).
  { unfold pr. destruct (negb _ || none_of lines) eqn:Eb.
    - exists (give p (Some l) K). split; [reflexivity|]. intros q. unfold shown, give. rewrite dget_dset. destruct (str_eqb p q) eqn:Q.
      + apply str_eqb_eq in Q as ->. now rewrite str_eqb_refl.
      + destruct (str_eqb q p) eqn:Q'; [|reflexivity]. apply str_eqb_eq in Q' as ->. rewrite str_eqb_refl in Q. discriminate.
    - apply orb_false_iff in Eb as (Eb & Hl). apply negb_false_iff in Eb. rewrite (Rn Hl). unfold same_list in Eb. destruct (shown Hw K p) as [j|] eqn:Ej; [|discriminate]. apply Nat.eqb_eq in Eb as ->. exists K. split; [reflexivity|].
      intros q. destruct (str_eqb q p) eqn:Q; [|reflexivity]. apply str_eqb_eq in Q as ->. rewrite <- Ej. symmetry. apply (sim_shown H Hw K Sw). }
  destruct Pr as (K1 & -> & Sh1). set (ds := dirties X p). set (K2 := hand_on Hw K1 (Some l) ds). exists (sync Hw K2), K2. split; [reflexivity|].
  assert (Hd : forall d, In d ds <-> exists es, names es /\ d = abs_path es /\ relies H es cs) by apply dirty_relies.
  assert (Sh2 : forall q, shown H K2 q = if str_in q ds then Some l else if str_eqb q p then Some l else shown H K q).
  { intros q. rewrite <- Sh1. rewrite <- (sim_shown H Hw K2 Sw), <- (sim_shown H Hw K1 Sw). apply (hand_on_spec Hw l (shown H K p)).
    - unfold ds. rewrite <- (sim_dirties _ H X (s_sim _ _ _ St)). apply (stage_nodup fuel top one layers H p Bu).
    - intros d Hi. rewrite <- (sim_here _ H Hw Sw). apply Hd in Hi as (es & He & -> & R). apply (relies_src layers fuel top one H Pl Bu es cs Hc Hn (proj2 cs_there) R).
    - intros d K0 Hi. exact (dirty_silent nx Ex d K0 Hi).
    - intros d Hi. rewrite (sim_shown H Hw K1 Sw), Sh1. apply Hd in Hi as (es & He & -> & R). rewrite (old_shared es R). destruct (str_eqb (abs_path es) p) eqn:Q; [|reflexivity].
      exfalso. apply str_eqb_eq in Q. destruct (relies_src layers fuel top one H Pl Bu es cs Hc Hn (proj2 cs_there) R) as (_ & _ & L & _). rewrite Q in L. unfold p in L. lia. }
  constructor.
  - apply sim_trans with H; [apply sim_sym, step_sim|]. apply sim_trans with Hw; [exact Sw|apply sync_sim].
  - intros q k Hq Hk. rewrite <- (sim_here _ H H' step_sim) in Hq. rewrite (sim_layers H H' step_sim) in Hk. symmetry. exact (new_lists nx Ex q k Hq Hk).
  - intros es He Hh. unfold in_stage in Hh. rewrite <- (sim_here _ H H' step_sim) in Hh. assert (Sy : alike_but_code H (sync Hw K2)) by (apply sim_trans with Hw; [exact Sw|apply sync_sim]).
    unfold reads, getattr. rewrite <- (sim_mro _ H _ Sy). destruct (mro_here layers H1 F H P _ Hh) as (m & Em & _). rewrite Em. unfold mro_of in Em. destruct (mro_laws ref_eqb ref_eqb_eq _ _ _ _ Em) as ((r & ->) & _). cbn [lookup_in]. rewrite sync_own by (now rewrite <- (sim_here _ H Hw Sw)). cbn [option_map snd].
    rewrite (sim_shown H _ K2 Sy), (sim_shown H Hw K2 Sw). reflexivity.
  - apply (handed_new K2 l ds); auto.
    + intros q Hq Hne. apply (spoken_other nx Ex q Hq Hne).
    + apply silent_spoken.
Qed.
End Step.
