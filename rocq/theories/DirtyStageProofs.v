(** The dirty map of a composed stage. *)

From Coq Require Import String List NArith ZArith Bool Arith Lia Relations.
From Verif Require Import PyStr PyStrFacts NxtPath PathSpec PathProofs Dict DictFacts ListMerger SortRows Layer PyVal NodeIO PyClass
  Comp CompSpec CompProofs CompPostProofs CompLookProofs CompTreeProofs CompProxyProofs CompOrderProofs CompStageProofs CompTotalProofs StageView StageViewProofs DirtyStageSpec.
From Verif Require DirtyMap DirtySpec DirtyProofs.
Import ListNotations.

(** *** What registrations keep, a composition keeps *)

Section Keep.
Variable Q : dict (list pystr) -> Prop.
Variables (top : pyval) (one : bool).
Hypothesis step : forall b s t m, Q m -> Q (DirtyMap.extend_dirty_map (fun s => str_eqb s WORLD) b s t m).

Lemma keep_concern H s t : Q (dirty H) -> Q (dirty (concern one H s t)).
Proof. apply step. Qed.
Lemma dirty_child p acc src : dirty (fst (discover_child p acc src)) = dirty (fst acc).
Proof. destruct acc as [H td]. unfold discover_child. cbv zeta. destruct (here H _); [|reflexivity]. destruct (attr H _ INSTANCE_PATH) as [| | |[|]| | | |]; reflexivity. Qed.
Lemma dirty_children p l : forall acc, dirty (fst (fold_left (discover_child p) l acc)) = dirty (fst acc).
Proof. induction l as [|x l IH]; intros acc; [reflexivity|]. cbn [fold_left]. rewrite IH. apply dirty_child. Qed.
Lemma keep_discover H p : Q (dirty H) -> Q (dirty (fst (discover one H p))).
Proof.
  intros K. unfold discover. destruct (possible H p) as [real|]; [|exact K]. cbv zeta. set (H2 := concern one _ real p). assert (K2 : Q (dirty H2)) by (apply keep_concern; exact K).
  set (H3 := if here H2 real then _ else H2). assert (E3 : dirty H3 = dirty H2) by (unfold H3; now destruct (here H2 real)).
  pose proof (dirty_children p (kid_paths H3 real) (H3, [])) as E4. destruct (fold_left _ _ _) as [H4 td]. cbn [fst] in *. now rewrite E4, E3.
Qed.
Lemma keep_discover_all l : forall acc : heap * list (list pystr * pystr * pystr), Q (dirty (fst acc)) ->
  Q (dirty (fst (fold_left (fun acc p => let '(H, to_do) := acc in let '(H, more) := discover one H p in (H, to_do ++ more)) l acc))).
Proof.
  induction l as [|p l IH]; intros [H td] K; [exact K|]. cbn [fold_left]. apply IH. pose proof (keep_discover H p K) as K1. destruct (discover one H p) as [H1 more]. exact K1.
Qed.
Lemma dirty_name_missing H s : dirty (name_missing H s) = dirty H.
Proof. unfold name_missing. cbv zeta. now destruct (_ && _). Qed.
Lemma dirty_add_proxy H sp s t f : dirty (add_proxy H sp s t f) = dirty H.
Proof. unfold add_proxy. cbv zeta. now destruct (_ && _). Qed.
Lemma keep_create H s t : Q (dirty H) -> Q (dirty (fst (create_instance top one H s t))).
Proof.
  intros K. unfold create_instance. cbv zeta. cbn [fst]. apply keep_concern. set (H1 := if here H s then H else name_missing H s).
  assert (E1 : dirty H1 = dirty H) by (unfold H1; destruct (here H s); [reflexivity|apply dirty_name_missing]).
  destruct (here H1 t); [cbn [dirty set_attr with_comps]|rewrite dirty_add_proxy]; now rewrite E1.
Qed.
Lemma keep_create_all (l : list (list pystr * pystr * pystr)) : forall acc : heap * list pystr, Q (dirty (fst acc)) ->
  Q (dirty (fst (fold_left (fun acc r => let '(H, imps) := acc in let '(_, src, tgt) := r in let '(H, i) := create_instance top one H src tgt in (H, if i then imps ++ [tgt] else imps)) l acc))).
Proof.
  induction l as [|[[ns s] t] l IH]; intros [H td] K; [exact K|]. cbn [fold_left]. apply IH. pose proof (keep_create H s t K) as K1. destruct (create_instance top one H s t) as [H1 i]. exact K1.
Qed.
Lemma keep_loop fuel : forall H imps r, Q (dirty H) -> proxy_loop top one fuel H imps = Some r -> Q (dirty (fst r)).
Proof.
  induction fuel as [|f IH]; intros H imps r K E; [discriminate|]. cbn [proxy_loop] in E. unfold discover_all in E. pose proof (keep_discover_all (deep_sort_instances H) (H, []) K) as K1.
  destruct (fold_left _ (deep_sort_instances H) (H, [])) as [H1 td]. unfold create_all in E. pose proof (keep_create_all td (H1, []) K1) as K2. destruct (fold_left _ td (H1, [])) as [H2 more]. cbn [fst] in *.
  destruct td; [injection E as <-; exact K2|exact (IH _ _ _ K2 E)].
Qed.
Lemma dirty_set_bases H p bs H' : set_bases H p bs = Ok H' -> dirty H' = dirty H.
Proof. unfold set_bases. cbv zeta. destruct (all_mros _); [|discriminate]. intros E. injection E as <-. reflexivity. Qed.
Lemma dirty_fold (f : heap -> pystr -> res heap) l : (forall H p H', f H p = Ok H' -> dirty H' = dirty H) -> forall H H', fold_res f l H = Ok H' -> dirty H' = dirty H.
Proof.
  intros F. induction l as [|p l IH]; intros H H' E; cbn [fold_res] in E; [injection E as <-; reflexivity|]. destruct (f H p) as [H1|] eqn:E1; [|discriminate]. cbn [bind] in E. rewrite (IH _ _ E). now apply F with p.
Qed.
Lemma dirty_post H H' : post_proxy_comp H = Ok H' -> dirty H' = dirty H.
Proof.
  unfold post_proxy_comp. cbv zeta. destruct (fold_res post_parent (sort_instances H) H) as [H1|] eqn:E1; [|discriminate]. cbn [bind]. intros E2.
  assert (Pp : forall X p X', post_parent X p = Ok X' -> dirty X' = dirty X).
  { intros X p X' E. unfold post_parent in E. cbv zeta in E. destruct (is_empty _); [now injection E as <-|]. destruct (here X _); [|now injection E as <-]. now apply dirty_set_bases in E. }
  assert (Pi : forall X p X', post_instance X p = Ok X' -> dirty X' = dirty X).
  { intros X p X' E. unfold post_instance in E. destruct (inst_of X p) as [b|]; [|now injection E as <-]. destruct (_ || _); [now injection E as <-|]. unfold safe_add in E. cbv zeta in E.
    assert (Di : forall l X, dirty (fold_left (inherit b p) l X) = dirty X). { clear. induction l as [|a l IH]; intros X; [reflexivity|]. cbn [fold_left]. rewrite IH. unfold inherit. now destruct (has_opinion _). }
    destruct (isin _ _ _); [injection E as <-; exact (Di INSTANCE_ATTRS X)|]. apply dirty_set_bases in E. rewrite E. exact (Di INSTANCE_ATTRS X). }
  now rewrite (dirty_fold post_instance _ Pi _ _ E2), (dirty_fold post_parent _ Pp _ _ E1).
Qed.
Lemma keep_build fuel layers H : Q [] -> build_stage fuel top one layers = Built H -> Q (dirty H).
Proof.
  intros K0 B. unfold build_stage in B. cbv zeta in B. destruct (comp_proxies _ _ _ _) as [F|] eqn:E; [|discriminate]. destruct (post_proxy_comp F) as [H'|] eqn:Ep; [|discriminate]. injection B as ->.
  rewrite (dirty_post _ _ Ep). unfold comp_proxies in E. destruct (proxy_loop _ _ _ _ _) as [[H1 imps]|] eqn:El; [|discriminate]. cbn in E. injection E as <-. cbn [dirty drop_implied with_comps fst].
  refine (keep_loop _ _ _ _ _ El). exact K0.
Qed.
End Keep.

Lemma stage_nodup fuel top one layers H p : build_stage fuel top one layers = Built H -> NoDup (dirties H p).
Proof.
  intros B. assert (L : DirtyProofs.lists_nodup (dirty H)).
  { apply (keep_build DirtyProofs.lists_nodup top one) with (3 := B); [intros b s t m; apply DirtyProofs.extend_nodup|]. split; [constructor|discriminate]. }
  unfold dirties. destruct (DirtyMap.get_node_dirties _ _ _) as [l|] eqn:E; [|constructor]. unfold DirtyMap.get_node_dirties in E. apply (DirtyProofs.dirty_loop_nodup _ _ _ _ _ E).
  unfold dget_def. destruct (dget p (dirty H)) as [x|] eqn:Ex; [|constructor]. exact (proj2 L _ _ Ex).
Qed.

(** *** Every possible instance is registered *)

Section Concerned.
Variables (n : nat) (H0 : heap) (top : pyval) (one : bool).
Notation inv := (inv n H0).

Lemma concern_depends H s t : s <> WORLD -> t <> WORLD -> s <> t -> DirtySpec.depends (dirty (concern one H s t)) s t.
Proof.
  intros Ws Wt Ne. apply str_eqb_neq in Ws, Wt, Ne. unfold concern. cbn [dirty with_dirty]. rewrite Ne, andb_false_r. apply DirtyProofs.extend_depends; auto. discriminate.
Qed.
Lemma discover_concern H p real : possible H p = Some real -> real <> WORLD -> p <> WORLD -> real <> p -> DirtySpec.depends (dirty (fst (discover one H p))) real p.
Proof.
  intros Ep Wr Wp Ne. unfold discover. rewrite Ep. cbv zeta. set (H2 := concern one _ real p). assert (K2 : DirtySpec.depends (dirty H2) real p) by (now apply concern_depends).
  set (H3 := if here H2 real then _ else H2). assert (E3 : dirty H3 = dirty H2) by (unfold H3; now destruct (here H2 real)).
  pose proof (dirty_children p (kid_paths H3 real) (H3, [])) as E4. destruct (fold_left _ _ _) as [H4 td]. cbn [fst] in *. now rewrite E4, E3.
Qed.

(** At the time its node was looked at. *)
Definition registered (Ht R : heap) (ps : list pystr) : Prop := forall real, possible Ht (abs_path ps) = Some real -> real <> WORLD -> abs_path ps <> WORLD -> real <> abs_path ps ->
  DirtySpec.depends (dirty R) real (abs_path ps).
Lemma discover_all_concern l : forall H to_do, inv H -> (forall p, In p l -> here H p = true) ->
  let r := fold_left (fun acc p => let '(H, to_do) := acc in let '(H, more) := discover one H p in (H, to_do ++ more)) l (H, to_do) in
  inv (fst r) /\ later H (fst r) /\ (forall x, here (fst r) x = here H x) /\
  forall ps, names ps -> In (abs_path ps) l -> exists Ht, inv Ht /\ later Ht (fst r) /\ (forall x, here Ht x = here H x) /\ registered Ht (fst r) ps.
Proof.
  induction l as [|p l IH]; intros H to_do I Hh; cbn [fold_left].
  - cbn [fst snd]. split; [exact I|]. split; [apply later_refl|]. split; [reflexivity|]. intros ? ? [].
  - destruct (t_path _ (i_tree _ _ _ I) p (Hh p (or_introl eq_refl))) as (ps & Hps & ->).
    destruct (discover_inv n H0 one H ps I Hps (Hh _ (or_introl eq_refl))) as (I1 & L1 & K1 & _). cbn zeta in *.
    assert (Reg : registered H (fst (discover one H (abs_path ps))) ps) by (intros real; apply discover_concern).
    destruct (discover one H (abs_path ps)) as [H1 more]. cbn [fst snd] in *.
    destruct (IH H1 (to_do ++ more) I1) as (I2 & L2 & K2 & F2).
    + intros q Hq. rewrite K1. apply Hh. now right.
    + cbn zeta in *. split; [exact I2|]. split; [eapply later_trans; eauto|]. split; [intros x; now rewrite K2, K1|]. intros qs Hqs [Eq|Hin].
      * apply path_inj in Eq; [|exact Hps|exact Hqs]. subst qs. exists H. split; [exact I|]. split; [eapply later_trans; eauto|]. split; [reflexivity|]. intros real A B C D. apply L2. now apply Reg.
      * destruct (F2 qs Hqs Hin) as (Ht & A & B & C & D). exists Ht. split; [exact A|]. split; [exact B|]. split; [intros x; now rewrite C, K1|exact D].
Qed.
Lemma loop_concern fuel : forall H imps H' imps', inv H -> proxy_loop top one fuel H imps = Some (H', imps') ->
  forall ps, names ps -> clear H0 ps -> here H' (abs_path ps) = true -> registered H' H' ps.
Proof.
  induction fuel as [|f IH]; intros H imps H' imps' I E; [discriminate|]. cbn [proxy_loop] in E.
  destruct (discover_all_inv n H0 one (deep_sort_instances H) H [] I) as (_ & _ & _ & T1 & _); [intros p Hp; now apply deep_sort_in|intros ? []|].
  destruct (discover_all_concern (deep_sort_instances H) H [] I) as (I1 & L1 & K1 & F1); [intros p Hp; now apply deep_sort_in|]. cbn zeta in *.
  unfold discover_all in E. destruct (fold_left _ (deep_sort_instances H) (H, [])) as [H1 td]. cbn [fst snd] in *.
  destruct (create_all_inv n H0 top one td H1 [] I1 T1) as (I2 & _ & _). cbn zeta in *. unfold create_all in E.
  destruct td as [|r td].
  - cbn [fold_left fst snd] in *. injection E as <- <-. intros ps Hps Hc Hh real Po W1 W2 Ne. rewrite K1 in Hh. destruct (F1 ps Hps) as (Ht & It & Lt & Kt & Rt); [now apply deep_sort_in|].
    destruct (possible_spec H1 ps _ (i_tree _ _ _ I1) Hps Po) as (Ei & (rs & Hrs & Hrn & ->) & _ & Es & Ed). apply Rt; auto. apply possible_intro; auto.
    + rewrite <- Ei. symmetry. apply (stable n H0); auto; [apply Lt|now rewrite Kt].
    + intros D. apply Ed. eapply dirties_later; eauto.
  - set (tl := r :: td) in *. destruct (fold_left _ tl (H1, [])) as [H2 more]. cbn [fst snd] in *. unfold tl in E. exact (IH _ _ _ _ I2 E).
Qed.
End Concerned.

Lemma built_parts_dirty layers fuel top one H : well_formed layers -> build_stage fuel top one layers = Built H ->
  exists H1 F, parts layers H1 F H /\ dirty H = dirty H1 /\
    forall ps, names ps -> clear (comp_pre_proxies (sorted_layers layers)) ps -> here H1 (abs_path ps) = true -> registered H1 H1 ps.
Proof.
  intros wf B. pose proof B as B0. unfold build_stage in B. cbn zeta in B. change (map (sort_multidimensional_list (fun r => length (fst r))) layers) with (sorted_layers layers) in B.
  destruct (comp_proxies top one fuel (comp_pre_proxies (sorted_layers layers))) as [F|] eqn:E; [|discriminate].
  destruct (post_proxy_comp F) as [H'|] eqn:Ep; [|discriminate]. injection B as ->. pose proof (good_pre (sorted_layers layers)) as G0.
  destruct (comp_proxies_keeps top one _ fuel _ _ G0 E) as (G & (_ & K)). unfold comp_proxies in E.
  destruct (proxy_loop top one fuel (comp_pre_proxies (sorted_layers layers)) []) as [[H1 imps]|] eqn:E1; [|discriminate]. cbn in E. injection E as E.
  destruct (loop_inv _ _ top one fuel _ _ _ _ (start_inv layers wf) E1) as (I & L & Li & C). exists H1, F. split; [|split].
  - subst F. split; auto.
    + intros p Hp. unfold here, dmem in Hp |- *. destruct (dget p (comps (comp_pre_proxies (sorted_layers layers)))) as [c|] eqn:Ec; [|discriminate].
      destruct (K _ _ Ec) as (c' & -> & _). reflexivity.
    + intros p c Ec. cbn in Ec. eapply drop_sub; [|exact Ec]. apply (i_good _ _ _ I).
    + intros Gl. rewrite (Li (start_linked layers wf Gl)). now destruct H1.
    + apply (loop_grows top one _ _ fuel _ _ _ _ (start_inv layers wf) E1 G0).
  - rewrite (dirty_post _ _ Ep), <- E. reflexivity.
  - exact (loop_concern _ _ top one fuel _ _ _ _ (start_inv layers wf) E1).
Qed.

(** *** The map is exact *)

Section Exact.
Variables (layers : list (list layer_row)) (fuel : nat) (top : pyval) (one : bool) (H : heap).
Hypotheses (wf : well_formed layers) (Gl : gapless layers) (Pu : pure layers) (Na : no_ancestor_sources layers) (B : build_stage fuel top one layers = Built H).

Lemma sources_not_above es : forall rs, names es -> names rs -> rs <> [] -> here H (abs_path es) = true -> attr H (abs_path es) INSTANCE_PATH = VStr (abs_path rs) -> ~ strict_prefix rs es.
Proof.
  destruct (built_parts _ _ _ _ _ wf B) as (H1 & F & P). induction es as [|nm ps IH] using rev_ind; intros rs He Hr Hrn Hh Ea.
  - intros (x & _ & Q). destruct rs; [congruence|discriminate].
  - destruct (opinions (ps ++ [nm]) layers) as [|d l] eqn:Eo.
    + destruct (fin_copy layers H1 F H wf P ps nm Gl He (start_clear layers wf _ He Pu) Hh Eo) as (rs' & R1 & R2 & R3 & R4 & R5 & R6 & _). rewrite Ea in R6. injection R6 as R6.
      pose proof He as He'. apply names_snoc in He' as (Hp & Hn). apply path_inj in R6; [|exact Hr|apply names_snoc; auto]. subst rs. intros (x & Hx & Q).
      apply (IH rs' Hp R1 R2 R3 R4). destruct (exists_last Hx) as (x' & z & ->). rewrite app_assoc in Q. apply app_inj_tail in Q as (-> & _). exists ([nm] ++ x'). split; [discriminate|]. now rewrite app_assoc.
    + apply Na; auto. apply (fin_clear_source layers H1 F H wf P); auto; [apply start_clear; auto|now rewrite Eo].
Qed.
Lemma points_attr es cs : points H es cs <-> names es /\ here H (abs_path es) = true /\ attr H (abs_path es) INSTANCE_PATH = VStr (abs_path cs).
Proof.
  destruct (built_parts _ _ _ _ _ wf B) as (H1 & F & P). unfold points, in_stage. split; intros (A & C & D); (split; [exact A|]; split; [exact C|]).
  - rewrite (view_internal layers H1 F H wf P) in D; [congruence|exact C|cbn; tauto].
  - rewrite (view_internal layers H1 F H wf P); [congruence|exact C|cbn; tauto].
Qed.
Lemma points_depends es cs : names cs -> cs <> [] -> points H es cs <-> exists t, t = abs_path es /\ names es /\ DirtySpec.depends (dirty H) (abs_path cs) t.
Proof.
  intros Hc Hcn. rewrite points_attr. destruct (built_parts_dirty _ _ _ _ _ wf B) as (H1 & F & P & Ed & Reg). pose proof (p_linked _ _ _ _ P Gl) as EF. rewrite Ed. split.
  - intros (He & Hh & Ea). exists (abs_path es). split; [reflexivity|]. split; [exact He|]. pose proof (fin_not_world layers H1 F H P es _ Ea) as Hen.
    assert (Hs : here H1 (abs_path es) = true) by (rewrite <- EF, <- (fin_here layers H1 F H P); exact Hh).
    apply (Reg es He (start_clear layers wf _ He Pu) Hs); try (apply not_world; assumption).
    + apply (fin_possible layers H1 F H wf P es cs Gl Pu He Hh Hc Hcn Ea). now apply sources_not_above.
    + intros E. apply path_inj in E; [|exact Hc|exact He]. subst cs.
      assert (A : In (Co (abs_path es)) (bs H (Co (abs_path es)))).
      { apply (fin_arc layers H1 F H P); [now rewrite <- (fin_here layers H1 F H P)|]. apply (fin_src layers H1 F H P). split; [exact Ea|]. split; [now apply not_world|exact Hh]. }
      apply (sound_acyclic H _ _ (look_sound _ F H (p_good _ _ _ _ P) (p_post _ _ _ _ P)) A). now apply up_base.
  - intros (t & -> & He & D). destruct (i_edges _ _ _ (p_inv _ _ _ _ P) _ _ D) as (ts & T1 & T2 & T3 & T4 & T5). apply path_inj in T3; [|exact He|exact T1]. subst ts.
    specialize (T5 (start_clear layers wf _ He Pu)). split; [exact He|]. rewrite (fin_here layers H1 F H P), EF. split; [exact T4|]. rewrite (fin_untouched layers H1 F H P _ _ untouched_inst), EF.
    unfold inst_of in T5. destruct (attr H1 (abs_path es) INSTANCE_PATH); try discriminate. cbn [as_str] in T5. congruence.
Qed.
Lemma dirties_relies cs d : names cs -> cs <> [] -> In d (dirties H (abs_path cs)) <-> exists es, names es /\ d = abs_path es /\ relies H es cs.
Proof.
  intros Hc Hcn. rewrite dirties_spec. destruct (built_parts_dirty _ _ _ _ _ wf B) as (H1 & F & P & Ed & _). split.
  - intros D. apply clos_trans_t1n in D. remember (abs_path cs) as p eqn:Ep. revert cs Hc Hcn Ep.
    assert (Edge : forall s t, DirtySpec.depends (dirty H) s t -> exists ts, names ts /\ ts <> [] /\ t = abs_path ts).
    { intros s t D1. rewrite Ed in D1. destruct (i_edges _ _ _ (p_inv _ _ _ _ P) _ _ D1) as (ts & T1 & T2 & T3 & _). eauto. }
    induction D as [p t D|p t u D _ IH]; intros cs Hc Hcn ->.
    + destruct (Edge _ _ D) as (ts & T1 & T2 & ->). exists ts. split; [exact T1|]. split; [reflexivity|]. apply t_step. apply points_depends; auto. exists (abs_path ts). auto.
    + destruct (Edge _ _ D) as (ts & T1 & T2 & ->). destruct (IH ts T1 T2 eq_refl) as (es & A & C & R). exists es. split; [exact A|]. split; [exact C|]. apply t_trans with ts; [exact R|].
      apply t_step. apply points_depends; auto. exists (abs_path ts). auto.
  - intros (es & He & -> & R). clear He. apply clos_trans_tn1 in R. induction R as [cs R|xs cs R R' IH].
    + apply t_step. apply points_depends in R as (t & -> & _ & D); auto.
    + pose proof R as (Hx & Hh & _). assert (Hxn : xs <> []). { apply points_attr in R as (_ & _ & Ea). now apply (fin_not_world layers H1 F H P xs _ Ea). }
      apply t_trans with (abs_path xs); [|now apply IH]. apply t_step. apply points_depends in R as (t & -> & _ & D); auto.
Qed.
End Exact.
