(** Rolling a node back agrees with composing the layers below. *)

From Coq Require Import String List NArith ZArith Bool Arith Lia.
From Verif Require LayerIOProofs MergeProofs.
From Verif Require Import PyStr PyStrFacts NxtPath PathSpec PathProofs Dict DictFacts Resolve ListMerger SortRows Layer LayerOver PyVal NodeIO PyClass PyClassSpec PyClassProofs
  Comp CompSpec CompProofs CompProxyProofs CompPostProofs CompLookProofs CompTreeProofs CompOrderProofs CompStageProofs StageView StageViewProofs DirtyStageSpec DirtyStageProofs
  Props_Comp LocalSpec MroRelProofs LocalProofs AttrNamesSpec DescProofs ArcsProofs Live Infer InferSpec.
Import ListNotations.

Lemma F2_impl {X Y} (Q R : X -> Y -> Prop) l m : (forall x y, Q x y -> R x y) -> Forall2 Q l m -> Forall2 R l m.
Proof. intros I. induction 1; constructor; auto. Qed.

Lemma speaks_first_unique a l m m' : speaks_first a l m -> speaks_first a l m' -> m = m'.
Proof.
  intros (s & w & E & Sm & Ss) (s' & w' & E' & Sm' & Ss'). rewrite E in E'. clear E l. revert s' E' Ss'. induction s as [|x s IH]; intros [|x' s'] E' Ss'; cbn [app] in E'.
  - congruence.
  - injection E' as <- _. destruct (Ss' m (or_introl eq_refl) Sm).
  - injection E' as -> _. destruct (Ss m' (or_introl eq_refl) Sm').
  - injection E' as -> E'. apply (IH (fun z Z => Ss z (or_intror Z)) s' E'). intros z Z. apply Ss'. now right.
Qed.

(** *** Where the spec nodes are *)
Section Rows.
Variable cs : list pystr.
Hypothesis Hc : names cs.
Definition row_is (rows : list layer_row) (n i : nat) (d : data) : Prop := exists j, i = n + j /\ nth_error rows j = Some (ns_of cs, d).
Definition at_cs (r : layer_row) : bool := if list_eq_dec (list_eq_dec N.eq_dec) (fst r) (ns_of cs) then true else false.

Lemma at_cs_path r : fits r -> str_eqb (node_namespace_to_str_path (fst r)) (abs_path cs) = at_cs r.
Proof.
  intros (ds & Hd & E & _). rewrite E, ns_path. unfold at_cs. rewrite E. destruct (list_eq_dec (list_eq_dec N.eq_dec) (ns_of ds) (ns_of cs)) as [Q|Q].
  - apply str_eqb_eq. rewrite <- !ns_path. now rewrite Q.
  - apply str_eqb_neq. intros F. apply Q. apply path_inj in F; auto. now subst.
Qed.
Lemma row_at_spec rows : forall n, (forall r, In r rows -> fits r) -> NoDup (map fst rows) ->
  Forall2 (row_is rows n) (row_at (abs_path cs) n rows) (map snd (filter at_cs rows)) /\ NoDup (row_at (abs_path cs) n rows) /\
  forall i, In i (row_at (abs_path cs) n rows) -> n <= i < n + length rows.
Proof.
  induction rows as [|(ns & d) rows IH]; intros n Hf Nd; [repeat constructor; destruct H|]. cbn [row_at filter map] in *. inversion Nd as [|? ? N1 N2]; subst.
  pose proof (at_cs_path (ns, d) (Hf _ (or_introl eq_refl))) as E. cbn [fst] in E. rewrite E. destruct (at_cs (ns, d)) eqn:Ea.
  - unfold at_cs in Ea. cbn [fst] in Ea. destruct (list_eq_dec (list_eq_dec N.eq_dec) ns (ns_of cs)) as [->|]; [|discriminate].
    assert (Z : filter at_cs rows = []).
    { destruct (filter at_cs rows) as [|r l] eqn:Ef; [reflexivity|]. exfalso. assert (I : In r (filter at_cs rows)) by (rewrite Ef; now left). apply filter_In in I as (I & A).
      unfold at_cs in A. destruct (list_eq_dec (list_eq_dec N.eq_dec) (fst r) (ns_of cs)) as [Q|]; [|discriminate]. apply N1. cbn [fst]. rewrite <- Q. now apply in_map. }
    rewrite Z. cbn [map]. split; [constructor; [|constructor]; exists 0; split; [lia|reflexivity]|]. split; [repeat constructor; intros []|]. intros i [<-|[]]. cbn. lia.
  - destruct (IH (S n) (fun r I => Hf r (or_intror I)) N2) as (A & B & C). split; [|split; [exact B|intros i I; specialize (C i I); cbn [length]; lia]].
    eapply F2_impl; [|exact A]. intros i x (j & -> & Ej). exists (S j). split; [lia|exact Ej].
Qed.
Lemma specs_in_spec tables : forall n, (forall l r, In l tables -> In r l -> fits r) -> one_each tables ->
  Forall2 (row_is (concat tables) n) (specs_in (abs_path cs) n tables) (map snd (filter at_cs (concat tables))) /\ NoDup (specs_in (abs_path cs) n tables) /\
  forall i, In i (specs_in (abs_path cs) n tables) -> n <= i < n + length (concat tables).
Proof.
  induction tables as [|t tables IH]; intros n Hf O; [repeat constructor; destruct H|]. cbn [specs_in concat].
  destruct (row_at_spec t n (fun r => Hf t r (or_introl eq_refl)) (O t (or_introl eq_refl))) as (A & B & C).
  destruct (IH (n + length t) (fun l r I => Hf l r (or_intror I)) (fun l I => O l (or_intror I))) as (A' & B' & C'). split; [|split].
  - rewrite filter_app, map_app. apply Forall2_app.
    + eapply F2_impl; [|exact A]. intros i x (j & -> & Ej). exists j. split; [reflexivity|]. rewrite nth_error_app1; [exact Ej|]. apply nth_error_Some. congruence.
    + eapply F2_impl; [|exact A']. intros i x (j & -> & Ej). exists (length t + j). split; [lia|]. rewrite nth_error_app2 by lia. replace (length t + j - length t) with j by lia. exact Ej.
  - apply NoDup_app_intro; auto. intros i I I'. specialize (C i I). specialize (C' i I'). lia.
  - intros i I. rewrite app_length. apply in_app_or in I as [I|I]; [specialize (C i I)|specialize (C' i I)]; lia.
Qed.
End Rows.

(** *** The nodes a rolled back node draws from *)
Definition SEEN : list pystr := flat_map (fun a => [a; a ++ META_SOURCE]) INSTANCE_ATTRS.
Definition is_sp (r : ref) : bool := match r with Sp _ => true | Co _ => false end.
Lemma sp_front is rest : (forall r, In r rest -> exists q, r = Co q) -> filter is_sp (map Sp is ++ rest) = map Sp is.
Proof.
  intros Hr. rewrite filter_app. assert (E : filter is_sp rest = []).
  { destruct (filter is_sp rest) as [|r l] eqn:E; [reflexivity|]. exfalso. assert (I : In r (filter is_sp rest)) by (rewrite E; now left). apply filter_In in I as (I & A). destruct (Hr r I) as (q & ->). discriminate. }
  rewrite E, app_nil_r. induction is as [|i is IH]; [reflexivity|]. cbn. now rewrite IH.
Qed.

Section Roll.
Variables (layers lower : list (list layer_row)) (H L : heap).
Hypotheses (wfH : well_formed layers) (glH : gapless layers) (BH : stage_of layers H).
Hypotheses (RgL : regular lower) (BL : stage_of lower L) (OeL : one_each lower) (NpL : no_proxies lower).
Variable top : list pystr.
Hypotheses (Ht : names top) (Hth : in_stage L top).
Hypothesis Rb : forall es, draws L top es -> rolls_back H L lower es.
Variables H1 F : heap.
Hypothesis P : parts lower H1 F L.
Let wfL := r_fits lower RgL.
Let glL := r_gapless lower RgL.
Let puL := r_pure lower RgL.

Notation drawn := (draws L top).
Lemma dr_names es : drawn es -> names es. Proof. intros D. now apply (draws_names L top es D Ht Hth). Qed.
Lemma dr_here es : drawn es -> in_stage L es. Proof. intros D. now apply (draws_names L top es D Ht Hth). Qed.
Lemma dr_parent es ds : drawn es -> parent L es ds -> drawn ds.
Proof. intros D K. apply (draws_trans L _ _ _ D). apply draws_parent with ds; [exact K|constructor]. Qed.
Lemma dr_source es rs : drawn es -> instances L es rs -> drawn rs.
Proof. intros D K. apply (draws_trans L _ _ _ D). apply draws_source with rs; [exact K|constructor]. Qed.
Lemma dr_path es fs : drawn es -> drawn fs -> abs_path es = abs_path fs -> es = fs.
Proof. intros D E. apply path_inj; now apply dr_names. Qed.
Lemma dr_lower es fs : drawn es -> draws L es fs -> es = fs \/ tall L (Co (abs_path fs)) < tall L (Co (abs_path es)).
Proof.
  intros D E. induction E as [es|es ds fs K E IH|es rs fs K E IH]; [now left| |]; right.
  - pose proof (one_parent_tall lower L RgL BL es ds (dr_names _ D) (dr_here _ D) K). destruct (IH (dr_parent _ _ D K)) as [->|]; lia.
  - pose proof (one_source_tall lower L RgL BL es rs (dr_here _ D) K). destruct (IH (dr_source _ _ D K)) as [->|]; lia.
Qed.

Definition sps (es : list pystr) : list nat := specs_at lower (abs_path es).
Lemma sps_spec es : names es -> Forall2 (row_is es (concat lower) 0) (sps es) (opinions es lower) /\ NoDup (sps es) /\ forall i, In i (sps es) -> i < length (concat lower).
Proof. intros He. destruct (specs_in_spec es He lower 0 wfL OeL) as (A & B & C). split; [exact A|]. split; [exact B|]. intros i I. now destruct (C i I). Qed.
Lemma sps_nil es : names es -> sps es = [] <-> opinions es lower = [].
Proof. intros He. destruct (sps_spec es He) as (A & _). destruct A; split; congruence. Qed.
Lemma sps_path es fs i : names es -> names fs -> In i (sps es) -> In i (sps fs) -> es = fs.
Proof.
  intros He Hf I J. destruct (sps_spec es He) as (A & _). destruct (sps_spec fs Hf) as (B & _).
  assert (G : forall cs l m, Forall2 (row_is cs (concat lower) 0) l m -> In i l -> exists d, nth_error (concat lower) i = Some (ns_of cs, d)).
  { intros cs l m Q. induction Q as [|x d l m (j & E & Ej) _ IH]; intros Z; [destruct Z|]. destruct Z as [->|Z]; [|auto]. cbn in E. subst. eauto. }
  destruct (G _ _ _ A I) as (d & E). destruct (G _ _ _ B J) as (d' & E'). rewrite E in E'. injection E' as E' _. apply path_inj; auto. rewrite <- !ns_path. now rewrite E'.
Qed.

(** What the node names as its source. *)
Definition matches (es : list pystr) (v : pyval) : Prop :=
  (v = VNone \/ v = VStr [] \/ exists rs, names rs /\ rs <> [] /\ v = VStr (abs_path rs)) /\
  forall rs, names rs -> rs <> [] -> v = VStr (abs_path rs) <-> reads L es INSTANCE_PATH = Some (VStr (abs_path rs)).
Lemma opinion_fits es d : names es -> In d (opinions es lower) -> fits (ns_of es, d).
Proof.
  intros He I. unfold opinions in I. apply in_map_iff in I as (r & <- & I). apply filter_In in I as (I & A). destruct (list_eq_dec (list_eq_dec N.eq_dec) (fst r) (ns_of es)) as [<-|]; [|discriminate].
  apply in_concat in I as (l & Il & Ir). destruct r as (ns & d). exact (wfL l _ Il Ir).
Qed.
Lemma opinion_inst es d : names es -> In d (opinions es lower) ->
  value d INSTANCE_PATH = VNone \/ value d INSTANCE_PATH = VStr [] \/ exists rs, names rs /\ value d INSTANCE_PATH = VStr (abs_path rs).
Proof.
  intros He I. destruct (opinion_fits es d He I) as (cs & Hc & _ & _ & E). cbn [snd] in E. destruct (rev cs); [left; apply E|apply E].
Qed.
Lemma opinion_keys' es d a : names es -> In d (opinions es lower) -> In a internal_keys -> dget a d <> None.
Proof. intros He I Ha. destruct (opinion_fits es d He I) as (cs & _ & _ & K & _). now apply K. Qed.
Lemma opinion_place ps nm d : names (ps ++ [nm]) -> In d (opinions (ps ++ [nm]) lower) -> value d NAME = VStr nm /\ value d PARENT_PATH = VStr (abs_path ps).
Proof.
  intros He I. destruct (opinion_fits _ d He I) as (cs & Hc & E & _ & Z). cbn [fst snd] in E, Z.
  assert (Q : cs = ps ++ [nm]) by (apply path_inj; auto; rewrite <- !ns_path; now rewrite E). subst cs. rewrite rev_app_distr in Z. cbn [rev app] in Z. rewrite rev_involutive in Z. tauto.
Qed.
Lemma opinion_proxy es d : In d (opinions es lower) -> truthy (value d PROXY) = false.
Proof. intros I. unfold opinions in I. apply in_map_iff in I as (r & <- & I). apply filter_In in I as (I & _). apply in_concat in I as (l & Il & Ir). exact (NpL l _ Il Ir). Qed.
Lemma speaks_matches es m : drawn es -> speaks_first INSTANCE_PATH (opinions es lower) m -> matches es (value m INSTANCE_PATH).
Proof.
  intros D Sm. pose proof (dr_names es D) as He. assert (I : In m (opinions es lower)) by (destruct Sm as (s & w & -> & _); apply in_or_app; right; now left).
  assert (Ho : opinions es lower <> []) by (intros E; rewrite E in I; destruct I).
  assert (Hs : forall rs, names rs -> value m INSTANCE_PATH = VStr (abs_path rs) -> source_in lower es rs) by (intros rs _ E; exists m; auto). split.
  - destruct (opinion_inst es m He I) as [->|[->|(rs & Hr & E)]]; auto. right. right. exists rs. split; [exact Hr|]. split; [|exact E].
    destruct (opinions es lower) as [|d rest] eqn:Eo; [congruence|]. destruct (rb_strongest _ _ _ _ (Rb es D) d rest rs Eo Hr) as (A & _); [|exact A]. now apply Hs.
  - intros rs Hr Hn. rewrite (C34_instance_path lower L wfL BL es rs He (one_pure lower RgL es He) Ho Hr Hn). split; [now apply Hs|].
    intros (m' & Sm' & E). now rewrite (speaks_first_unique _ _ _ _ Sm Sm').
Qed.
Lemma first_matches es d rest : drawn es -> opinions es lower = d :: rest -> matches es (value d INSTANCE_PATH).
Proof.
  intros D Eo. pose proof (dr_names es D) as He. destruct (speak_or_silent INSTANCE_PATH (opinions es lower)) as [(m & Sm)|Si].
  - destruct (speaks_matches es m D Sm) as ([A|[A|(rs & Hr & Hn & A)]] & M).
    + exfalso. destruct Sm as (s & w & _ & (S & _) & _). congruence.
    + destruct (opinion_inst es d He) as [E|[E|(rs & Hr & E)]]; [rewrite Eo; now left| | |].
      * rewrite E. split; [now left|]. intros rs Hr Hn. rewrite <- (M rs Hr Hn), A. split; [discriminate|]. destruct rs; discriminate.
      * rewrite E, <- A. split; [right; left; exact A|exact M].
      * exfalso. assert (Sd : speaks_first INSTANCE_PATH (opinions es lower) d). { exists [], rest. split; [exact Eo|]. split; [rewrite E; split; discriminate|intros ? []]. }
        rewrite (speaks_first_unique _ _ _ _ Sm Sd), E in A. destruct rs; discriminate.
    + destruct (rb_strongest _ _ _ _ (Rb es D) d rest rs Eo Hr) as (_ & B); [exists m; auto|]. rewrite B, <- A. split; [|exact M]. right. right. exists rs. auto.
  - assert (Nd : ~ says (value d INSTANCE_PATH)) by (apply Si; rewrite Eo; now left). assert (Ho : opinions es lower <> []) by (rewrite Eo; discriminate).
    destruct (opinion_inst es d He) as [E|[E|(rs & Hr & E)]]; [rewrite Eo; now left| | |]; [|destruct Nd; rewrite E; split; discriminate|destruct Nd; rewrite E; split; discriminate].
    rewrite E. split; [now left|]. intros rs Hr Hn. split; [discriminate|]. intros R. apply (C34_instance_path lower L wfL BL es rs He (one_pure lower RgL es He) Ho Hr Hn) in R as (m & (s & w & Em & Sm & _) & _).
    exfalso. apply (Si m); [rewrite Em; apply in_or_app; right; now left|exact Sm].
Qed.

(** *** The nodes inferred so far: [W] are those not finished *)
Definition dummy_at (K : heap) (es : list pystr) (i : nat) : Prop :=
  length (concat lower) <= i /\ nth_error (specs K) i = Some (dummy_spec H (abs_path es)).
Definition said (K : heap) (es : list pystr) (is : list nat) : Prop :=
  opinions es lower <> [] /\ is = sps es \/ opinions es lower = [] /\ exists i, is = [i] /\ dummy_at K es i.
Definition settled (W : list (list pystr)) (K : heap) (r : ref) : Prop := exists ds, r = Co (abs_path ds) /\ drawn ds /\ here K (abs_path ds) = true /\ ~ In ds W.
Definition rest_ok (W : list (list pystr)) (K : heap) (es : list pystr) (rest : list ref) : Prop :=
  (forall r, In r rest -> settled W K r) /\
  (~ In es W -> rest_of (parent L es) (instances L es) (draws L) rest) /\
  (In es W -> rest = [] \/ exists ds, parent L es ds /\ rest = [Co (abs_path ds)]).
Record shape (W : list (list pystr)) (K : heap) : Prop := {
  s_specs : exists more, specs K = map snd (concat lower) ++ more;
  s_keys : forall p, here K p = true -> exists es, p = abs_path es /\ drawn es;
  s_bases : forall es, drawn es -> here K (abs_path es) = true -> exists is rest, bs K (Co (abs_path es)) = map Sp is ++ rest /\ said K es is /\ rest_ok W K es rest;
  s_waits : forall es, In es W -> drawn es /\ here K (abs_path es) = true;
  s_own : forall p c a, dget p (comps K) = Some c -> dget a (own c) <> None -> In a (INSTANCE_PATH :: SEEN);
  s_inst : forall es c v, drawn es -> dget (abs_path es) (comps K) = Some c -> dget INSTANCE_PATH (own c) = Some v -> matches es v /\ opinions es lower <> [] }.

Lemma rest_co W K es rest : rest_ok W K es rest -> forall r, In r rest -> exists q, r = Co q.
Proof. intros (A & _) r I. destruct (A r I) as (ds & -> & _). eauto. Qed.
Lemma bs_here K p r : In r (bs K (Co p)) -> here K p = true.
Proof. unfold bs, bases_in, here, dmem. destruct (dget p (comps K)); [reflexivity|intros []]. Qed.

Section Shape.
Variables (W : list (list pystr)) (K : heap).
Hypothesis S : shape W K.
Lemma sh_specs i d : nth_error (map snd (concat lower)) i = Some d -> nth_error (specs K) i = Some d.
Proof. intros E. destruct (s_specs _ _ S) as (more & ->). rewrite nth_error_app1; [exact E|]. apply nth_error_Some. congruence. Qed.
Lemma said_lt es is : drawn es -> said K es is -> forall i, In i is -> i < length (specs K).
Proof.
  intros D Sd i I. destruct Sd as [(_ & ->)|(_ & j & -> & _ & E)].
  - destruct (sps_spec es (dr_names _ D)) as (_ & _ & B). specialize (B i I). destruct (s_specs _ _ S) as (more & ->). rewrite app_length, map_length. exact (Nat.lt_le_trans _ _ _ B (Nat.le_add_r _ _)).
  - destruct I as [<-|[]]. apply nth_error_Some. congruence.
Qed.
Lemma said_once es is : drawn es -> said K es is -> NoDup is /\ is <> [].
Proof.
  intros D [(Ho & ->)|(_ & j & -> & _)]; [|split; [repeat constructor; intros []|discriminate]]. split; [apply (sps_spec es (dr_names _ D))|]. intros E. apply Ho. now apply sps_nil; [apply dr_names|].
Qed.
Lemma dummy_inj es fs i : drawn es -> drawn fs -> opinions es lower = [] -> opinions fs lower = [] -> dummy_at K es i -> dummy_at K fs i -> es = fs.
Proof.
  intros D E Oe Of (_ & A) (_ & B). rewrite A in B. injection B as Q1 Q2 _ _.
  pose proof (rb_here _ _ _ _ (Rb es D)) as He. pose proof (rb_here _ _ _ _ (Rb fs E)) as Hf.
  destruct es as [|nm ps _] using rev_ind; [destruct (proj1 (one_root lower L RgL BL) (dr_here _ D) Oe)|]. destruct fs as [|nm' ps' _] using rev_ind; [destruct (proj1 (one_root lower L RgL BL) (dr_here _ E) Of)|].
  destruct (at_place layers H wfH BH ps nm (dr_names _ D) He) as (P1 & P2). destruct (at_place layers H wfH BH ps' nm' (dr_names _ E) Hf) as (P3 & P4).
  rewrite P1, P3 in Q2. rewrite P2, P4 in Q1. injection Q1 as ->. injection Q2 as Q2. apply path_inj in Q2; [now subst|apply dr_names in D; now apply names_snoc in D|apply dr_names in E; now apply names_snoc in E].
Qed.
Lemma said_path es fs is js i : drawn es -> drawn fs -> said K es is -> said K fs js -> In i is -> In i js -> es = fs.
Proof.
  intros D E [(Oe & ->)|(Oe & j & -> & Aj)] [(Of & ->)|(Of & k & -> & Ak)] I J.
  - apply (sps_path es fs i); auto using dr_names.
  - destruct J as [->|[]]. destruct (sps_spec es (dr_names _ D)) as (_ & _ & B). specialize (B _ I). destruct Ak. lia.
  - destruct I as [->|[]]. destruct (sps_spec fs (dr_names _ E)) as (_ & _ & B). specialize (B _ J). destruct Aj. lia.
  - destruct I as [->|[]]. destruct J as [->|[]]. apply (dummy_inj es fs i); auto.
Qed.
Definition fl (p : pystr) : list ref := filter is_sp (bs K (Co p)).
Lemma fl_here p r : In r (fl p) -> exists es, p = abs_path es /\ drawn es /\ here K p = true.
Proof. intros I. apply filter_In in I as (I & _). apply bs_here in I. destruct (s_keys _ _ S p I) as (es & -> & D). eauto. Qed.
Lemma fl_bases es : drawn es -> here K (abs_path es) = true -> exists is rest, fl (abs_path es) = map Sp is /\ bs K (Co (abs_path es)) = map Sp is ++ rest /\ said K es is /\ rest_ok W K es rest.
Proof. intros D Hh. destruct (s_bases _ _ S es D Hh) as (is & rest & E & Sd & Ro). exists is, rest. split; [|auto]. unfold fl. rewrite E. apply sp_front. exact (rest_co _ _ _ _ Ro). Qed.
Lemma fl_owned : owned fl K.
Proof.
  split; [|split].
  - intros p. destruct (here K p) eqn:Hh.
    + destruct (s_keys _ _ S p Hh) as (es & -> & D). destruct (fl_bases es D Hh) as (is & rest & -> & -> & _ & Ro). exists rest. split; [reflexivity|exact (rest_co _ _ _ _ Ro)].
    + exists []. split; [|intros ? []]. unfold fl. destruct (bs K (Co p)) as [|r l] eqn:E; [reflexivity|]. exfalso. rewrite (bs_here K p r) in Hh; [discriminate|]. rewrite E. now left.
  - intros p r I. apply filter_In in I as (_ & A). destruct r; [eauto|discriminate].
  - intros p q i I J. destruct (fl_here _ _ I) as (es & -> & D & Hp). destruct (fl_here _ _ J) as (fs & -> & E & Hq).
    destruct (fl_bases es D Hp) as (is & _ & F1 & _ & S1 & _). destruct (fl_bases fs E Hq) as (js & _ & F2 & _ & S2 & _). rewrite F1 in I. rewrite F2 in J.
    apply in_map_iff in I as (x & Ex & I). apply in_map_iff in J as (y & Ey & J). injection Ex as ->. injection Ey as ->. now rewrite (said_path es fs is js i D E S1 S2 I J).
Qed.
Lemma sh_valid : valid K.
Proof.
  apply valid_bs. intros p r Hp I. destruct (s_keys _ _ S p Hp) as (es & -> & D). destruct (s_bases _ _ S es D Hp) as (is & rest & E & Sd & Ro). rewrite E in I. apply in_app_or in I as [I|I].
  - apply in_map_iff in I as (i & <- & I). exact (said_lt es is D Sd i I).
  - destruct Ro as (A & _). destruct (A r I) as (ds & -> & _ & Hd & _). exact Hd.
Qed.
(** Finished nodes reach finished nodes only. *)
Lemma reach_done es r : up K (Co (abs_path es)) r -> drawn es -> ~ In es W -> forall fs, r = Co (abs_path fs) -> drawn fs -> ~ In fs W.
Proof.
  intros U. remember (Co (abs_path es)) as c eqn:Ec. revert es Ec. induction U as [c|c b d Hb U IH]; intros es -> D N fs E Df.
  - injection E as E. apply dr_path in E; auto. now subst.
  - pose proof (bs_here _ _ _ Hb) as Hh. destruct (s_bases _ _ S es D Hh) as (is & rest & Eb & _ & (A & _)). rewrite Eb in Hb. apply in_app_or in Hb as [Hb|Hb].
    + apply in_map_iff in Hb as (i & <- & _). inversion U as [c E'|c b' d' Hb' _ E1 E2]; subst; [discriminate|destruct Hb'].
    + destruct (A b Hb) as (ds & -> & Dd & _ & Nd). now apply (IH ds).
Qed.

Inductive pair_of : ref -> ref -> Prop :=
| pair_node es : drawn es -> here K (abs_path es) = true -> ~ In es W -> pair_of (Co (abs_path es)) (Co (abs_path es))
| pair_layer es k i i' : drawn es -> here K (abs_path es) = true -> nth_error (layers_of F (abs_path es)) k = Some (Sp i) -> nth_error (fl (abs_path es)) k = Some (Sp i') -> pair_of (Sp i) (Sp i').
Lemma fl_nodup p : NoDup (fl p).
Proof.
  destruct (here K p) eqn:Hp.
  - destruct (s_keys _ _ S p Hp) as (es & -> & D). destruct (fl_bases es D Hp) as (is & _ & -> & _ & Sd & _). apply FinFun.Injective_map_NoDup; [intros x y; congruence|apply (said_once es is D Sd)].
  - destruct (fl p) as [|r l] eqn:E; [constructor|]. exfalso. destruct (fl_here p r) as (_ & _ & _ & Q); [rewrite E; now left|congruence].
Qed.
Lemma fl_nth_once p k k' i : nth_error (fl p) k = Some (Sp i) -> nth_error (fl p) k' = Some (Sp i) -> k = k'.
Proof. intros E E'. apply (proj1 (NoDup_nth_error _) (fl_nodup p)); [apply nth_error_Some; congruence|congruence]. Qed.
Lemma pair_one x y x' y' : pair_of x x' -> pair_of y y' -> (x = y <-> x' = y').
Proof.
  intros A A'. pose proof (proj2 (proj2 (flat_owned _ F (p_good _ _ _ _ P)))) as O. pose proof (proj2 (proj2 fl_owned)) as O'.
  destruct A as [es D Hh N|es k i i' D Hh E E'], A' as [fs D2 Hh2 N2|fs k2 j j' D2 Hh2 E2 E2']; try (split; congruence).
  split; intros Q; injection Q as ->.
  - pose proof (O _ _ j (nth_error_In _ _ E) (nth_error_In _ _ E2)) as Q. rewrite Q in *. rewrite (nth_once _ F (p_good _ _ _ _ P) _ _ _ _ E E2) in *. congruence.
  - pose proof (O' _ _ j' (nth_error_In _ _ E') (nth_error_In _ _ E2')) as Q. rewrite Q in *. rewrite (fl_nth_once _ _ _ _ E' E2') in *. congruence.
Qed.
Lemma here_in_F es : drawn es -> here F (abs_path es) = true.
Proof. intros D. pose proof (dr_here es D) as Q. unfold in_stage in Q. now rewrite (fin_here lower H1 F L P) in Q. Qed.
Lemma dummy_user p a : ~ In a internal_keys -> dget a (dummy_spec H p) = None.
Proof.
  intros Ha. destruct (dget a (dummy_spec H p)) eqn:E; [|reflexivity]. exfalso. apply Ha. apply dget_In in E. unfold dummy_spec in E.
  repeat (destruct E as [E|E]; [injection E as <- _; apply str_in_In; reflexivity|]). destruct E.
Qed.
Lemma fronts es : drawn es -> here K (abs_path es) = true -> exists is is', layers_of F (abs_path es) = map Sp is /\ fl (abs_path es) = map Sp is' /\
  Forall2 (fun i i' => forall a, ~ In a internal_keys -> own_attr L a (Sp i) = own_attr K a (Sp i')) is is'.
Proof.
  intros D Hh. pose proof (dr_names es D) as He. destruct (fl_bases es D Hh) as (is' & _ & Ef & _ & Sd & _).
  destruct Sd as [(Ho & ->)|(Ho & i' & -> & _ & Ei')].
  - destruct (fin_layers lower H1 F L wfL P es He Ho) as (is & El & Lt & Sn). exists is, (sps es). split; [exact El|]. split; [exact Ef|].
    destruct (sps_spec es He) as (Q & _). rewrite <- Sn in Q. revert Q Lt.
    clear El Sn Ef Hh D He Ho. remember (sps es) as js eqn:Ej. clear Ej. revert js. induction is as [|i is IH]; intros js Q Lt; cbn [map spec_nodes flat_map] in Q.
    + inversion Q. constructor.
    + match type of Q with context [match ?o with Some n => [n] | None => [] end] => destruct o as [d|] eqn:E end; [|apply nth_error_None in E; exfalso; exact (Nat.lt_irrefl _ (Nat.lt_le_trans _ _ _ (Lt i (or_introl eq_refl)) E))].
      cbn [app] in Q. inversion Q as [|j ? js' ? (k & Ek & Ej) Q2]; subst. constructor; [|apply IH; [exact Q2|intros x X; apply Lt; now right]].
      intros a _. cbn [own_attr]. rewrite E. rewrite (sh_specs (0 + k) d); [reflexivity|]. exact (map_nth_error snd k _ Ej).
  - destruct es as [|nm ps _] using rev_ind; [destruct (proj1 (one_root lower L RgL BL) (dr_here _ D) Ho)|].
    destruct (fin_made lower H1 F L wfL P ps nm He (here_in_F _ D) Ho) as (i & cm & en & sl & El & Ei). exists [i], [i']. split; [exact El|]. split; [exact Ef|]. constructor; [|constructor]. intros a Ha. cbn [own_attr]. rewrite Ei, Ei', (dummy_user _ a Ha).
    destruct (dget a (proxy_spec nm cm en sl (abs_path ps))) eqn:E1; [destruct Ha; apply (proxy_keys nm cm en sl (abs_path ps)); congruence|reflexivity].
Qed.
Lemma pair_bases x x' : pair_of x x' -> Forall2 pair_of (bs L x) (bs K x').
Proof.
  intros A. destruct A as [es D Hh N|es k i i' D Hh E E']; [|constructor].
  destruct (bases_form lower L H1 F RgL BL P es (dr_names _ D) (dr_here _ D)) as (rest & -> & Rs). destruct (fl_bases es D Hh) as (is' & rest' & Ef & -> & _ & (A & B & _)). apply Forall2_app.
  - destruct (fronts es D Hh) as (is & js & El & El' & Q). rewrite Ef in El'. rewrite El, El'.
    assert (G : forall k j j', nth_error is k = Some j -> nth_error js k = Some j' -> pair_of (Sp j) (Sp j')).
    { intros k j j' E E'. apply pair_layer with es k; [exact D|exact Hh|rewrite El; exact (map_nth_error Sp k is E)|rewrite Ef, El'; exact (map_nth_error Sp k js E')]. }
    clear - Q G. induction Q as [|i i' is js _ _ IH]; [constructor|]. constructor; [apply (G 0); reflexivity|]. apply IH. intros k. apply (G (Datatypes.S k)).
  - rewrite <- (rest_same _ _ _ _ _ _ rest rest' (fun d e => closest_unique _ _ d e) (one_inst_fun L es) (fun d => iff_refl _) (fun d => iff_refl _) (fun r d I => iff_refl _) Rs (B N)) in *. clear B.
    clear Rs. induction rest as [|r rest IH]; [constructor|]. constructor; [|apply IH; intros x X; apply A; now right].
    destruct (A r (or_introl eq_refl)) as (ds & -> & Dd & Hd & Nd). now apply pair_node.
Qed.
Lemma seen_internal a : In a (INSTANCE_PATH :: SEEN) -> In a internal_keys.
Proof. intros I. assert (E : forallb (fun a => str_in a internal_keys) (INSTANCE_PATH :: SEEN) = true) by reflexivity. rewrite forallb_forall in E. apply str_in_In. now apply E. Qed.
Lemma done_mro es : drawn es -> here K (abs_path es) = true -> ~ In es W ->
  exists l l', mro_of L (Co (abs_path es)) = Some l /\ mro_of K (Co (abs_path es)) = Some l' /\ Forall2 pair_of l l'.
Proof.
  intros D Hh N. destruct (one_sound lower L RgL BL) as (_ & So). destruct (So (abs_path es) (dr_here _ D)) as (l & El). pose proof (mro_short _ _ _ _ El) as Es. change (bases_in (comps L)) with (bs L) in Es.
  pose proof (mro_alike ref_eqb ref_eqb_eq pair_of pair_one (bs L) (bs K) pair_bases (length l) _ _ (pair_node es D Hh N)) as M. rewrite Es in M. unfold RO in M.
  destruct (mro ref_eqb (bs K) (length l) (Co (abs_path es))) as [l'|] eqn:El'; [|destruct M]. exists l, l'. split; [exact El|]. split; [exact (mro_enough K _ _ _ sh_valid El')|exact M].
Qed.
Lemma pair_own a x x' : ~ In a internal_keys -> pair_of x x' -> own_attr L a x = own_attr K a x'.
Proof.
  intros Ha A. destruct A as [es D Hh N|es k i i' D Hh E E'].
  - rewrite (own_co _ F L (p_good _ _ _ _ P) (p_post _ _ _ _ P) a Ha (abs_path es)). cbn [own_attr]. destruct (dget (abs_path es) (comps K)) as [c|] eqn:Ec; [|reflexivity].
    destruct (dget a (own c)) eqn:Eo; [|reflexivity]. destruct Ha. apply seen_internal. apply (s_own _ _ S _ _ _ Ec). congruence.
  - destruct (fronts es D Hh) as (is & is' & El & El' & Q). rewrite El in E. rewrite El' in E'. clear El El'. revert k E E'. induction Q as [|j j' is is' Q _ IH]; intros [|k] E E'; try discriminate.
    + injection E as ->. injection E' as ->. now apply Q.
    + exact (IH k E E').
Qed.
Lemma done_reads es a : drawn es -> here K (abs_path es) = true -> ~ In es W -> ~ In a internal_keys -> reads K es a = reads L es a.
Proof.
  intros D Hh N Ha. destruct (done_mro es D Hh N) as (l & l' & El & El' & Q). unfold reads, getattr. rewrite El, El'. symmetry. exact (lookup_alike pair_of _ _ (fun x x' => pair_own a x x' Ha) l l' Q).
Qed.
Lemma done_up es fs : drawn es -> here K (abs_path es) = true -> ~ In es W -> drawn fs -> up K (Co (abs_path es)) (Co (abs_path fs)) <-> draws L es fs.
Proof.
  intros D Hh N Df. destruct (done_mro es D Hh N) as (l & l' & El & El' & Q).
  rewrite <- (draws_mro lower H1 F L wfL P es fs l (dr_names _ D) (dr_here _ D) (dr_names _ Df) El).
  unfold mro_of in El'. destruct (mro_laws ref_eqb ref_eqb_eq _ _ _ _ El') as (_ & _ & Z & _). unfold up, bs. rewrite <- Z. clear - Q. split; intros I.
  - induction Q as [|x x' l l' A _ IH]; [destruct I|]. destruct I as [->|I]; [left|right; auto]. inversion A; congruence.
  - induction Q as [|x x' l l' A _ IH]; [destruct I|]. destruct I as [->|I]; [left|right; auto]. inversion A; congruence.
Qed.
Lemma front_far es ds x : drawn es -> drawn ds -> In es W -> ~ In ds W -> In x (fl (abs_path es)) -> ~ up K (Co (abs_path ds)) x.
Proof.
  intros D Dd Ie Nd I U. pose proof I as I'. apply filter_In in I' as (_ & A). destruct x as [i|]; [|discriminate]. destruct (owner fl K _ i (abs_path es) fl_owned I U) as [E|E]; [discriminate|].
  exact (reach_done ds _ E Dd Nd es eq_refl D Ie).
Qed.
Lemma wait_mro es : In es W -> exists l, mro_of K (Co (abs_path es)) = Some l.
Proof.
  intros I. destruct (s_waits _ _ S es I) as (D & Hh). destruct (fl_bases es D Hh) as (is & rest & Ef & Eb & Sd & (A & _ & B)). destruct (said_once es is D Sd) as (Nd & _).
  assert (Nd' : NoDup (map Sp is)) by (apply FinFun.Injective_map_NoDup; [intros x y; congruence|exact Nd]).
  assert (Z : forall x, In x (map Sp is) -> bs K x = []) by (intros x X; apply in_map_iff in X as (i & <- & _); reflexivity).
  destruct (B I) as [->|(ds & _ & ->)].
  - rewrite app_nil_r in Eb. exists (Co (abs_path es) :: map Sp is). apply (mro_enough K 2 _ _ sh_valid). exact (mro_front_only ref_eqb ref_eqb_eq (bs K) 0 _ (map Sp is) Eb Nd' Z).
  - destruct (A _ (or_introl eq_refl)) as (ds' & E & Dd & Hd & N). injection E as E. rewrite E in *. destruct (done_mro ds' Dd Hd N) as (_ & l & _ & El & _).
    exists (Co (abs_path es) :: map Sp is ++ l). unfold mro_of in El. destruct (mro_laws ref_eqb ref_eqb_eq _ _ _ _ El) as ((t & Et) & Ndl & Hin & _).
    apply (mro_enough K (Datatypes.S (Datatypes.S (length (specs K) + length (comps K)))) _ _ sh_valid). apply (mro_unfold ref_eqb (bs K)). exists (map (fun s => [s]) (map Sp is) ++ [l]), (map Sp is ++ l). rewrite Eb. split; [|split; [|reflexivity]].
    + rewrite !map_app. cbn [map]. change (bs K) with (bases_in (comps K)). rewrite El. f_equal. rewrite (map_map (fun s : ref => [s]) Some). apply map_ext_in. intros x X. apply mro_no_bases. now apply Z.
    + rewrite <- app_assoc. rewrite (c3_front ref_eqb ref_eqb_eq (map Sp is) [l] [Co (abs_path ds')] Nd').
      * rewrite Et in Ndl |- *. cbn [app]. rewrite (c3_single_base ref_eqb ref_eqb_eq _ _ Ndl). reflexivity.
      * intros x X. split; [apply in_map_iff in X as (i & <- & _); intros [Q|[]]; discriminate|]. intros l0 [<-|[]] Y. rewrite <- Ef in X. apply (front_far es ds' x D Dd I N X). now apply Hin.
Qed.
Lemma sh_sound : sound K.
Proof.
  split; [exact sh_valid|]. intros p Hp. destruct (s_keys _ _ S p Hp) as (es & -> & D). destruct (in_dec (list_eq_dec (list_eq_dec N.eq_dec)) es W) as [I|N]; [now apply wait_mro|].
  destruct (done_mro es D Hp N) as (_ & l & _ & El & _). eauto.
Qed.
Lemma sh_all : all_mros K = true.
Proof. apply all_mros_spec. apply sh_sound. Qed.

(** *** Looking at nodes *)
Lemma front_mro es : drawn es -> here K (abs_path es) = true -> exists m, mro_of K (Co (abs_path es)) = Some (Co (abs_path es) :: fl (abs_path es) ++ m).
Proof.
  intros D Hh. destruct (fl_bases es D Hh) as (is & rest & Ef & Eb & _ & Ro). destruct sh_sound as (V & M). destruct (M _ Hh) as (l & El). pose proof El as El'. unfold mro_of in El.
  assert (X1 : forall x, In x (map Sp is) -> bases_in (comps K) x = []) by (intros x X; apply in_map_iff in X as (i & <- & _); reflexivity).
  assert (X2 : forall x b, In x (map Sp is) -> In b rest -> ~ above (bases_in (comps K)) b x).
  { intros x b X Hb U. pose proof X as X'. apply in_map_iff in X' as (i & <- & _). rewrite <- Ef in X. destruct (owner fl K b i (abs_path es) fl_owned X U) as [E|E].
    + destruct (rest_co _ _ _ _ Ro b Hb) as (q & ->). discriminate.
    + apply (sound_acyclic K (Co (abs_path es)) b sh_sound); [unfold bs in *; rewrite Eb; apply in_or_app; now right|exact E]. }
  destruct (mro_front ref_eqb ref_eqb_eq (bases_in (comps K)) _ _ (map Sp is) rest l Eb X1 X2 El) as (ls & m & _ & _ & ->). exists m. rewrite El', Ef. reflexivity.
Qed.
Lemma look_own es a c v : drawn es -> dget (abs_path es) (comps K) = Some c -> dget a (own c) = Some v -> look K (abs_path es) a = v.
Proof.
  intros D Ec Ea. assert (Hh : here K (abs_path es) = true) by (unfold here, dmem; now rewrite Ec). destruct (front_mro es D Hh) as (m & Em). unfold look, getattr. rewrite Em. cbn [lookup_in]. unfold own_attr at 1. now rewrite Ec, Ea.
Qed.
Lemma look_first es a i rest d v : drawn es -> (forall c, dget (abs_path es) (comps K) = Some c -> dget a (own c) = None) -> bs K (Co (abs_path es)) = Sp i :: rest -> nth_error (specs K) i = Some d -> dget a d = Some v -> look K (abs_path es) a = v.
Proof.
  intros D No Eb Ei Ed. assert (Hh : here K (abs_path es) = true) by (apply (bs_here K _ (Sp i)); rewrite Eb; now left). destruct (front_mro es D Hh) as (m & Em). unfold look, getattr. rewrite Em. cbn [lookup_in].
  assert (E : own_attr K a (Co (abs_path es)) = None) by (cbn [own_attr]; destruct (dget (abs_path es) (comps K)) as [c|] eqn:Ec; [now apply No|reflexivity]). rewrite E.
  unfold fl. rewrite Eb. cbn [filter is_sp app lookup_in]. cbn [own_attr]. now rewrite Ei, Ed.
Qed.
Lemma front_first es : drawn es -> here K (abs_path es) = true -> exists i rest d, bs K (Co (abs_path es)) = Sp i :: rest /\ nth_error (specs K) i = Some d /\
  ((exists w, opinions es lower = d :: w) \/ opinions es lower = [] /\ d = dummy_spec H (abs_path es)).
Proof.
  intros D Hh. destruct (s_bases _ _ S es D Hh) as (is & rest & Eb & Sd & _). destruct Sd as [(Ho & ->)|(Ho & i & -> & _ & Ei)].
  - destruct (sps_spec es (dr_names _ D)) as (Q & _). destruct Q as [|i d l w (j & E & Ej) _]; [now destruct Ho|]. cbn in E. subst j. exists i, (map Sp l ++ rest), d. split; [exact Eb|]. split; [|left; eauto].
    apply sh_specs. exact (map_nth_error snd i _ Ej).
  - exists i, rest, (dummy_spec H (abs_path es)). auto.
Qed.
Lemma first_value es a d w : drawn es -> opinions es lower = d :: w -> In a internal_keys -> dget a d = Some (value d a).
Proof. intros D Eo Ha. assert (N : dget a d <> None) by (apply (opinion_keys' es); [now apply dr_names|rewrite Eo; now left|exact Ha]). unfold value. now destruct (dget a d). Qed.
Lemma look_source es : drawn es -> here K (abs_path es) = true -> opinions es lower <> [] -> matches es (look K (abs_path es) INSTANCE_PATH).
Proof.
  intros D Hh Ho. destruct (front_first es D Hh) as (i & rest & d & Eb & Ei & [(w & Eo)|(Eo & _)]); [|contradiction].
  destruct (dget (abs_path es) (comps K)) as [c|] eqn:Ec; [|unfold here, dmem in Hh; now rewrite Ec in Hh]. destruct (dget INSTANCE_PATH (own c)) as [v|] eqn:Ev.
  - rewrite (look_own es _ c v D Ec Ev). now apply (s_inst _ _ S es c v D Ec Ev).
  - rewrite (look_first es INSTANCE_PATH i rest d (value d INSTANCE_PATH) D); auto; [now apply (first_matches es d w)| |].
    + intros c' Ec'. congruence.
    + apply (first_value es _ d w D Eo). apply str_in_In. reflexivity.
Qed.
Lemma look_plain es a : drawn es -> here K (abs_path es) = true -> In a [NAME; PARENT_PATH; PROXY] ->
  (exists d w, opinions es lower = d :: w /\ look K (abs_path es) a = value d a) \/ opinions es lower = [] /\ look K (abs_path es) a = attr H (abs_path es) a.
Proof.
  intros D Hh Ha. destruct (front_first es D Hh) as (i & rest & d & Eb & Ei & Q).
  assert (No : forall c, dget (abs_path es) (comps K) = Some c -> dget a (own c) = None).
  { intros c Ec. destruct (dget a (own c)) eqn:E; [|reflexivity]. exfalso. assert (I : In a (INSTANCE_PATH :: SEEN)) by (apply (s_own _ _ S _ _ _ Ec); congruence). apply str_in_In in I. repeat destruct Ha as [<-|Ha]; try destruct Ha; discriminate I. }
  destruct Q as [(w & Eo)|(Eo & ->)].
  - left. exists d, w. split; [exact Eo|]. apply (look_first es a i rest d _ D No Eb Ei). apply (first_value es _ d w D Eo). repeat destruct Ha as [<-|Ha]; try destruct Ha; apply str_in_In; reflexivity.
  - right. split; [exact Eo|]. apply (look_first es a i rest _ _ D No Eb Ei). repeat destruct Ha as [<-|Ha]; try destruct Ha; reflexivity.
Qed.
Lemma look_dummy_source es : drawn es -> here K (abs_path es) = true -> opinions es lower = [] -> look K (abs_path es) INSTANCE_PATH = attr H (abs_path es) INSTANCE_PATH.
Proof.
  intros D Hh Eo. destruct (front_first es D Hh) as (i & rest & d & Eb & Ei & [(w & Q)|(_ & ->)]); [congruence|]. apply (look_first es _ i rest (dummy_spec H (abs_path es)) _ D); auto.
  intros c Ec. destruct (dget INSTANCE_PATH (own c)) as [v|] eqn:Ev; [|reflexivity]. destruct (s_inst _ _ S es c v D Ec Ev). contradiction.
Qed.
Lemma look_name ps nm : drawn (ps ++ [nm]) -> here K (abs_path (ps ++ [nm])) = true -> look K (abs_path (ps ++ [nm])) NAME = VStr nm.
Proof.
  intros D Hh. destruct (look_plain _ NAME D Hh) as [(d & w & Eo & ->)|(_ & ->)]; [now left| |].
  - apply (opinion_place ps nm d (dr_names _ D)). rewrite Eo. now left.
  - apply (at_place layers H wfH BH ps nm (dr_names _ D)). apply (rb_here _ _ _ _ (Rb _ D)).
Qed.
Lemma path_sp ps nm is i : drawn (ps ++ [nm]) -> said K (ps ++ [nm]) is -> In i is -> path_of K (Sp i) = abs_path (ps ++ [nm]).
Proof.
  intros D Sd I. assert (G : exists d, nth_error (specs K) i = Some d /\ attr_or_none d NAME = VStr nm /\ attr_or_none d PARENT_PATH = VStr (abs_path ps)).
  { destruct Sd as [(Ho & ->)|(Ho & j & -> & _ & Ej)].
    - destruct (sps_spec _ (dr_names _ D)) as (Q & _). assert (Z : exists d, In d (opinions (ps ++ [nm]) lower) /\ nth_error (concat lower) i = Some (ns_of (ps ++ [nm]), d)).
      { clear - Q I. induction Q as [|x d l m (j & E & Ej) _ IH]; [destruct I|]. destruct I as [->|I]; [cbn in E; subst; exists d; split; [now left|exact Ej]|]. destruct (IH I) as (e & A & B). exists e. split; [now right|exact B]. }
      destruct Z as (d & Id & Ed). exists d. split; [apply sh_specs; exact (map_nth_error snd i _ Ed)|]. exact (opinion_place ps nm d (dr_names _ D) Id).
    - destruct I as [<-|[]]. exists (dummy_spec H (abs_path (ps ++ [nm]))). split; [exact Ej|]. destruct (at_place layers H wfH BH ps nm (dr_names _ D) (rb_here _ _ _ _ (Rb _ D))) as (A & B). split; [exact B|exact A]. }
  destruct G as (d & E & A & B). unfold path_of, ref_attr. rewrite E. rewrite A, B. cbn [str_of]. apply join_node_paths_abs. apply names_comp. now apply dr_names.
Qed.

(** *** Adding a base *)
Lemma safe_front es is rest b : drawn es -> In es W -> fl (abs_path es) = map Sp is -> drawn b -> ~ In b W ->
  safe_bases K (map Sp is ++ rest) (abs_path b) = map Sp is ++ safe_bases K rest (abs_path b).
Proof.
  intros D Ie Ef Db Nb. unfold safe_bases. rewrite filter_app. f_equal. rewrite <- Ef. apply (LayerIOProofs.filter_all _ (fl (abs_path es))). intros x X. apply negb_true_iff. apply not_true_is_false. intros A. apply existsb_exists in A as (bb & Hb & A).
  destruct (mro_of K bb) as [l|] eqn:El; [|discriminate]. apply (isin_In ref_eqb ref_eqb_eq) in A. unfold mro_of in El. apply (mro_laws ref_eqb ref_eqb_eq _ _ _ _ El) in A.
  apply (front_far es b x D Db Ie Nb X). eapply above_base; [exact Hb|exact A].
Qed.
Lemma safe_one b ds : drawn b -> here K (abs_path b) = true -> ~ In b W -> drawn ds -> b <> ds ->
  draws L b ds /\ safe_bases K [Co (abs_path ds)] (abs_path b) = [] \/ ~ draws L b ds /\ safe_bases K [Co (abs_path ds)] (abs_path b) = [Co (abs_path ds)].
Proof.
  intros Db Hb Nb Dd Ne. unfold safe_bases. cbn [filter]. match goal with |- context [negb ?x] => destruct x eqn:E end; cbn [negb].
  - left. split; [|reflexivity]. apply existsb_exists in E as (bb & Ib & A). destruct (mro_of K bb) as [l|] eqn:El; [|discriminate]. apply (isin_In ref_eqb ref_eqb_eq) in A. unfold mro_of in El. apply (mro_laws ref_eqb ref_eqb_eq _ _ _ _ El) in A.
    apply (done_up b ds Db Hb Nb Dd). eapply above_base; [exact Ib|exact A].
  - right. split; [|reflexivity]. intros Dr. apply (done_up b ds Db Hb Nb Dd) in Dr. inversion Dr as [c Q|c bb d Ib U]; subst; [apply Ne; apply dr_path; auto; congruence|].
    apply not_true_iff_false in E. apply E. apply existsb_exists. exists bb. split; [exact Ib|]. destruct bb as [i|q].
    + inversion U as [c Q|c b' d Ib' _]; subst; destruct Ib'.
    + destruct sh_sound as (V & M). destruct (M q) as (l & El); [rewrite valid_bs in V; exact (V _ _ Hb Ib)|]. rewrite El. apply (isin_In ref_eqb ref_eqb_eq). unfold mro_of in El. now apply (mro_laws ref_eqb ref_eqb_eq _ _ _ _ El).
Qed.
End Shape.

(** *** Steps *)
Lemma said_more K K' es is : (exists more, specs K' = specs K ++ more) -> said K es is -> said K' es is.
Proof.
  intros (more & E) [Q|(Ho & i & -> & Li & Ei)]; [now left|right]. split; [exact Ho|]. exists i. split; [reflexivity|]. split; [exact Li|]. rewrite E, nth_error_app1; [exact Ei|]. apply nth_error_Some. congruence.
Qed.
Lemma rest_less W W' K K' es rest : (forall p, here K p = true -> here K' p = true) -> incl W' W -> (In es W' <-> In es W) -> rest_ok W K es rest -> rest_ok W' K' es rest.
Proof.
  intros Hh Hi He (A & B & C). split; [|split; [intros N; apply B; now rewrite <- He|intros I; apply C; now rewrite <- He]].
  intros r R. destruct (A r R) as (ds & -> & Dd & Hd & Nd). exists ds. split; [reflexivity|]. split; [exact Dd|]. split; [now apply Hh|]. intros I. apply Nd. now apply Hi.
Qed.
(** Attributes of nodes may change. *)
Lemma touch W K K' : shape W K -> alike K K' ->
  (forall p c a, dget p (comps K') = Some c -> dget a (own c) <> None -> In a (INSTANCE_PATH :: SEEN)) ->
  (forall es c v, drawn es -> dget (abs_path es) (comps K') = Some c -> dget INSTANCE_PATH (own c) = Some v -> matches es v /\ opinions es lower <> []) -> shape W K'.
Proof.
  intros S (A1 & A2 & A3) Ho Hi. assert (Hh : forall p, here K' p = here K p) by (intros p; now apply here_keys). split; auto.
  - rewrite A1. apply (s_specs _ _ S).
  - intros p Q. rewrite Hh in Q. now apply (s_keys _ _ S).
  - intros es D Q. rewrite Hh in Q. destruct (s_bases _ _ S es D Q) as (is & rest & Eb & Sd & Ro). exists is, rest. rewrite A3. split; [exact Eb|]. split; [apply (said_more K); [exists []; now rewrite app_nil_r|exact Sd]|].
    apply (rest_less W W K K'); auto; [intros p; now rewrite Hh|apply incl_refl|tauto].
  - intros es I. rewrite Hh. now apply (s_waits _ _ S).
Qed.
Lemma dget_set_attr K p a v q : dget q (comps (set_attr K p a v)) = if str_eqb q p then option_map (fun c => {| own := dset a v (own c); cbases := cbases c |}) (dget q (comps K)) else dget q (comps K).
Proof. unfold set_attr. cbn. apply dget_change. Qed.
Lemma touch_seen W K p a v : shape W K -> In a SEEN -> shape W (set_attr K p a v).
Proof.
  intros S Ha. apply (touch W K); [exact S|apply alike_set_attr| |].
  - intros q c b. rewrite dget_set_attr. destruct (str_eqb q p); [|now apply (s_own _ _ S)]. destruct (dget q (comps K)) as [c0|] eqn:E; [|discriminate]. cbn [option_map]. intros Q. injection Q as <-. cbn [own]. rewrite dget_dset.
    destruct (str_eqb a b) eqn:Eab; [|now apply (s_own _ _ S q c0)]. apply str_eqb_eq in Eab as <-. intros _. now right.
  - intros es c w D. rewrite dget_set_attr. destruct (str_eqb (abs_path es) p); [|now apply (s_inst _ _ S)]. destruct (dget (abs_path es) (comps K)) as [c0|] eqn:E; [|discriminate]. cbn [option_map]. intros Q. injection Q as <-. cbn [own].
    rewrite dget_dset_other; [now apply (s_inst _ _ S)|]. intros ->. apply str_in_In in Ha. discriminate Ha.
Qed.
Lemma touch_source W K es v : shape W K -> drawn es -> matches es v -> opinions es lower <> [] -> shape W (set_attr K (abs_path es) INSTANCE_PATH v).
Proof.
  intros S D M Ho. apply (touch W K); [exact S|apply alike_set_attr| |].
  - intros q c b. rewrite dget_set_attr. destruct (str_eqb q (abs_path es)); [|now apply (s_own _ _ S)]. destruct (dget q (comps K)) as [c0|] eqn:E; [|discriminate]. cbn [option_map]. intros Q. injection Q as <-. cbn [own]. rewrite dget_dset.
    destruct (str_eqb INSTANCE_PATH b) eqn:Eab; [|now apply (s_own _ _ S q c0)]. apply str_eqb_eq in Eab as <-. intros _. now left.
  - intros fs c w Df. rewrite dget_set_attr. destruct (str_eqb (abs_path fs) (abs_path es)) eqn:Ep; [|now apply (s_inst _ _ S)]. apply str_eqb_eq in Ep. apply dr_path in Ep; auto. subst fs.
    destruct (dget (abs_path es) (comps K)) as [c0|] eqn:E; [|discriminate]. cbn [option_map]. intros Q. injection Q as <-. cbn [own]. rewrite dget_dset_same. intros Q. injection Q as <-. auto.
Qed.
(** What stays as it is. *)
Definition others (p : pystr) (K K' : heap) : Prop := specs K' = specs K /\ dkeys (comps K') = dkeys (comps K) /\ forall q, q <> p -> dget q (comps K') = dget q (comps K).
Lemma others_refl p K : others p K K. Proof. repeat split. Qed.
Lemma others_trans p A B C : others p A B -> others p B C -> others p A C.
Proof. intros (a & b & c) (d & e & f). split; [congruence|]. split; [congruence|]. intros q N. now rewrite f, c. Qed.
Lemma others_set_attr p K a v : others p K (set_attr K p a v).
Proof. split; [reflexivity|]. split; [apply keys_set_attr|]. intros q N. rewrite dget_set_attr. apply str_eqb_neq in N. now rewrite N. Qed.
Lemma inherits W base p path : forall l K, incl l INSTANCE_ATTRS -> shape W K ->
  shape W (fold_left (inherit_seen base p path) l K) /\ others p K (fold_left (inherit_seen base p path) l K) /\ forall r, bs (fold_left (inherit_seen base p path) l K) r = bs K r.
Proof.
  induction l as [|a l IH]; intros K Hl S; [split; [exact S|split; [apply others_refl|reflexivity]]|]. cbn [fold_left].
  assert (Ha : In a INSTANCE_ATTRS) by (apply Hl; now left). assert (G : shape W (inherit_seen base p path K a) /\ others p K (inherit_seen base p path K a) /\ forall r, bs (inherit_seen base p path K a) r = bs K r).
  { unfold inherit_seen. destruct (has_opinion (look K p a)); [split; [exact S|split; [apply others_refl|reflexivity]]|]. split; [|split].
    - apply touch_seen; [apply touch_seen; [exact S|]|]; unfold SEEN; apply in_flat_map; exists a; (split; [exact Ha|cbn; auto]).
    - eapply others_trans; apply others_set_attr.
    - intros r. destruct (alike_set_attr (set_attr K p a (look K base a)) p (a ++ META_SOURCE) (VTuple [look K base SOURCE_LAYER; VStr path])) as (_ & _ & ->). apply (alike_set_attr K p a). }
  destruct G as (G1 & G2 & G3). destruct (IH _ (fun x X => Hl x (or_intror X)) G1) as (A & B & C). split; [exact A|]. split; [eapply others_trans; eauto|]. intros r. now rewrite C.
Qed.
(** A node gets other bases. *)
Definition rebased (K : heap) (p : pystr) (b : list ref) : heap := with_comps K (change p (fun c => {| own := own c; cbases := b |}) (comps K)).
Lemma rebased_others K p b : others p K (rebased K p b).
Proof.
  split; [reflexivity|]. split; [unfold rebased, dkeys; cbn; unfold change; rewrite map_map; apply map_ext; intros (k & c); cbn; now destruct (str_eqb k p)|].
  intros q N. unfold rebased. cbn. rewrite dget_change. apply str_eqb_neq in N. now rewrite N.
Qed.
Lemma rebased_bs K p b : here K p = true -> bs (rebased K p b) (Co p) = b.
Proof. intros Hp. unfold rebased. rewrite bs_with, str_eqb_refl. unfold here, dmem in Hp. now destruct (dget p (comps K)). Qed.
Lemma rebase W W' K es is rest : shape W K -> drawn es -> here K (abs_path es) = true -> incl W' W -> (forall fs, fs <> es -> In fs W -> In fs W') ->
  said K es is -> rest_ok W' K es rest -> shape W' (rebased K (abs_path es) (map Sp is ++ rest)).
Proof.
  intros S D Hh Hi Hw Sd Ro. assert (Hk : forall q, here (rebased K (abs_path es) (map Sp is ++ rest)) q = here K q) by (intros q; apply here_with). split.
  - apply (s_specs _ _ S).
  - intros p Q. rewrite Hk in Q. now apply (s_keys _ _ S).
  - intros fs Df Q. rewrite Hk in Q. destruct (list_eq_dec (list_eq_dec N.eq_dec) fs es) as [->|Ne].
    + exists is, rest. split; [now apply rebased_bs|]. split; [exact Sd|]. apply (rest_less W' W' K); [intros p; now rewrite Hk|apply incl_refl|tauto|exact Ro].
    + destruct (s_bases _ _ S fs Df Q) as (js & rest' & Eb & Sf & Rf). exists js, rest'. split; [|split; [exact Sf|]].
      * rewrite <- Eb. unfold rebased. rewrite bs_with. assert (E : str_eqb (abs_path fs) (abs_path es) = false) by (apply str_eqb_neq; intros E; apply Ne; now apply dr_path). now rewrite E.
      * apply (rest_less W W' K); auto; [intros p; now rewrite Hk|split; [apply Hi|now apply Hw]].
  - intros fs I. rewrite Hk. apply (s_waits _ _ S). now apply Hi.
  - intros p c a. unfold rebased. cbn. rewrite dget_change. destruct (str_eqb p (abs_path es)); [|now apply (s_own _ _ S)]. destruct (dget p (comps K)) as [c0|] eqn:E; [|discriminate]. cbn [option_map]. intros Q. injection Q as <-. cbn [own]. now apply (s_own _ _ S p c0).
  - intros fs c v Df. unfold rebased. cbn. rewrite dget_change. destruct (str_eqb (abs_path fs) (abs_path es)); [|now apply (s_inst _ _ S)]. destruct (dget (abs_path fs) (comps K)) as [c0|] eqn:E; [|discriminate]. cbn [option_map]. intros Q. injection Q as <-. cbn [own]. now apply (s_inst _ _ S).
Qed.
Lemma set_bases_shape W K p b : shape W (rebased K p b) -> set_bases K p b = Ok (rebased K p b).
Proof. intros S. unfold set_bases. fold (rebased K p b). now rewrite (sh_all _ _ S). Qed.

(** *** The arcs of a node *)
Definition is_par (es : list pystr) (par : option pystr) : Prop := match par with Some b => exists ds, b = abs_path ds /\ parent L es ds | None => forall ds, ~ parent L es ds end.
Definition is_src (es : list pystr) (src : option pystr) : Prop := match src with Some b => exists rs, b = abs_path rs /\ instances L es rs | None => forall rs, ~ instances L es rs end.
Definition done (W : list (list pystr)) (K : heap) (o : option pystr) : Prop := match o with Some b => settled W K (Co b) | None => True end.
Lemma settled_path W K ds : drawn ds -> settled W K (Co (abs_path ds)) -> here K (abs_path ds) = true /\ ~ In ds W.
Proof. intros D (es & E & De & Hh & N). injection E as E. apply dr_path in E; auto. subst. auto. Qed.
Lemma co_fresh is b : isin ref_eqb (Co b) (map Sp is) = false.
Proof. apply not_true_iff_false. intros Q. apply (isin_In ref_eqb ref_eqb_eq) in Q. apply in_map_iff in Q as (i & E & _). discriminate. Qed.

Lemma arcs W K es is par src : shape (es :: W) K -> ~ In es W -> drawn es -> bs K (Co (abs_path es)) = map Sp is -> said K es is ->
  is_par es par -> is_src es src -> done (es :: W) K par -> done (es :: W) K src ->
  exists K', post_proxies K (abs_path es) par src = Ok K' /\ shape W K' /\ others (abs_path es) K K'.
Proof.
  intros S Ne D Eb Sd Ip Is Dp Ds. pose proof (s_waits _ _ S es (or_introl eq_refl)) as (_ & Hh).
  assert (Hi : incl W (es :: W)) by (intros x X; now right). assert (Hw : forall fs, fs <> es -> In fs (es :: W) -> In fs W) by (intros fs N [E|I]; [congruence|exact I]).
  assert (Fl : fl K (abs_path es) = map Sp is). { unfold fl. rewrite Eb, <- (app_nil_r (map Sp is)). rewrite sp_front; [now rewrite app_nil_r|intros ? []]. }
  (* the parent *)
  assert (A : exists K1 rest, match par with None => Ok K | Some b => safe_add K (abs_path es) b end = Ok K1 /\ shape (es :: W) K1 /\ others (abs_path es) K K1 /\ bs K1 (Co (abs_path es)) = map Sp is ++ rest /\
    rest = match par with None => [] | Some b => [Co b] end).
  { destruct par as [b|]; [|exists K, []; split; [reflexivity|]; split; [exact S|]; split; [apply others_refl|]; split; [now rewrite app_nil_r|reflexivity]].
    destruct Ip as (ds & -> & K1). assert (Dd : drawn ds) by (now apply (dr_parent es)). destruct (settled_path _ _ _ Dd Dp) as (Hd & Nd).
    assert (Ro : rest_ok (es :: W) K es [Co (abs_path ds)]). { split; [intros r [<-|[]]; exact Dp|]. split; [intros N; destruct N; now left|]. intros _. right. exists ds. auto. }
    assert (S' : shape (es :: W) (rebased K (abs_path es) (map Sp is ++ [Co (abs_path ds)]))) by (apply (rebase (es :: W)); auto; apply incl_refl).
    exists (rebased K (abs_path es) (map Sp is ++ [Co (abs_path ds)])), [Co (abs_path ds)]. split; [|split; [exact S'|split; [apply rebased_others|split; [now apply rebased_bs|reflexivity]]]].
    unfold safe_add. fold (bs K (Co (abs_path es))). rewrite Eb, co_fresh.
    pose proof (safe_front _ _ S es is [] ds D (or_introl eq_refl) Fl Dd Nd) as E. rewrite app_nil_r in E. rewrite E. cbn [safe_bases filter]. rewrite app_nil_r. now apply set_bases_shape with (es :: W). }
  destruct A as (K1 & rest & E1 & S1 & O1 & Eb1 & Er). unfold post_proxies. rewrite E1. cbn [bind].
  assert (St : forall r, settled (es :: W) K r -> settled (es :: W) K1 r). { intros r (ds & -> & Dd & Hd & Nd). exists ds. split; [reflexivity|]. split; [exact Dd|]. split; [|exact Nd]. rewrite <- Hd. apply here_keys. apply O1. }
  assert (Hh1 : here K1 (abs_path es) = true) by (rewrite <- Hh; apply here_keys; apply O1).
  assert (Sd1 : said K1 es is) by (apply (said_more K); [exists []; rewrite app_nil_r; apply O1|exact Sd]).
  assert (Rs : forall r, In r rest -> settled W K1 r).
  { intros r R. subst rest. destruct par as [b|]; [|destruct R]. destruct R as [<-|[]]. destruct (St _ Dp) as (ds & E & Dd & Hd & Nd). exists ds. split; [exact E|]. split; [exact Dd|]. split; [exact Hd|]. intros I. apply Nd. now right. }
  destruct src as [b|].
  - destruct Is as (rs & -> & I). assert (Dr : drawn rs) by (now apply (dr_source es)).
    destruct (inherits (es :: W) (abs_path rs) (abs_path es) (join_node_paths (str_of (look K1 (abs_path es) PARENT_PATH)) (str_of (look K1 (abs_path es) NAME))) INSTANCE_ATTRS K1 (incl_refl _) S1) as (S2 & O2 & B2).
    set (K2 := fold_left _ INSTANCE_ATTRS K1) in *.
    assert (Hk2 : forall q, here K2 q = here K1 q) by (intros q; apply here_keys; apply O2).
    assert (St2 : settled (es :: W) K2 (Co (abs_path rs))). { destruct (St _ Ds) as (ds & E & Dd & Hd & Nd). exists ds. split; [exact E|]. split; [exact Dd|]. split; [now rewrite Hk2|exact Nd]. }
    destruct (settled_path _ _ _ Dr St2) as (Hr & Nr).
    assert (Sd2 : said K2 es is) by (apply (said_more K1); [exists []; rewrite app_nil_r; apply O2|exact Sd1]).
    assert (Eb2 : bs K2 (Co (abs_path es)) = map Sp is ++ rest) by (now rewrite B2).
    assert (Cr : forall r, In r rest -> exists q, r = Co q) by (intros r R; destruct (Rs r R) as (ds & -> & _); eauto).
    assert (Fl2 : fl K2 (abs_path es) = map Sp is) by (unfold fl; rewrite Eb2; now apply sp_front).
    assert (Q : exists rest', safe_bases K2 (map Sp is ++ rest) (abs_path rs) = map Sp is ++ rest' /\ incl rest' rest /\ rest_of (parent L es) (instances L es) (draws L) (rest' ++ [Co (abs_path rs)]) /\ ~ In (Co (abs_path rs)) rest).
    { rewrite (safe_front _ _ S2 es is rest rs D (or_introl eq_refl) Fl2 Dr Nr). subst rest. destruct par as [b|].
      - destruct Ip as (ds & -> & Kp). assert (Dd : drawn ds) by (now apply (dr_parent es)).
        assert (Nrd : rs <> ds). { intros ->. apply (one_not_above lower L RgL BL es ds (dr_names _ D) (dr_here _ D) I). destruct Kp as (k & Kk & -> & _). exists (skipn k es). split; [|symmetry; apply firstn_skipn]. intros Z. apply (f_equal (@length _)) in Z. rewrite skipn_length in Z. cbn in Z. lia. }
        assert (Nin : ~ In (Co (abs_path rs)) [Co (abs_path ds)]). { intros [E|[]]. injection E as E. apply dr_path in E; auto. }
        destruct (safe_one _ _ S2 rs ds Dr Hr Nr Dd Nrd) as [(Dw & ->)|(Dw & ->)]; [exists []|exists [Co (abs_path ds)]]; (split; [reflexivity|]).
        + split; [intros ? []|]. split; [cbn [app]; now apply rest_over with ds|exact Nin].
        + split; [apply incl_refl|]. split; [cbn [app]; now apply rest_both|exact Nin].
      - exists []. split; [reflexivity|]. split; [apply incl_refl|]. split; [cbn [app]; now apply rest_source|intros []]. }
    destruct Q as (rest' & Esb & Hin & Hro & Nin).
    assert (Ro : rest_ok W K2 es (rest' ++ [Co (abs_path rs)])).
    { split; [|split; [intros _; exact Hro|intros X; contradiction]]. intros r R. apply in_app_or in R as [R|[<-|[]]].
      - destruct (Rs r (Hin _ R)) as (ds & -> & Dd & Hd & Nd). exists ds. split; [reflexivity|]. split; [exact Dd|]. split; [now rewrite Hk2|exact Nd].
      - destruct St2 as (ds & E & Dd & Hd & Nd). exists ds. split; [exact E|]. split; [exact Dd|]. split; [exact Hd|]. intros X. apply Nd. now right. }
    assert (Hh2 : here K2 (abs_path es) = true) by (now rewrite Hk2).
    pose proof (rebase (es :: W) W K2 es is (rest' ++ [Co (abs_path rs)]) S2 D Hh2 Hi Hw Sd2 Ro) as S3.
    exists (rebased K2 (abs_path es) (map Sp is ++ rest' ++ [Co (abs_path rs)])). split; [|split; [exact S3|eapply others_trans; [exact O1|eapply others_trans; [exact O2|apply rebased_others]]]].
    unfold safe_add. fold (bs K2 (Co (abs_path es))). rewrite Eb2.
    assert (Z : isin ref_eqb (Co (abs_path rs)) (map Sp is ++ rest) = false).
    { apply not_true_iff_false. intros Z. apply (isin_In ref_eqb ref_eqb_eq) in Z. apply in_app_or in Z as [Z|Z]; [apply in_map_iff in Z as (i & E & _); discriminate|contradiction]. }
    rewrite Z, Esb, <- app_assoc. now apply set_bases_shape with W.
  - exists K1. split; [reflexivity|]. split; [|exact O1].
    assert (Ro : rest_ok W K1 es rest). { split; [exact Rs|]. split; [intros _|intros X; contradiction]. subst rest. destruct par as [b|]; [destruct Ip as (ds & -> & Kp); now apply rest_parent|now apply rest_alone]. }
    split; [apply (s_specs _ _ S1)|apply (s_keys _ _ S1)| | |apply (s_own _ _ S1)|apply (s_inst _ _ S1)].
    + intros fs Df Q. destruct (list_eq_dec (list_eq_dec N.eq_dec) fs es) as [->|Nf]; [exists is, rest; auto|]. destruct (s_bases _ _ S1 fs Df Q) as (js & rest' & Ef & Sf & Rf). exists js, rest'. split; [exact Ef|]. split; [exact Sf|].
      apply (rest_less (es :: W) W K1); auto. split; [now right|now apply Hw].
    + intros fs X. apply (s_waits _ _ S1). now right.
Qed.

(** *** A new node *)
Lemma put_shape W K more es is : shape W K -> drawn es -> here K (abs_path es) = false ->
  said {| specs := specs K ++ more; comps := comps K; dirty := dirty K |} es is ->
  shape (es :: W) (put {| specs := specs K ++ more; comps := comps K; dirty := dirty K |} (abs_path es) (map Sp is)).
Proof.
  intros S D Hh Sd. set (K0 := {| specs := specs K ++ more; comps := comps K; dirty := dirty K |}) in *. set (K' := put K0 _ _).
  assert (Hd : forall p, dget p (comps K') = match dget p (comps K) with Some c => Some c | None => if str_eqb (abs_path es) p then Some {| own := []; cbases := map Sp is |} else None end).
  { intros p. unfold K', put. cbn [with_comps comps K0]. rewrite dget_app. destruct (dget p (comps K)); reflexivity. }
  assert (Hk : forall p, here K' p = here K p || str_eqb (abs_path es) p). { intros p. unfold here, dmem. rewrite Hd. destruct (dget p (comps K)); [reflexivity|]. now destruct (str_eqb (abs_path es) p). }
  assert (Hb : forall p, p <> abs_path es -> bs K' (Co p) = bs K (Co p)). { intros p N. unfold bs, bases_in. rewrite Hd. destruct (dget p (comps K)); [reflexivity|]. assert (E : str_eqb (abs_path es) p = false) by (apply str_eqb_neq; congruence). now rewrite E. }
  assert (Hbe : bs K' (Co (abs_path es)) = map Sp is). { unfold bs, bases_in. rewrite Hd. unfold here, dmem in Hh. destruct (dget (abs_path es) (comps K)); [discriminate|]. now rewrite str_eqb_refl. }
  assert (Hm : exists m, specs K' = specs K ++ m) by (now exists more).
  split.
  - destruct (s_specs _ _ S) as (m & E). exists (m ++ more). change (specs K') with (specs K ++ more). rewrite E. now rewrite app_assoc.
  - intros p Q. rewrite Hk in Q. apply orb_true_iff in Q as [Q|Q]; [now apply (s_keys _ _ S)|]. apply str_eqb_eq in Q. exists es. auto.
  - intros fs Df Q. destruct (list_eq_dec (list_eq_dec N.eq_dec) fs es) as [->|Ne].
    + exists is, []. rewrite app_nil_r. split; [exact Hbe|]. split; [exact Sd|]. split; [intros r []|]. split; [intros N; destruct N; now left|now left].
    + assert (Np : abs_path fs <> abs_path es) by (intros E; apply Ne; now apply dr_path). rewrite Hk in Q. assert (E : str_eqb (abs_path es) (abs_path fs) = false) by (apply str_eqb_neq; congruence). rewrite E, orb_false_r in Q.
      destruct (s_bases _ _ S fs Df Q) as (js & rest & Eb & Sf & (R1 & R2 & R3)). exists js, rest. split; [now rewrite Hb|]. split; [now apply (said_more K)|]. split; [|split].
      * intros r R. destruct (R1 r R) as (ds & -> & Dd & Hds & Nd). exists ds. split; [reflexivity|]. split; [exact Dd|]. split; [rewrite Hk, Hds; reflexivity|]. intros [<-|I]; [congruence|contradiction].
      * intros N. apply R2. intros I. apply N. now right.
      * intros [X|I]; [congruence|now apply R3].
  - intros fs [<-|I]; [split; [exact D|]; rewrite Hk, str_eqb_refl; apply orb_true_r|]. destruct (s_waits _ _ S fs I) as (A & B). split; [exact A|]. now rewrite Hk, B.
  - intros p c a. rewrite Hd. destruct (dget p (comps K)) as [c0|] eqn:E; [intros Q; injection Q as <-; now apply (s_own _ _ S p c0)|]. destruct (str_eqb (abs_path es) p); [|discriminate]. intros Q. injection Q as <-. intros Q. now destruct Q.
  - intros fs c v Df. rewrite Hd. destruct (dget (abs_path fs) (comps K)) as [c0|] eqn:E; [intros Q; injection Q as <-; now apply (s_inst _ _ S fs c0)|]. destruct (str_eqb (abs_path es) (abs_path fs)); [|discriminate]. intros Q. injection Q as <-. discriminate.
Qed.

(** What is there stays. *)
Definition ext (K K' : heap) : Prop := (exists more, specs K' = specs K ++ more) /\ forall p c, dget p (comps K) = Some c -> dget p (comps K') = Some c.
Lemma ext_refl K : ext K K. Proof. split; [exists []; now rewrite app_nil_r|auto]. Qed.
Lemma ext_trans A B C : ext A B -> ext B C -> ext A C.
Proof. intros ((m & E) & I) ((m' & E') & I'). split; [exists (m ++ m'); now rewrite E', E, app_assoc|auto]. Qed.
Lemma ext_here K K' p : ext K K' -> here K p = true -> here K' p = true.
Proof. intros (_ & I). unfold here, dmem. destruct (dget p (comps K)) as [c|] eqn:E; [|discriminate]. now rewrite (I p c E). Qed.
Lemma ext_bs K K' p : ext K K' -> here K p = true -> bs K' (Co p) = bs K (Co p).
Proof. intros (_ & I). unfold here, dmem, bs, bases_in. destruct (dget p (comps K)) as [c|] eqn:E; [|discriminate]. now rewrite (I p c E). Qed.
Lemma ext_done W K K' o : ext K K' -> done W K o -> done W K' o.
Proof. intros X. destruct o as [b|]; [|auto]. intros (ds & E & D & Hh & N). exists ds. split; [exact E|]. split; [exact D|]. split; [now apply (ext_here K)|exact N]. Qed.
Lemma ext_put K more p bs : here K p = false -> ext K (put {| specs := specs K ++ more; comps := comps K; dirty := dirty K |} p bs).
Proof. intros Hh. split; [now exists more|]. intros q c E. unfold put. cbn [with_comps comps]. now rewrite dget_app, E. Qed.
Lemma ext_others K A B p : here K p = false -> ext K A -> others p A B -> ext K B.
Proof.
  intros Hh ((m & E) & I) (O1 & O2 & O3). split; [exists m; congruence|]. intros q c Eq. assert (N : q <> p). { intros ->. unfold here, dmem in Hh. now rewrite Eq in Hh. } rewrite (O3 q N). auto.
Qed.

(** *** The instance path of an ancestor *)
Lemma strongest_matches W K es : shape W K -> drawn es -> here K (abs_path es) = true -> opinions es lower <> [] -> matches es (strongest_source K (abs_path es) (sps es)).
Proof.
  intros S D Hh Ho. destruct (sps_spec es (dr_names _ D)) as (Fo & _ & _). unfold strongest_source. set (cur := look K (abs_path es) INSTANCE_PATH).
  assert (G : forall l m, Forall2 (row_is es (concat lower) 0) l m ->
    let v := fold_left (fun cur i => let v := ref_attr K (Sp i) INSTANCE_PATH in if has_opinion v then v else cur) (rev l) cur in
    (exists d, speaks_first INSTANCE_PATH m d /\ v = value d INSTANCE_PATH) \/ silent INSTANCE_PATH m /\ v = cur).
  { induction 1 as [|i d l m (j & Ej & En) Fl IH]; [right; split; [intros ? []|reflexivity]|]. cbn [rev]. rewrite fold_left_app. cbn [fold_left]. cbv zeta in *. set (v := fold_left _ (rev l) cur) in *.
    assert (Ev : ref_attr K (Sp i) INSTANCE_PATH = value d INSTANCE_PATH).
    { unfold ref_attr. assert (Q : nth_error (specs K) i = Some d). { apply (sh_specs _ _ S). cbn in Ej. subst i. exact (map_nth_error snd j (concat lower) En). } rewrite Q. reflexivity. }
    rewrite Ev. destruct (has_opinion (value d INSTANCE_PATH)) eqn:Eo.
    - left. exists d. split; [|reflexivity]. exists [], m. split; [reflexivity|]. split; [now apply has_opinion_says|intros ? []].
    - apply no_opinion_says in Eo. destruct IH as [(d' & (s & w & -> & Sd & Ss) & E)|(Si & E)].
      + left. exists d'. split; [|exact E]. exists (d :: s), w. split; [reflexivity|]. split; [exact Sd|]. intros x [<-|X]; auto.
      + right. split; [|exact E]. intros x [<-|X]; auto. }
  destruct (G _ _ Fo) as [(d & Sd & E)|(_ & E)]; cbv zeta in E; rewrite E.
  - now apply speaks_matches.
  - now apply (look_source _ _ S).
Qed.
(** *** What the composed stage says *)
Lemma h_path p : here H p = true -> exists es, names es /\ p = abs_path es.
Proof. destruct (stage_parts layers H wfH BH) as (X1 & X2 & X). exact (fin_path layers X1 X2 H X p). Qed.
Lemma h_empty : here H [] = false.
Proof. apply not_true_iff_false. intros Q. destruct (h_path _ Q) as (es & _ & E). symmetry in E. now apply path_not_empty in E. Qed.
Lemma h_kids rs : names rs -> exists l, child_paths H (Some (abs_path rs)) = l /\ forall c, In c l <-> exists nm, plain_name nm /\ c = abs_path (rs ++ [nm]) /\ in_stage H (rs ++ [nm]).
Proof.
  intros Hr. destruct (stage_parts layers H wfH BH) as (X1 & X2 & X).
  assert (Nd : NoDup (dkeys (comps H))). { destruct (post_structure _ X2 (p_good _ _ _ _ X) H (p_post _ _ _ _ X)) as (_ & -> & _). apply (p_good _ _ _ _ X). }
  assert (Wf : LayerSpec.wf_nodes (nodes (view H))).
  { split; [now rewrite view_keys|]. intros k n Hi. unfold view in Hi. cbn [nodes] in Hi. apply in_map_iff in Hi as ((k' & c) & E & Hi).
    injection E as <- <-. cbn [fst]. assert (Hk : here H k' = true) by (apply here_In; apply in_map_iff; now exists (k', c)).
    destruct (h_path _ Hk) as (ps & Hps & ->). destruct ps as [|x ps _] using rev_ind.
    - left. split; [reflexivity|]. cbn [n_parent]. unfold parent_of. change (abs_path []) with WORLD in *.
      rewrite (fin_untouched layers X1 X2 H X) by (split; [intros Q; apply str_in_In in Q; vm_compute in Q; discriminate Q|intros b [<-|[<-|[<-|[]]]]; vm_compute; discriminate]).
      rewrite (fin_here layers X1 X2 H X) in Hk. now rewrite (t_root _ (fin_tree layers X1 X2 H X) Hk).
    - right. destruct (at_place layers H wfH BH _ _ Hps Hk) as (A & B). exists ps, x. split; [now apply names_comp|]. split; [reflexivity|]. cbn [n_parent n_name]. unfold parent_of, name_of. now rewrite A, B. }
  destruct (HierarchyProofs.children_exact same_string same_string (view H) rs Wf (view_ready H) (names_comp _ Hr)) as (l & E & _ & Hin & _).
  exists l. split; [unfold child_paths; now rewrite E|]. intros c. rewrite Hin. split.
  - intros (nm & Hc & -> & Hh). apply view_has in Hh. exists nm. split; [|split; [reflexivity|exact Hh]]. destruct (h_path _ Hh) as (ps & Hps & Ep). apply abs_path_inj in Ep; [|apply Forall_app; split; [now apply names_comp|now constructor]|now apply names_comp]. subst ps. now apply names_snoc in Hps.
  - intros (nm & Hc & -> & Hh). exists nm. split; [apply Hc|]. split; [reflexivity|]. now apply view_has.
Qed.

(** The source a node names, if the layers below have it. *)
Lemma source_cases es v : drawn es -> matches es v ->
  (exists rs, v = VStr (abs_path rs) /\ names rs /\ rs <> [] /\ here H (abs_path rs) = true /\ instances L es rs) \/
  is_src es None /\ forall i, as_str v = Some i -> here H i = false.
Proof.
  intros D (A & M). assert (G : (forall rs, names rs -> rs <> [] -> v <> VStr (abs_path rs) \/ ~ in_stage H rs) -> is_src es None).
  { intros N rs I. pose proof (dr_here _ (dr_source _ _ D I)) as _. pose proof (rb_here _ _ _ _ (Rb rs (dr_source _ _ D I))) as Hh. destruct I as (Hr & Hn & Hl & R). apply (M rs Hr Hn) in R. destruct (N rs Hr Hn) as [Q|Q]; contradiction. }
  destruct A as [->|[->|(rs & Hr & Hn & ->)]].
  - right. split; [apply G; intros rs _ _; left; discriminate|discriminate].
  - right. split; [apply G; intros rs _ _; left; intros Q; injection Q as Q; symmetry in Q; now apply path_not_empty in Q|]. intros i Q. injection Q as <-. apply h_empty.
  - destruct (here H (abs_path rs)) eqn:Hh.
    + left. exists rs. split; [reflexivity|]. split; [exact Hr|]. split; [exact Hn|]. split; [exact Hh|]. assert (R : reads L es INSTANCE_PATH = Some (VStr (abs_path rs))) by (now apply M). split; [exact Hr|]. split; [exact Hn|]. split; [|exact R]. now apply (rb_source _ _ _ _ (Rb es D)).
    + right. split; [|intros i Q; injection Q as <-; exact Hh]. apply G. intros ss Hs Hsn. destruct (list_eq_dec (list_eq_dec N.eq_dec) ss rs) as [->|Ne]; [right; unfold in_stage; now rewrite Hh|]. left. intros Q. injection Q as Q. apply Ne. symmetry. now apply path_inj.
Qed.

(** *** One ancestor *)
Definition clear_of (W : list (list pystr)) (es : list pystr) : Prop := forall w, In w W -> ~ draws L es w.
Definition good_rec (n : nat) (rec : heap -> pystr -> inferred) : Prop :=
  forall W K rs, drawn rs -> rs <> [] -> tall L (Co (abs_path rs)) < n -> shape W K -> clear_of W rs ->
  exists K', rec K (abs_path rs) = Some (Ok (K', Some (abs_path rs))) /\ shape W K' /\ ext K K' /\ here K' (abs_path rs) = true.
Lemma clear_not W es : clear_of W es -> ~ In es W.
Proof. intros C I. apply (C es I). constructor. Qed.
Lemma clear_less W es fs : clear_of W es -> draws L es fs -> clear_of W fs.
Proof. intros C D w I E. apply (C w I). now apply (draws_trans L es fs). Qed.
Lemma clear_source W es rs : drawn es -> clear_of W es -> instances L es rs -> clear_of (es :: W) rs.
Proof.
  intros D C I w [<-|Iw]; [|apply (clear_less W es rs); auto; apply draws_source with rs; [exact I|constructor]]. intros E. pose proof (one_source_tall lower L RgL BL es rs (dr_here _ D) I) as T. destruct (dr_lower rs es (dr_source _ _ D I) E) as [->|Q]; lia.
Qed.
Lemma clear_parent W es ds : drawn es -> clear_of W es -> parent L es ds -> clear_of (es :: W) ds.
Proof.
  intros D C I w [<-|Iw]; [|apply (clear_less W es ds); auto; apply draws_parent with ds; [exact I|constructor]]. intros E. pose proof (one_parent_tall lower L RgL BL es ds (dr_names _ D) (dr_here _ D) I) as T. destruct (dr_lower ds es (dr_parent _ _ D I) E) as [->|Q]; lia.
Qed.
Lemma put_shape0 W K es : shape W K -> drawn es -> here K (abs_path es) = false -> opinions es lower <> [] -> shape (es :: W) (put K (abs_path es) (map Sp (sps es))).
Proof. intros S D Hh Ho. pose proof (put_shape W K [] es (sps es) S D Hh) as Q. rewrite app_nil_r in Q. destruct K. cbn in Q. apply Q. now left. Qed.
Lemma done_more W K es par : here K (abs_path es) = false -> done W K par -> done (es :: W) K par.
Proof. intros Hh. destruct par as [b|]; [|auto]. intros (ds & E & Dd & Hd & Nd). exists ds. split; [exact E|]. split; [exact Dd|]. split; [exact Hd|]. intros [<-|I]; [congruence|contradiction]. Qed.
Lemma arcs_ext W K K0 K3 es is par src : here K0 (abs_path es) = false -> ext K0 K -> ext K K3 -> shape (es :: W) K3 -> ~ In es W -> drawn es -> here K (abs_path es) = true -> bs K (Co (abs_path es)) = map Sp is -> said K es is ->
  is_par es par -> is_src es src -> done (es :: W) K3 par -> done (es :: W) K3 src ->
  exists K', post_proxies K3 (abs_path es) par src = Ok K' /\ shape W K' /\ ext K0 K' /\ here K' (abs_path es) = true.
Proof.
  intros H0 X0 X S N D Hh Eb Sd Ip Is Dp Ds. destruct (arcs W K3 es is par src) as (K' & E & S' & O); auto.
  - now rewrite (ext_bs K K3).
  - apply (said_more K); [apply X|exact Sd].
  - exists K'. split; [exact E|]. split; [exact S'|]. split; [apply (ext_others K0 K3 K' (abs_path es)); auto; now apply (ext_trans K0 K)|].
    rewrite <- (ext_here _ _ _ X Hh). apply here_keys. apply O.
Qed.

Lemma step_ok n rec W K es par : good_rec n rec -> tall L (Co (abs_path es)) <= n -> shape W K -> drawn es -> clear_of W es -> opinions es lower <> [] -> is_par es par -> done W K par ->
  exists K', ancestor_step H lower rec (K, par) (abs_path es) = Some (Ok (K', Some (abs_path es))) /\ shape W K' /\ ext K K' /\ here K' (abs_path es) = true.
Proof.
  intros Gr T S D C Ho Ip Dp. pose proof (dr_names _ D) as He. unfold ancestor_step. fold (sps es). destruct (sps es) as [|i0 l0] eqn:Es; [now apply (sps_nil es He) in Es|]. rewrite <- Es. clear Es i0 l0.
  destruct (here K (abs_path es)) eqn:Hh; [exists K; split; [reflexivity|]; split; [exact S|]; split; [apply ext_refl|exact Hh]|].
  pose proof (put_shape0 W K es S D Hh Ho) as S1. set (K1 := put K (abs_path es) (map Sp (sps es))) in *.
  assert (X1 : ext K K1). { pose proof (ext_put K [] (abs_path es) (map Sp (sps es)) Hh) as Q. rewrite app_nil_r in Q. unfold K1. now destruct K. }
  pose proof (proj2 (s_waits _ _ S1 es (or_introl eq_refl))) as Hh1.
  assert (Eb1 : bs K1 (Co (abs_path es)) = map Sp (sps es)). { unfold bs, bases_in, K1, put. cbn [with_comps comps]. rewrite dget_app. unfold here, dmem in Hh. destruct (dget (abs_path es) (comps K)); [discriminate|]. cbn [dget]. now rewrite str_eqb_refl. }
  pose proof (strongest_matches _ _ es S1 D Hh1 Ho) as M. set (v := strongest_source K1 (abs_path es) (sps es)) in *.
  pose proof (touch_source _ _ es v S1 D M Ho) as S2. pose proof (others_set_attr (abs_path es) K1 INSTANCE_PATH v) as O2. set (K2 := set_attr K1 (abs_path es) INSTANCE_PATH v) in *.
  assert (X2 : ext K K2) by (now apply (ext_others K K1 K2 (abs_path es))).
  assert (Hh2 : here K2 (abs_path es) = true) by (rewrite <- Hh1; apply here_keys; apply O2).
  assert (Eb2 : bs K2 (Co (abs_path es)) = map Sp (sps es)) by (rewrite <- Eb1; apply (alike_set_attr K1 (abs_path es) INSTANCE_PATH v)).
  assert (Sd : said K2 es (sps es)) by (now left). pose proof (ext_done _ _ _ _ X2 (done_more W K es par Hh Dp)) as Dp2. pose proof (clear_not _ _ C) as Nw.
  destruct (source_cases es v D M) as [(rs & Ev & Hr & Hn & Hrh & I)|(Is & Nv)].
  - rewrite Ev. cbn [as_str]. rewrite Hrh. assert (Dr : drawn rs) by (now apply (dr_source es)).
    pose proof (one_source_tall lower L RgL BL es rs (dr_here _ D) I) as Tr. pose proof (clear_source W es rs D C I) as Cr.
    destruct (Gr (es :: W) K2 rs Dr Hn (Nat.lt_le_trans _ _ _ Tr T) S2 Cr) as (K3 & E3 & S3 & X3 & Hr3). rewrite E3. cbn [obind].
    destruct (arcs_ext W K2 K K3 es (sps es) par (Some (abs_path rs))) as (K' & E & S' & X' & Hh'); auto.
    + exists rs. auto.
    + now apply (ext_done _ K2).
    + exists rs. split; [reflexivity|]. split; [exact Dr|]. split; [exact Hr3|]. now apply clear_not.
    + exists K'. rewrite E. auto.
  - destruct (arcs_ext W K2 K K2 es (sps es) par None) as (K' & E' & S' & X' & Hh'); auto; [apply ext_refl|exact I|]. exists K'. split; [|auto].
    destruct (as_str v) as [i|]; [rewrite (Nv i eq_refl)|]; cbn [obind]; now rewrite E'.
Qed.

(** *** All ancestors *)
Lemma clear_drop W es fs : drawn es -> clear_of W es -> draws L es fs -> fs <> es -> clear_of (es :: W) fs.
Proof.
  intros D C E N w [<-|Iw]; [|now apply (clear_less W es fs)]. intros E'. assert (Df : drawn fs) by (now apply (draws_trans L top es)).
  destruct (dr_lower es fs D E) as [Q|Q]; [congruence|]. destruct (dr_lower fs es Df E') as [Q'|Q']; [congruence|]. lia.
Qed.
Lemma prefix_draws b : forall a, drawn (a ++ b) -> a <> [] \/ in_stage L [] -> draws L (a ++ b) a.
Proof.
  induction b as [|x b IH] using rev_ind; intros a D Ha; [rewrite app_nil_r; constructor|]. rewrite app_assoc in *. pose proof (dr_names _ D) as He. pose proof (dr_here _ D) as Hh.
  assert (Hp : in_stage L (a ++ b)). { destruct (C43_parent_there lower L wfL BL glL (a ++ b) x He Hh) as [Z|Z]; [|exact Z]. destruct Ha as [Ha|Ha]; [destruct a; [now destruct Ha|discriminate Z]|now rewrite Z]. }
  assert (Kp : parent L ((a ++ b) ++ [x]) (a ++ b)) by (now apply (one_parent lower L RgL BL)). apply draws_parent with (a ++ b); [exact Kp|]. apply IH; [|exact Ha]. now apply (dr_parent ((a ++ b) ++ [x])).
Qed.
Lemma fold_out_app {A B} (f : A -> B -> option (res A)) l m : forall a, fold_out f (l ++ m) a = obind (fold_out f l a) (fold_out f m).
Proof. induction l as [|x l IH]; intros a; [reflexivity|]. cbn [app fold_out]. destruct (f a x) as [[b|e]|]; cbn [obind]; auto. Qed.

Lemma loop_ok n rec W K es : good_rec n rec -> tall L (Co (abs_path es)) <= n -> drawn es -> clear_of W es -> shape (es :: W) K -> forall a b, es = a ++ b -> exists K' par,
  fold_out (ancestor_step H lower rec) (map (fun k => abs_path (firstn k es)) (seq 0 (length a))) (K, None) = Some (Ok (K', par)) /\ shape (es :: W) K' /\ ext K K' /\ is_par a par /\ done (es :: W) K' par.
Proof.
  intros Gr T D C S. induction a as [|x a IH] using rev_ind; intros b E.
  - exists K, None. split; [reflexivity|]. split; [exact S|]. split; [apply ext_refl|]. split; [|exact I]. intros ds. apply (one_no_parent L).
  - destruct (IH (x :: b)) as (K1 & par & E1 & S1 & X1 & Ip & Dp); [now rewrite E, <- app_assoc|]. rewrite app_length. cbn [length]. rewrite Nat.add_1_r, seq_S, map_app, fold_out_app, E1. cbn [obind map fold_out Nat.add].
    assert (Ef : firstn (length a) es = a) by (rewrite E, <- app_assoc, firstn_app, Nat.sub_diag, firstn_all; apply app_nil_r). rewrite Ef.
    assert (Dx : drawn (a ++ [x])). { rewrite E in D. apply (draws_trans L _ _ _ D). apply prefix_draws; [exact D|]. left. now destruct a. }
    pose proof (dr_names _ Dx) as Hx. pose proof (dr_here _ Dx) as Hxh.
    assert (Par : forall ds, parent L (a ++ [x]) ds <-> ds = a /\ in_stage L a) by (intros ds; now apply (one_parent lower L RgL BL)).
    assert (Ha : names a) by (now apply names_app in Hx). destruct (opinions a lower) as [|d w] eqn:Eo.
    + unfold ancestor_step. fold (sps a). assert (En : sps a = []) by (now apply sps_nil). rewrite En. cbn [obind]. exists K1, par. split; [reflexivity|]. split; [exact S1|]. split; [exact X1|]. split; [|exact Dp].
      assert (Na : ~ in_stage L a). { intros Q. apply (rb_parent _ _ _ _ (Rb _ Dx) a); [now apply Par|exact Eo]. }
      assert (Za : a = []). { destruct (C43_parent_there lower L wfL BL glL a x Hx Hxh) as [Z|Z]; [exact Z|contradiction]. }
      subst a. destruct par as [p|]; [destruct Ip as (ds & _ & Q); destruct (one_no_parent L ds Q)|]. intros ds Q. apply Par in Q as (_ & Q). contradiction.
    + assert (Hah : in_stage L a) by (apply (C32_conserved lower L wfL BL); [exact Ha|rewrite Eo; discriminate]).
      assert (Dr : draws L es a). { rewrite E, <- app_assoc. apply prefix_draws; [now rewrite app_assoc, <- E|]. destruct a; [now right|left; discriminate]. }
      assert (Ne : a <> es). { intros Q. rewrite Q in E at 1. apply (f_equal (@length _)) in E. rewrite !app_length in E. cbn in E. lia. }
      pose proof (clear_drop W es a D C Dr Ne) as Ca. assert (Da : drawn a) by (now apply (draws_trans L top es)).
      destruct (step_ok n rec (es :: W) K1 a par) as (K2 & E2 & S2 & X2 & Hh2); auto.
      * destruct (dr_lower es a D Dr) as [Q|Q]; [congruence|lia].
      * rewrite Eo. discriminate.
      * rewrite E2. cbn [obind]. exists K2, (Some (abs_path a)). split; [reflexivity|]. split; [exact S2|]. split; [now apply (ext_trans K K1)|]. split; [exists a; split; [reflexivity|]; now apply Par|].
        exists a. split; [reflexivity|]. split; [exact Da|]. split; [exact Hh2|]. now apply clear_not.
Qed.
Lemma ancestors_of es : names es -> es <> [] -> rev (all_ancestor_paths (abs_path es) ++ [WORLD]) = map (fun k => abs_path (firstn k es)) (seq 0 (length es)).
Proof.
  intros He Hn. rewrite rev_app_distr. cbn [rev app]. rewrite all_ancestor_paths_abs' by (now apply names_comp). unfold proper_ancestors. rewrite map_map, map_rev, rev_involutive.
  destruct es as [|x es]; [congruence|]. cbn [length]. rewrite Nat.sub_succ, Nat.sub_0_r. reflexivity.
Qed.

(** *** The node itself *)
Lemma h_no_self es : names es -> es <> [] -> in_stage H es -> attr H (abs_path es) INSTANCE_PATH <> VStr (abs_path es).
Proof.
  intros He Hn Hh E. destruct (stage_parts layers H wfH BH) as (X1 & X2 & X). assert (I : instances H es es) by (apply (view_inst layers X1 X2 H wfH X); auto).
  apply (view_source layers X1 X2 H wfH X) in I; [|exact Hh]. apply (fin_src layers X1 X2 H X) in I. pose proof Hh as Hh'. unfold in_stage in Hh'. rewrite (fin_here layers X1 X2 H X) in Hh'.
  pose proof (tall_base H (Co (abs_path es)) (Co (abs_path es)) (look_sound _ X2 H (p_good _ _ _ _ X) (p_post _ _ _ _ X))) as T. assert (Q : tall H (Co (abs_path es)) < tall H (Co (abs_path es))) by (apply T; now apply (fin_arc layers X1 X2 H X)). lia.
Qed.
Lemma no_kids_empty : child_paths H (Some []) = [].
Proof. reflexivity. Qed.
Lemma paths_same W K ps nm is : shape W K -> drawn (ps ++ [nm]) -> said K (ps ++ [nm]) is -> forall q, In q (map (path_of K) (map Sp is)) -> q = abs_path (ps ++ [nm]).
Proof. intros S D Sd q Q. rewrite map_map in Q. apply in_map_iff in Q as (i & <- & I). now apply (path_sp _ _ S ps nm is). Qed.

Section Node.
Variables (n : nat) (rec : heap -> pystr -> inferred) (W : list (list pystr)) (K : heap) (ps : list pystr) (nm : pystr).
Let es := ps ++ [nm].
Hypotheses (Gr : good_rec n rec) (T : tall L (Co (abs_path es)) <= n) (D : drawn es) (C : clear_of W es) (S : shape W K) (Hh : here K (abs_path es) = false).
Let Hes : names es := dr_names _ D.
Let Nes : es <> [] := fun Z => match app_cons_not_nil ps [] nm (eq_sym Z) with end.
Let is : list nat := match sps es with [] => [length (specs K)] | l => l end.
Let K0 : heap := put_node H lower K (abs_path es) (abs_path es).
Lemma nd_put : K0 = put {| specs := specs K ++ [dummy_spec H (abs_path es)]; comps := comps K; dirty := dirty K |} (abs_path es) (map Sp is).
Proof. unfold K0, put_node, is. fold (sps es). now destruct (sps es). Qed.
Lemma nd_said : said K0 es is.
Proof.
  unfold is. destruct (opinions es lower) as [|d w] eqn:Eo.
  - right. split; [exact Eo|]. assert (En : sps es = []) by (now apply sps_nil). rewrite En. exists (length (specs K)). split; [reflexivity|]. split.
    + destruct (s_specs _ _ S) as (m & E). rewrite E, app_length, map_length. apply Nat.le_add_r.
    + rewrite nd_put. cbn [put with_comps specs]. rewrite nth_error_app2 by apply Nat.le_refl. now rewrite Nat.sub_diag.
  - left. rewrite Eo. split; [discriminate|]. destruct (sps es) as [|i l] eqn:En; [apply (sps_nil es Hes) in En; congruence|reflexivity].
Qed.
Lemma nd_shape : shape (es :: W) K0.
Proof. pose proof nd_said as Sd. rewrite nd_put in *. now apply put_shape. Qed.
Lemma nd_ext : ext K K0. Proof. rewrite nd_put. now apply ext_put. Qed.
Lemma nd_here : here K0 (abs_path es) = true. Proof. apply (s_waits _ _ nd_shape es (or_introl eq_refl)). Qed.
Lemma nd_bs : bs K0 (Co (abs_path es)) = map Sp is.
Proof.
  rewrite nd_put. unfold bs, bases_in, put. cbn [with_comps comps]. rewrite dget_app. pose proof Hh as Q. unfold here, dmem in Q. destruct (dget (abs_path es) (comps K)); [discriminate|]. cbn [dget]. now rewrite str_eqb_refl.
Qed.

Section After.
Variables (K1 : heap) (par : option pystr).
Hypotheses (S1 : shape (es :: W) K1) (X1 : ext K0 K1) (Ip : is_par es par) (Dp : done (es :: W) K1 par).
Let Hh1 : here K1 (abs_path es) = true := ext_here _ _ _ X1 nd_here.
Let Sd1 : said K1 es is := said_more _ _ _ _ (proj1 X1) nd_said.
Let bps := map (path_of K1) (bases_in (comps K1) (Co (abs_path es))).
Lemma nd_bps q : In q bps -> q = abs_path es.
Proof. unfold bps. fold (bs K1 (Co (abs_path es))). rewrite (ext_bs _ _ _ X1 nd_here), nd_bs. now apply (paths_same _ _ ps nm is S1 D Sd1). Qed.
Lemma nd_finish K3 src : ext K1 K3 -> shape (es :: W) K3 -> is_src es src -> done (es :: W) K3 src ->
  exists K', finish K3 (abs_path es) bps par src = Some (Ok (K', Some (abs_path es))) /\ shape W K' /\ ext K K' /\ here K' (abs_path es) = true.
Proof.
  intros X S3 Is Ds. unfold finish. cbv zeta. assert (Eg : get_parent_path (abs_path es) = abs_path ps) by (apply get_parent_path_abs; now apply names_comp). rewrite Eg, abs_not_empty.
  assert (E : str_in (abs_path ps) bps = false).
  { apply MergeProofs.str_in_false. intros Q. apply nd_bps in Q. apply path_inj in Q; auto; [|exact (proj1 (proj1 (names_app ps [nm]) Hes))]. apply (f_equal (@length _)) in Q. unfold es in Q. rewrite app_length in Q. cbn in Q. lia. }
  rewrite E. cbn [orb]. destruct (arcs_ext W K0 K K3 es is par src) as (K' & E' & R); auto.
  - apply nd_ext. - now apply (ext_trans K0 K1). - now apply clear_not. - apply nd_here. - apply nd_bs. - apply nd_said. - now apply (ext_done _ K1).
  - exists K'. now rewrite E'.
Qed.
Lemma nd_parent b : par = Some b -> b = abs_path ps /\ parent L es ps /\ drawn ps /\ here K1 (abs_path ps) = true /\ opinions ps lower <> [].
Proof.
  intros ->. destruct Ip as (ds & -> & Kp). pose proof Kp as Q. apply (one_parent lower L RgL BL ps nm ds Hes (dr_here _ D)) in Q as (-> & _). split; [reflexivity|]. split; [exact Kp|]. assert (Dd : drawn ps) by (now apply (dr_parent es)).
  split; [exact Dd|]. split; [|now apply (rb_parent _ _ _ _ (Rb es D))]. now apply (settled_path (es :: W) K1 ps Dd).
Qed.
Lemma nd_settled rs : instances L es rs -> here K1 (abs_path rs) = true -> settled (es :: W) K1 (Co (abs_path rs)).
Proof. intros I Hr. exists rs. split; [reflexivity|]. split; [now apply (dr_source es)|]. split; [exact Hr|]. apply clear_not. now apply clear_source. Qed.
Lemma nd_rec rs : instances L es rs -> exists K3, rec K1 (abs_path rs) = Some (Ok (K3, Some (abs_path rs))) /\ ext K1 K3 /\ shape (es :: W) K3 /\ done (es :: W) K3 (Some (abs_path rs)).
Proof.
  intros I. pose proof (dr_source _ _ D I) as Dr. pose proof (clear_source W es rs D C I) as Cr. pose proof (one_source_tall lower L RgL BL es rs (dr_here _ D) I) as Tr. pose proof I as (_ & Hn & _).
  destruct (Gr (es :: W) K1 rs Dr Hn (Nat.lt_le_trans _ _ _ Tr T) S1 Cr) as (K3 & E3 & S3 & X3 & Hr3). exists K3. split; [exact E3|]. split; [exact X3|]. split; [exact S3|].
  exists rs. split; [reflexivity|]. split; [exact Dr|]. split; [exact Hr3|]. now apply clear_not.
Qed.
Lemma nd_other rs : instances L es rs -> str_in (abs_path rs) bps = false.
Proof.
  intros I. apply MergeProofs.str_in_false. intros Q. apply nd_bps in Q. pose proof I as (Hr & _). apply path_inj in Q; auto. pose proof (one_source_tall lower L RgL BL es rs (dr_here _ D) I) as Tr. rewrite Q in Tr. lia.
Qed.

Definition answer_ok (r : inferred) : Prop := exists K', r = Some (Ok (K', Some (abs_path es))) /\ shape W K' /\ ext K K' /\ here K' (abs_path es) = true.
Lemma nd_alone : opinions es lower <> [] -> source_by_parent H K1 (abs_path es) par = None.
Proof.
  intros Ho. unfold source_by_parent. pose proof nd_parent as Np. destruct par as [b|] eqn:Ep; [|reflexivity]. destruct (Np b eq_refl) as (-> & Kp & Dd & Hp & Hop).
  destruct (look_source _ _ S1 ps Dd Hp Hop) as ([E|[E|(rs & Hr & Hn & E)]] & M); rewrite E; cbn [as_str].
  - reflexivity.
  - reflexivity.
  - exfalso. apply (M rs Hr Hn) in E. apply (C34_instance_path lower L wfL BL ps rs (dr_names _ Dd) (one_pure lower RgL ps (dr_names _ Dd)) Hop Hr Hn) in E. now apply (puL ps [nm] rs).
Qed.
Lemma nd_proxy : opinions es lower <> [] -> truthy (look K1 (abs_path es) PROXY) = false.
Proof.
  intros Ho. destruct (look_plain _ _ S1 es PROXY D Hh1) as [(d & w & Eo & ->)|(Eo & _)]; [cbn; auto| |contradiction]. apply (opinion_proxy es). rewrite Eo. now left.
Qed.
Lemma nd_layer : opinions es lower <> [] -> answer_ok (add_source H rec K1 (abs_path es) par).
Proof.
  intros Ho. unfold add_source. rewrite (nd_alone Ho). pose proof (look_source _ _ S1 es D Hh1 Ho) as M. unfold source_by_node. fold bps.
  destruct (source_cases es _ D M) as [(rs & Ev & Hr & Hn & Hrh & I)|(Is & Nv)].
  - rewrite Ev. cbn [as_str]. destruct (absolute rs) as (s & Es). rewrite Es at 1. rewrite expand_relative_absolute, <- Es. rewrite (nd_other rs I).
    destruct (here K1 (abs_path rs)) eqn:Hr1; cbn [andb negb].
    + apply nd_finish; auto; [apply ext_refl|exists rs; auto|now apply nd_settled].
    + rewrite abs_not_empty, Hrh. cbn [andb]. destruct (nd_rec rs I) as (K3 & E3 & X3 & S3 & D3). rewrite E3. cbn [obind fst snd]. apply nd_finish; auto. exists rs. auto.
  - rewrite (nd_proxy Ho). assert (Fin : answer_ok (finish K1 (abs_path es) bps par None)) by (apply nd_finish; auto; [apply ext_refl|exact I]).
    destruct (as_str (look K1 (abs_path es) INSTANCE_PATH)) as [i|] eqn:Ei; [|exact Fin]. specialize (Nv i eq_refl). destruct (expand_relative_node_path i (abs_path es)) as [real|] eqn:Ex; [|exact Fin].
    assert (Er : real = i). { destruct M as ([E|[E|(rs & _ & _ & E)]] & _); rewrite E in Ei; cbn in Ei; [discriminate| |]; injection Ei as <-; [discriminate Ex|]. destruct (absolute rs) as (s & Es). rewrite Es, expand_relative_absolute in Ex. now injection Ex as <-. }
    subst real. assert (Hi : here K1 i = false). { apply not_true_iff_false. intros Q. destruct (s_keys _ _ S1 i Q) as (rs & -> & Dr). pose proof (rb_here _ _ _ _ (Rb rs Dr)) as Z. unfold in_stage in Z. congruence. }
    rewrite Hi. destruct (is_empty i); [exact Fin|]. rewrite Nv. exact Fin.
Qed.
Lemma nd_proxied : opinions es lower = [] -> answer_ok (add_source H rec K1 (abs_path es) par).
Proof.
  intros Ho. destruct (one_proxy lower L RgL BL ps nm Hes (dr_here _ D) Ho) as (rs & _ & Kp & Ir & I & _). fold es in Kp, I.
  assert (Ep : par = Some (abs_path ps)). { pose proof nd_parent as Np. destruct par as [b|] eqn:Ep; [destruct (Np b eq_refl) as (-> & _); reflexivity|destruct (Ip ps Kp)]. }
  destruct (nd_parent _ Ep) as (_ & _ & Dd & Hp & Hop). pose proof (look_source _ _ S1 ps Dd Hp Hop) as (_ & M). pose proof Ir as (Hr & Hn & _ & R). apply (M rs Hr Hn) in R.
  unfold add_source, source_by_parent. rewrite Ep at 1. rewrite R. cbn [as_str]. destruct (h_kids rs Hr) as (l & El & Hl). rewrite El. unfold es at 1. rewrite (look_name _ _ S1 ps nm D Hh1). cbn [str_of].
  pose proof I as (Hrn & _ & _). pose proof (rb_here _ _ _ _ (Rb _ (dr_source _ _ D I))) as Hrh.
  assert (Fd : List.find (fun q => str_eqb (node_name_from_node_path q) nm) l = Some (abs_path (rs ++ [nm]))).
  { destruct (List.find _ l) as [q|] eqn:Ef.
    - apply find_some in Ef as (Iq & Eq). apply Hl in Iq as (nm' & Hc & -> & _). rewrite node_name_abs in Eq by (apply names_comp, names_snoc; auto). apply str_eqb_eq in Eq as ->. reflexivity.
    - exfalso. assert (Iq : In (abs_path (rs ++ [nm])) l) by (apply Hl; exists nm; split; [now apply names_snoc in Hrn|auto]). pose proof (find_none _ _ Ef _ Iq) as Z. cbv beta in Z. rewrite node_name_abs in Z by (now apply names_comp). now rewrite str_eqb_refl in Z. }
  rewrite Fd, abs_not_empty. unfold in_stage in Hrh. rewrite Hrh. fold bps. rewrite (look_dummy_source _ _ S1 es D Hh1 Ho).
  assert (Oth : match attr H (abs_path es) INSTANCE_PATH with VStr s => negb (str_in s bps) | _ => true end = true).
  { destruct (attr H (abs_path es) INSTANCE_PATH) as [| | |s| | | |] eqn:Ea; try reflexivity. apply negb_true_iff, MergeProofs.str_in_false. intros Q. apply nd_bps in Q. subst s. apply (h_no_self es); auto. exact (rb_here _ _ _ _ (Rb es D)). }
  rewrite Oth. cbn [andb]. destruct (nd_rec _ I) as (K3 & E3 & X3 & S3 & D3). rewrite abs_not_empty. cbn [andb]. rewrite E3. cbn [obind fst snd]. apply nd_finish; auto. exists (rs ++ [nm]). auto.
Qed.
End After.

Lemma node_ok : answer_ok (obind (fold_out (ancestor_step H lower rec) (rev (all_ancestor_paths (abs_path es) ++ [WORLD])) (K0, None)) (fun r => add_source H rec (fst r) (abs_path es) (snd r))).
Proof.
  rewrite (ancestors_of es Hes Nes). destruct (loop_ok n rec W K0 es Gr T D C nd_shape es []) as (K1 & par & E & S1 & X1 & Ip & Dp); [now rewrite app_nil_r|]. rewrite E. cbn [obind fst snd].
  destruct (opinions es lower) eqn:Eo; [apply nd_proxied|apply nd_layer]; auto. rewrite Eo. discriminate.
Qed.
End Node.

Lemma infer_ok : forall n fuel, n <= fuel -> good_rec n (infer H lower fuel).
Proof.
  induction n as [|n IH]; intros fuel Hf W K rs Dr Hn Tr S C; [lia|]. destruct fuel as [|fuel]; [lia|]. pose proof (dr_names _ Dr) as Hr. destruct rs as [|nm ps _] using rev_ind; [congruence|].
  pose proof (rb_here _ _ _ _ (Rb _ Dr)) as Hrh. cbn [infer]. rewrite (comp_place layers H wfH BH ps nm Hr Hrh).
  destruct (here K (abs_path (ps ++ [nm]))) eqn:Hk; [exists K; split; [reflexivity|]; split; [exact S|]; split; [apply ext_refl|exact Hk]|].
  apply (node_ok n (infer H lower fuel) W K ps nm); auto; [apply IH; lia|lia].
Qed.
Lemma start_shape : shape [] (no_nodes lower).
Proof.
  split; try discriminate.
  - exists []. now rewrite app_nil_r.
  - intros es [].
Qed.
Lemma rolled_back fuel : top <> [] -> tall L (Co (abs_path top)) < fuel ->
  exists K, infer H lower fuel (no_nodes lower) (abs_path top) = Some (Ok (K, Some (abs_path top))) /\ (forall a, ~ In a internal_keys -> reads K top a = reads L top a) /\
    forall es, names es -> in_stage K es -> drawn es.
Proof.
  intros Hn Hf. destruct (infer_ok fuel fuel (Nat.le_refl _) [] (no_nodes lower) top (draws_self L top) Hn Hf start_shape (fun w I => match I with end)) as (K & E & S & _ & Hh).
  exists K. split; [exact E|]. split; [intros a Ha; apply (done_reads _ _ S top a); auto; constructor|]. intros es He Q. destruct (s_keys _ _ S _ Q) as (fs & Ep & Df). apply path_inj in Ep; [now subst|exact He|now apply dr_names].
Qed.
End Roll.

(** *** Layers below that instance nothing *)
Lemma quiet_source layers es rs : no_instances layers -> names rs -> ~ source_in layers es rs.
Proof.
  intros Ni Hr (m & (s & w & E & Sm & _) & Ev). assert (I : In m (opinions es layers)) by (rewrite E; apply in_or_app; right; now left). unfold opinions in I. apply in_map_iff in I as (r & <- & I). apply filter_In in I as (I & _).
  apply in_concat in I as (l & Il & Ir). destruct (Ni l r Il Ir) as [Q|Q]; pose proof (eq_trans (eq_sym Q) Ev) as Ev0; clear Ev; rename Ev0 into Ev; [discriminate|]. injection Ev as Ev. symmetry in Ev. now apply path_not_empty in Ev.
Qed.
Lemma quiet_regular layers : well_formed layers -> gapless layers -> no_instances layers -> regular layers.
Proof. intros wf gl Ni. split; auto; [intros a b rs _ _ _ Hr _; now apply quiet_source|intros cs rs _ Hr _ Q; destruct (quiet_source layers cs rs Ni Hr Q)]. Qed.
Lemma quiet_layer layers L : regular layers -> stage_of layers L -> no_instances layers -> forall es, names es -> in_stage L es -> opinions es layers <> [].
Proof.
  intros Rg B Ni. pose proof (r_fits _ Rg) as wf. induction es as [|nm ps IH] using rev_ind; intros He Hh; [now apply (one_root layers L Rg B)|]. intros Eo.
  destruct (one_proxy layers L Rg B ps nm He Hh Eo) as (rs & Hp & _ & (Hr & Hn & _ & R) & _). assert (Hps : names ps) by (now apply names_app in He).
  apply (C34_instance_path layers L wf B ps rs Hps (one_pure layers Rg ps Hps) (IH Hps Hp) Hr Hn) in R. exact (quiet_source layers ps rs Ni Hr R).
Qed.
Lemma quiet_rolls upper lower H L : well_formed (upper ++ lower) -> stage_of (upper ++ lower) H -> regular lower -> stage_of lower L -> no_instances lower ->
  forall es, names es -> in_stage L es -> rolls_back H L lower es.
Proof.
  intros wf B Rg BL Ni es He Hh. pose proof (quiet_layer lower L Rg BL Ni) as Q. split.
  - apply (C32_conserved (upper ++ lower) H wf B es He). intros E. apply (Q es He Hh). unfold opinions in *. rewrite concat_app, filter_app, map_app in E. now apply app_eq_nil in E.
  - intros rs Hr Hn R _. exfalso. apply (C34_instance_path lower L (r_fits _ Rg) BL es rs He (one_pure lower Rg es He) (Q es He Hh) Hr Hn) in R. exact (quiet_source lower es rs Ni Hr R).
  - intros d rest rs _ Hr Sr. destruct (quiet_source lower es rs Ni Hr Sr).
  - intros ds Kp. destruct (parent_names L es ds He Kp) as (Hd & Hdh). now apply Q.
Qed.
