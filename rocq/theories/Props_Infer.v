(** C65: rolling a composed node back to the layers below agrees with composing
    those layers (Infer.v). *)

From Coq Require Import String List NArith ZArith Bool Arith Lia.
From Verif Require Import PyStr PyStrFacts NxtPath PathSpec PathProofs Dict DictFacts Resolve Layer LayerOver LayerOverProofs PyVal NodeIO PyClass Comp CompSpec CompProofs CompTreeProofs CompStageProofs
  StageView StageViewProofs DirtyStageSpec LocalSpec AttrNamesSpec LocalProofs Live Props_Comp Props_CompCases Props_Dirty Infer InferSpec InferProofs.
Import ListNotations.

(** The layers a node is rolled back to: those given, else those of the comp
    layer's range that are [depth] further down and take part. *)
Definition rolled_to (sub_layers : list below) (range : nat * nat) (given : list below) (depth : Z) (lower : list (list layer_row)) : Prop :=
  (0 < depth)%Z /\ lower <> [] /\
  (map bl_table given = lower \/
   given = [] /\ exists off on, sub_layers = off ++ on /\ length off = fst range + Z.to_nat depth /\ length sub_layers = S (snd range) /\
     (forall l, In l on -> bl_muted l = false /\ bl_soloed l = false) /\ map bl_table on = lower).

Lemma rolled_run sub_layers range given depth lower fuel H p : rolled_to sub_layers range given depth lower ->
  infer_lower_comp fuel sub_layers range H p given depth =
  omap (fun r => match snd r with Some q => Rolled (fst r) q | None => Nothing end) (infer H lower fuel (no_nodes lower) p).
Proof.
  intros (D & Ne & Q). unfold infer_lower_comp. assert (E0 : (depth =? 0)%Z = false) by (apply Z.eqb_neq; lia). assert (E1 : (depth <? 0)%Z = false) by (apply Z.ltb_ge; lia). rewrite E0. cbv zeta.
  assert (G : forall act, map bl_table act = lower -> match act with [] => Some (Ok Nothing) | _ => if (depth <? 0)%Z then Some (Ok Nothing) else let tables := map bl_table act in
     omap (fun r => match snd r with Some q => Rolled (fst r) q | None => Nothing end) (infer H tables fuel (no_nodes tables) p) end =
     omap (fun r => match snd r with Some q => Rolled (fst r) q | None => Nothing end) (infer H lower fuel (no_nodes lower) p)).
  { intros [|x act] E; [now destruct Ne|]. rewrite E1. cbv zeta. now rewrite E. }
  destruct Q as [E|(-> & off & on & -> & Lo & Ls & Hon & E)].
  - destruct given as [|g given]; [now destruct Ne|]. exact (G _ E).
  - replace (firstn (S (snd range) - (fst range + Z.to_nat depth)) (skipn (fst range + Z.to_nat depth) (off ++ on))) with on.
    2:{ rewrite <- Lo, skipn_app, skipn_all, Nat.sub_diag. cbn [skipn app]. rewrite <- Ls, app_length. replace (length off + length on - length off) with (length on) by lia. now rewrite firstn_all. }
    rewrite active_layers_spec. assert (Es : existsb bl_soloed on = false). { apply not_true_iff_false. intros X. apply existsb_exists in X as (l & I & X). destruct (Hon l I). congruence. }
    rewrite Es. assert (Em : filter (fun l => negb (bl_muted l)) on = on). { clear -Hon. induction on as [|x l IH]; [reflexivity|]. cbn. destruct (Hon x (or_introl eq_refl)) as (-> & _). cbn. rewrite IH; auto. intros y Y. apply Hon. now right. }
    rewrite Em. exact (G on E).
Qed.

(** Let [H] be the stage that shows all layers and [L] the stage the layers below
    would compose to on their own.  When everything a node of [L] takes part in
    [L] can still be found from [H] (rolls_back), rolling the node back in [H]
    gives a node at its path with exactly the user attributes, comments, types and
    sources it has in [L], and looks at no node that it does not draw from. *)
Theorem C65_lower :
  forall layers lower H L top, well_formed layers -> stage_of layers H ->
  regular lower -> one_each lower -> no_proxies lower -> stage_of lower L ->
  names top -> top <> [] -> in_stage L top -> (forall es, draws L top es -> rolls_back H L lower es) ->
  exists fuel0, forall fuel sub_layers range given depth, fuel0 < fuel -> rolled_to sub_layers range given depth lower ->
    exists K, infer_lower_comp fuel sub_layers range H (abs_path top) given depth = Some (Ok (Rolled K (abs_path top))) /\
      (forall a, ~ In a internal_keys -> reads K top a = reads L top a) /\
      (forall es, names es -> in_stage K es -> draws L top es).
Proof.
  intros layers lower H L top wfH BH Rg Oe Np BL Ht Hn Hh Rb. exists (tall L (Co (abs_path top))). intros fuel sub_layers range given depth Hf Rt.
  destruct (stage_parts lower L (r_fits _ Rg) BL) as (H1 & F & P).
  destruct (rolled_back layers lower H L wfH BH Rg BL Oe Np top Ht Hh Rb H1 F P fuel Hn Hf) as (K & E & A & B).
  exists K. split; [|auto]. rewrite (rolled_run _ _ _ _ lower) by exact Rt. rewrite E. reflexivity.
Qed.
Print Assumptions C65_lower.

(** When the layers below instance nothing, this is so for all their nodes,
    whatever the layers above say. *)
Theorem C65_plain :
  forall upper lower H L top, well_formed (upper ++ lower) -> stage_of (upper ++ lower) H ->
  gapless lower -> one_each lower -> no_proxies lower -> no_instances lower -> stage_of lower L ->
  names top -> top <> [] -> opinions top lower <> [] ->
  exists fuel0, forall fuel sub_layers range given depth, fuel0 < fuel -> rolled_to sub_layers range given depth lower ->
    exists K, infer_lower_comp fuel sub_layers range H (abs_path top) given depth = Some (Ok (Rolled K (abs_path top))) /\
      (forall a, ~ In a internal_keys -> reads K top a = reads L top a).
Proof.
  intros upper lower H L top wf B gll Oe Np Ni BL Ht Hn Ho. assert (wfl : well_formed lower) by (intros l r Il Ir; apply (wf l r); [apply in_or_app; now right|exact Ir]).
  pose proof (quiet_regular lower wfl gll Ni) as Rg. pose proof (C32_conserved lower L wfl BL top Ht Ho) as Hh.
  destruct (C65_lower (upper ++ lower) lower H L top wf B Rg Oe Np BL Ht Hn Hh) as (f0 & G).
  - intros es D. destruct (draws_names L top es D Ht Hh) as (He & Hes). now apply (quiet_rolls upper lower H L).
  - exists f0. intros fuel sub_layers range given depth Hf Rt. destruct (G fuel sub_layers range given depth Hf Rt) as (K & E & A & _). eauto.
Qed.
Print Assumptions C65_plain.

(** Rolling back by nothing gives the node itself; upwards, or with no layer left,
    nothing. *)
Theorem C65_edges :
  forall fuel sub_layers range H p given, infer_lower_comp fuel sub_layers range H p given 0 = Some (Ok Same) /\
  (forall depth, (depth < 0)%Z -> infer_lower_comp fuel sub_layers range H p given depth = Some (Ok Nothing)) /\
  (forall depth, (0 < depth)%Z -> given = [] -> length sub_layers <= fst range + Z.to_nat depth -> infer_lower_comp fuel sub_layers range H p given depth = Some (Ok Nothing)).
Proof.
  intros fuel sub_layers range H p given. split; [reflexivity|]. split.
  - intros depth D. unfold infer_lower_comp. assert (E0 : (depth =? 0)%Z = false) by (apply Z.eqb_neq; lia). assert (E1 : (depth <? 0)%Z = true) by (now apply Z.ltb_lt). rewrite E0, E1. cbv zeta. now destruct (match given with [] => _ | _ => _ end).
  - intros depth D -> Hl. unfold infer_lower_comp. assert (E0 : (depth =? 0)%Z = false) by (apply Z.eqb_neq; lia). rewrite E0. cbv zeta. rewrite skipn_all2 by exact Hl. now rewrite firstn_nil.
Qed.
Print Assumptions C65_edges.

(** ** Examples *)
Definition shown (layers : list (list layer_row)) : list below := map (fun t => {| bl_muted := false; bl_soloed := false; bl_table := t |}) layers.
(** The stage that shows all layers, asked for a node as of the layers below. *)
Definition roll (upper lower : list (list layer_row)) (p : string) : option (res rolled) :=
  infer_lower_comp 20 (shown (upper ++ lower)) (0, length (upper ++ lower) - 1) (composed (upper ++ lower)) (lit p) [] (Z.of_nat (length upper)).
Lemma shown_tables layers : map bl_table (shown layers) = layers.
Proof. unfold shown. rewrite map_map. apply map_id. Qed.
Lemma roll_to upper lower : upper <> [] -> lower <> [] -> rolled_to (shown (upper ++ lower)) (0, length (upper ++ lower) - 1) [] (Z.of_nat (length upper)) lower.
Proof.
  intros Hu Hl. split; [destruct upper; [congruence|cbn; lia]|]. split; [exact Hl|]. right. split; [reflexivity|]. exists (shown upper), (shown lower). unfold shown. split; [apply map_app|]. rewrite !map_length, app_length. cbn [fst snd].
  split; [rewrite Nat2Z.id; reflexivity|]. split; [destruct upper; [congruence|]; cbn [length Nat.add]; rewrite Nat.sub_succ, Nat.sub_0_r, ?app_length, ?map_length; reflexivity|]. split; [|apply shown_tables]. intros l I. apply in_map_iff in I as (t & <- & _). auto.
Qed.

(** Checking the hypothesis of C65_lower. *)
Definition rolls_ok (H L : heap) (lower : list (list layer_row)) (es : list pystr) : bool :=
  here H (abs_path es) &&
  match reads L es INSTANCE_PATH with Some (VStr s) => implb (here H s) (here L s) | _ => true end &&
  match opinions es lower with
  | [] => true
  | d :: _ => forallb (fun m => match value m INSTANCE_PATH with
                                | VStr s => str_eqb s [] || negb (str_eqb s WORLD) && match value d INSTANCE_PATH with VStr s' => str_eqb s s' | _ => false end
                                | _ => true
                                end) (opinions es lower)
  end &&
  forallb (fun k => implb (here L (abs_path (firstn k es))) (negb (match opinions (firstn k es) lower with [] => true | _ => false end))) (seq 0 (length es)).
Lemma rolls_ok_spec H L lower es : names es -> rolls_ok H L lower es = true -> rolls_back H L lower es.
Proof.
  intros He Q. apply andb_true_iff in Q as (Q & Q4). apply andb_true_iff in Q as (Q & Q3). apply andb_true_iff in Q as (Q1 & Q2). split.
  - exact Q1.
  - intros rs Hr Hn E Hh. rewrite E in Q2. unfold in_stage in *. rewrite Hh in Q2. exact Q2.
  - intros d rest rs Eo Hr (m & (s & w & Em & _ & _) & Ev). rewrite Eo in Q3. rewrite forallb_forall in Q3. specialize (Q3 m). rewrite Ev in Q3.
    assert (I : In m (d :: rest)) by (rewrite <- Eo, Em; apply in_or_app; right; now left). specialize (Q3 I). apply orb_true_iff in Q3 as [Q3|Q3]; [apply str_eqb_eq in Q3; now apply path_not_empty in Q3|].
    apply andb_true_iff in Q3 as (A & B). apply negb_true_iff, str_eqb_neq in A. split; [intros ->; now apply A|]. destruct (value d INSTANCE_PATH); try discriminate. apply str_eqb_eq in B. now subst.
  - intros ds (k & Kk & -> & Kh & _). rewrite forallb_forall in Q4. specialize (Q4 k). assert (I : In k (seq 0 (length es))) by (apply in_seq; lia). specialize (Q4 I). unfold in_stage in Kh. rewrite Kh in Q4. cbn in Q4. now destruct (opinions (firstn k es) lower).
Qed.
Lemma rolls_all layers H L lower top cands : well_formed lower -> stage_of lower L -> names top -> in_stage L top -> (forall es, In es cands -> names es) ->
  match mro_of L (Co (abs_path top)) with
  | Some l => forallb (fun r => match r with Co p => existsb (fun es => str_eqb p (abs_path es) && rolls_ok H L lower es) cands | Sp _ => true end) l
  | None => false
  end = true -> stage_of layers H -> forall es, draws L top es -> rolls_back H L lower es.
Proof.
  intros wf B Ht Hh Hc Q _ es D. destruct (stage_parts lower L wf B) as (H1 & F & P). destruct (draws_names L top es D Ht Hh) as (He & _). destruct (mro_of L (Co (abs_path top))) as [l|] eqn:El; [|discriminate].
  apply (draws_mro lower H1 F L wf P top es l Ht Hh He El) in D. rewrite forallb_forall in Q. specialize (Q _ D). cbv beta iota in Q. apply existsb_exists in Q as (fs & I & Q). apply andb_true_iff in Q as (E & Q). apply str_eqb_eq in E. apply path_inj in E; auto; subst. now apply rolls_ok_spec.
Qed.
Local Ltac name_ok := repeat (constructor; [split; [split; [discriminate|vm_compute; intuition discriminate]|vm_compute; intuition discriminate]|]); constructor.
Local Ltac fits_in := intros l0 r0 Hl Hr; repeat destruct Hl as [<-|Hl]; try contradiction; cbn [In] in Hr; repeat destruct Hr as [<-|Hr]; try contradiction; try apply world_fits; (apply row_fits; [name_ok| |reflexivity]; try (left; reflexivity)); right.
Local Ltac regular_in := constructor; [fits_in|apply gap_free_gapless; vm_compute; reflexivity|apply pure_rows_pure; vm_compute; reflexivity|apply low_sources_spec; vm_compute; reflexivity].
Local Ltac built_in := apply composed_built; vm_compute; reflexivity.

(** t instances s below; above, s and t say otherwise and s/c is moved on. *)
Definition inst_low : list (list layer_row) :=
  [[world_row "low"; row "low" [] "s" (user "x" "1"); row "low" [s_] "c" (user "y" "2"); row "low" [] "t" ((lit "instance", VStr (lit "/s")) :: user "z" "3")]].
Definition inst_top : list (list layer_row) :=
  [[world_row "top"; row "top" [] "s" (user "x" "8"); row "top" [s_] "c" (user "y" "9"); row "top" [] "t" (user "w" "7")]].
Fixpoint once {A} (dec : forall x y : A, {x = y} + {x <> y}) (l : list A) : bool :=
  match l with [] => true | x :: l => (if in_dec dec x l then false else true) && once dec l end.
Lemma once_spec {A} dec (l : list A) : once dec l = true -> NoDup l.
Proof. induction l as [|x l IH]; cbn; [constructor|]. destruct (in_dec dec x l); [discriminate|]. constructor; auto. Qed.
Lemma one_each_spec layers : forallb (fun l => once (list_eq_dec (list_eq_dec N.eq_dec)) (map fst l)) layers = true -> one_each layers.
Proof. intros Q l I. rewrite forallb_forall in Q. apply once_spec with (dec := list_eq_dec (list_eq_dec N.eq_dec)). exact (Q l I). Qed.
Definition proxy_free (layers : list (list layer_row)) : bool := forallb (forallb (fun r => negb (truthy (value (snd r) PROXY)))) layers.
Lemma proxy_free_spec layers : proxy_free layers = true -> no_proxies layers.
Proof. intros Q l r Il Ir. unfold proxy_free in Q. rewrite forallb_forall in Q. specialize (Q l Il). rewrite forallb_forall in Q. specialize (Q r Ir). now apply negb_true_iff in Q. Qed.

Example C65_lower_ex : well_formed (inst_top ++ inst_low) /\ stage_of (inst_top ++ inst_low) (composed (inst_top ++ inst_low)) /\ regular inst_low /\ one_each inst_low /\ no_proxies inst_low /\
  stage_of inst_low (composed inst_low) /\ in_stage (composed inst_low) [t_; c_] /\ opinions [t_; c_] inst_low = [] /\
  (forall es, draws (composed inst_low) [t_; c_] es -> rolls_back (composed (inst_top ++ inst_low)) (composed inst_low) inst_low es) /\
  rolled_to (shown (inst_top ++ inst_low)) (0, 1) [] 1 inst_low /\
  exists K, roll inst_top inst_low "/t/c" = Some (Ok (Rolled K (lit "/t/c"))) /\ map (reads K [t_; c_]) [lit "x"; lit "y"; lit "z"; lit "w"] =
    [Some (VStr (lit "1")); Some (VStr (lit "2")); Some (VStr (lit "3")); None].
Proof.
  assert (wf : well_formed (inst_top ++ inst_low)) by (fits_in; exists [s_]; (split; [name_ok|reflexivity])). split; [exact wf|]. assert (B : stage_of (inst_top ++ inst_low) (composed (inst_top ++ inst_low))) by built_in. split; [exact B|].
  assert (Rg : regular inst_low) by (regular_in; exists [s_]; (split; [name_ok|reflexivity])). split; [exact Rg|]. split; [apply one_each_spec; vm_compute; reflexivity|]. split; [apply proxy_free_spec; vm_compute; reflexivity|].
  assert (BL : stage_of inst_low (composed inst_low)) by built_in. split; [exact BL|]. split; [vm_compute; reflexivity|]. split; [vm_compute; reflexivity|]. split.
  - apply (rolls_all (inst_top ++ inst_low) _ _ _ _ [[]; [s_]; [t_]; [s_; c_]; [t_; c_]]); [apply Rg|exact BL|name_ok|vm_compute; reflexivity| |vm_compute; reflexivity|exact B]. intros es I. repeat destruct I as [<-|I]; try contradiction; name_ok.
  - split; [apply (roll_to inst_top inst_low); discriminate|]. destruct (roll inst_top inst_low "/t/c") as [[[| |K q]|e]|] eqn:E; try (vm_compute in E; discriminate E).
    exists K. vm_compute in E. injection E as <- <-. split; vm_compute; reflexivity.
Qed.
Definition plain_low : list (list layer_row) := [[world_row "mid"; row "mid" [] "s" []; row "mid" [s_] "c" (user "x" "1")]; [world_row "low"; row "low" [] "s" (user "x" "2"); row "low" [s_] "c" (user "y" "3")]].
Definition plain_top : list (list layer_row) := [[world_row "top"; row "top" [] "s" (instance "/t"); row "top" [] "t" (user "z" "4"); row "top" [s_] "c" (user "x" "9")]].
Example C65_plain_ex : well_formed (plain_top ++ plain_low) /\ stage_of (plain_top ++ plain_low) (composed (plain_top ++ plain_low)) /\ gapless plain_low /\ one_each plain_low /\ no_proxies plain_low /\ no_instances plain_low /\
  stage_of plain_low (composed plain_low) /\ opinions [s_; c_] plain_low <> [] /\ rolled_to (shown (plain_top ++ plain_low)) (0, 2) [] 1 plain_low /\
  exists K, roll plain_top plain_low "/s/c" = Some (Ok (Rolled K (lit "/s/c"))) /\ map (reads K [s_; c_]) [lit "x"; lit "y"; lit "z"] = [Some (VStr (lit "1")); Some (VStr (lit "3")); None].
Proof.
  split; [fits_in; exists [t_]; (split; [name_ok|reflexivity])|]. split; [built_in|]. split; [apply gap_free_gapless; vm_compute; reflexivity|]. split; [apply one_each_spec; vm_compute; reflexivity|]. split; [apply proxy_free_spec; vm_compute; reflexivity|].
  split. { intros l r Il Ir. repeat destruct Il as [<-|Il]; try contradiction; repeat destruct Ir as [<-|Ir]; try contradiction; left; reflexivity. }
  split; [built_in|]. split; [vm_compute; discriminate|]. split; [apply (roll_to plain_top plain_low); discriminate|].
  destruct (roll plain_top plain_low "/s/c") as [[[| |K q]|e]|] eqn:E; try (vm_compute in E; discriminate E). exists K. vm_compute in E. injection E as <- <-. split; vm_compute; reflexivity.
Qed.

(** ** What is not so *)
Definition differs (upper lower : list (list layer_row)) (cs : list pystr) (a : pystr) (old new : option pyval) : Prop :=
  regular lower /\ stage_of (upper ++ lower) (composed (upper ++ lower)) /\ stage_of lower (composed lower) /\ in_stage (composed lower) cs /\ reads (composed lower) cs a = old /\
  exists K, infer_lower_comp 20 (shown (upper ++ lower)) (0, length (upper ++ lower) - 1) (composed (upper ++ lower)) (abs_path cs) [] (Z.of_nat (length upper)) = Some (Ok (Rolled K (abs_path cs))) /\ reads K cs a = new.
Local Ltac rest_differs := split; [built_in|]; split; [built_in|]; split; [vm_compute; reflexivity|]; split; [vm_compute; reflexivity|];
  match goal with |- exists K, ?e = _ /\ _ => destruct e as [[[| |K q]|err]|] eqn:E; try (vm_compute in E; discriminate E); exists K; vm_compute in E; injection E as <- <-; split; vm_compute; reflexivity end.

(** An instance path that only a weaker of the layers below gives is lost, and
    with it what the source lends. *)
Definition weak_low : list (list layer_row) := [[world_row "mid"; row "mid" [] "t" []]; [world_row "low"; row "low" [] "s" (user "x" "2"); row "low" [] "t" (instance "/s")]].
Definition over_t : list (list layer_row) := [[world_row "top"; row "top" [] "t" []]].
Theorem C65_weak_source_refuted : differs over_t weak_low [t_] (lit "x") (Some (VStr (lit "2"))) None.
Proof. split; [regular_in; exists [s_]; (split; [name_ok|reflexivity])|]. rest_differs. Qed.
Print Assumptions C65_weak_source_refuted.

(** A source that only a layer above has still lends what it has from its
    ancestors below. *)
Definition early_low : list (list layer_row) := [[world_row "low"; row "low" [] "r" (user "x" "1"); row "low" [] "t" (instance "/r/u")]].
Definition early_top : list (list layer_row) := [[world_row "top"; row "top" [] "r" []; row "top" [r_] "u" []]].
Theorem C65_early_source_refuted : differs early_top early_low [t_] (lit "x") None (Some (VStr (lit "1"))).
Proof. split; [regular_in; exists [r_; u_]; (split; [name_ok|reflexivity])|]. rest_differs. Qed.
Print Assumptions C65_early_source_refuted.

(** A comment that only a weaker of the layers below gives is lost. *)
Definition comment_low : list (list layer_row) := [[world_row "mid"; row "mid" [] "t" []]; [world_row "low"; row "low" [] "t" (comment "hi")]].
Theorem C65_comment_refuted : differs over_t comment_low [t_] COMMENT (Some (VStr (lit "hi"))) (Some VNone).
Proof. split; [regular_in|]. rest_differs. Qed.
Print Assumptions C65_comment_refuted.

(** Below a node that instances the world, a node takes the root of the same name
    for its source. *)
Definition world_low : list (list layer_row) := [[world_row "low"; row "low" [] "c" (user "x" "1"); row "low" [] "t" (instance "/"); row "low" [t_] "c" []]].
Theorem C65_world_source_refuted : differs over_t world_low [t_; c_] (lit "x") None (Some (VStr (lit "1"))).
Proof. split; [regular_in; exists []; (split; [name_ok|reflexivity])|]. rest_differs. Qed.
Print Assumptions C65_world_source_refuted.

(** A node that only a layer above has is not answered by nothing but by a node,
    with the attributes of its parent below. *)
Definition absent_low : list (list layer_row) := [[world_row "low"; row "low" [] "r" (user "x" "1")]].
Definition absent_top : list (list layer_row) := [[world_row "top"; row "top" [] "r" []; row "top" [r_] "u" (user "y" "2")]].
Theorem C65_absent_refuted : regular absent_low /\ stage_of (absent_top ++ absent_low) (composed (absent_top ++ absent_low)) /\ stage_of absent_low (composed absent_low) /\ ~ in_stage (composed absent_low) [r_; u_] /\
  exists K, roll absent_top absent_low "/r/u" = Some (Ok (Rolled K (lit "/r/u"))) /\ reads K [r_; u_] (lit "x") = Some (VStr (lit "1")) /\ reads K [r_; u_] (lit "y") = None.
Proof.
  split; [regular_in|]. split; [built_in|]. split; [built_in|]. split; [vm_compute; discriminate|].
  destruct (roll absent_top absent_low "/r/u") as [[[| |K q]|e]|] eqn:E; try (vm_compute in E; discriminate E). exists K. vm_compute in E. injection E as <- <-. repeat split; vm_compute; reflexivity.
Qed.
Print Assumptions C65_absent_refuted.
