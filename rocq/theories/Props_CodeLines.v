(** C59: setting the code of nodes in a composed stage. *)

From Coq Require Import String List NArith ZArith Bool Arith Lia Relations.
From Verif Require Import PyStr PyStrFacts NxtPath PathSpec PathProofs Dict DictFacts ListMerger SortRows Layer PyVal NodeIO PyClass
  Comp CompSpec CompProofs CompPostProofs CompTreeProofs CompStageProofs CompTotalProofs StageView StageViewProofs LiveSpec CompLiveProofs CompSimProofs CarrySpec CarryProofs Props_CompCases Props_Carry DirtyStageSpec DirtyStageProofs Props_Dirty
  CodeLinesSpec CodeLines CodeLinesProofs CodeLinesStepProofs.
Import ListNotations.
Local Ltac name_ok := repeat (constructor; [split; [split; [discriminate|vm_compute; intuition discriminate]|vm_compute; intuition discriminate]|]); constructor.

(** A stage that was composed once and in which code was then set any number of
    times, without composing again, each time where it may be set: [layers] are
    the layers as they are now, [X] the stage and [K] its lists of lines. *)
Inductive worked (fuel : nat) (top : pyval) (one : bool) : list (list layer_row) -> heap -> codes -> Prop :=
| w_start layers H : plain_layers layers -> build_stage fuel top one layers = Built H -> worked fuel top one layers H (stage_codes H)
| w_set layers layers' X K H cs A n B lines X' K' r :
    worked fuel top one layers X K -> build_stage fuel top one layers = Built H ->
    names cs -> cs <> [] ->
    numbered layers = A ++ (ns_of cs, n) :: B ->
    numbered layers' = A ++ (ns_of cs, dset COMPUTE (VList lines) n) :: B ->
    may_set layers H cs A B lines ->
    set_node_code_lines X K (length A) lines = Some (X', K', r) ->
    worked fuel top one layers' X' K'.

Lemma worked_step fuel top one layers X K : worked fuel top one layers X K -> plain_layers layers /\ exists H, build_stage fuel top one layers = Built H /\ in_step H X K.
Proof.
  induction 1 as [layers H Pl Bu|layers layers' X K H cs A n B lines X' K' r W (Pl & H0 & Bu0 & St) Bu Hc Hn E E' May Sc].
  - split; [exact Pl|]. exists H. split; [exact Bu|]. destruct (built_parts _ _ _ _ _ (l_fits _ Pl) Bu) as (H1 & F & P). exact (start_step layers H1 F H (l_fits _ Pl) P (l_code _ Pl)).
  - rewrite Bu in Bu0. injection Bu0 as <-. split; [exact (edit_plain layers layers' cs A B n lines E E' Pl)|].
    pose proof (sim_numbered (only COMPUTE) code_steers (only_sources COMPUTE ltac:(cbn; tauto)) fuel top one layers layers' (edit_rows layers layers' cs A B n lines E E')) as S.
    rewrite Bu in S. destruct (build_stage fuel top one layers') as [H'| |] eqn:Bu'; try contradiction. exists H'. split; [reflexivity|].
    destruct (step_ok layers layers' fuel top one H H' X K cs A B n lines Pl Bu Bu' Hc Hn E E' May St) as (X2 & K2 & E2 & St2). pose proof (eq_trans (eq_sym Sc) E2) as Q. injection Q as -> -> ->. exact St2.
Qed.

(** After any such history, composing the layers as they are now succeeds and
    gives the same nodes; every attribute but the note of where the code comes
    from reads the same there and in the stage worked on; and the lines the
    stage answers for a node are those of the new composition. *)
Theorem C59_history :
  forall fuel top one layers X K, worked fuel top one layers X K ->
  exists H, build_stage fuel top one layers = Built H /\
    forall es, names es ->
      (in_stage X es <-> in_stage H es) /\
      (in_stage H es -> forall a, a <> source_of COMPUTE -> reads X es a = reads H es a) /\
      (in_stage H es -> Some (get_node_code_lines X K (abs_path es)) = reads H es COMPUTE).
Proof.
  intros fuel top one layers X K W. destruct (worked_step _ _ _ _ _ _ W) as (Pl & H & Bu & St). exists H. split; [exact Bu|]. intros es He. destruct (built_parts _ _ _ _ _ (l_fits _ Pl) Bu) as (H1 & F & P). split; [|split].
  - unfold in_stage. now rewrite (sim_here _ H X (s_sim _ _ _ St)).
  - intros Hh a Ha. exact (step_reads layers H1 F H (l_fits _ Pl) P (l_code _ Pl) X K es a St He Hh Ha).
  - intros Hh. rewrite <- (step_reads layers H1 F H (l_fits _ Pl) P (l_code _ Pl) X K es COMPUTE St He Hh) by (vm_compute; discriminate). symmetry. exact (s_reads _ _ _ St es He Hh).
Qed.
Print Assumptions C59_history.

(** The call goes through and answers the lines set. *)
Theorem C59_answer :
  forall fuel top one layers layers' X K H cs A n B lines, worked fuel top one layers X K -> build_stage fuel top one layers = Built H -> names cs -> cs <> [] ->
  numbered layers = A ++ (ns_of cs, n) :: B -> numbered layers' = A ++ (ns_of cs, dset COMPUTE (VList lines) n) :: B -> may_set layers H cs A B lines ->
  exists X' K', set_node_code_lines X K (length A) lines = Some (X', K', Ok lines) /\ worked fuel top one layers' X' K'.
Proof.
  intros fuel top one layers layers' X K H cs A n B lines W Bu Hc Hn E E' May. destruct (worked_step _ _ _ _ _ _ W) as (Pl & H0 & Bu0 & St). rewrite Bu in Bu0. injection Bu0 as <-.
  pose proof (sim_numbered (only COMPUTE) code_steers (only_sources COMPUTE ltac:(cbn; tauto)) fuel top one layers layers' (edit_rows layers layers' cs A B n lines E E')) as S.
  rewrite Bu in S. destruct (build_stage fuel top one layers') as [H'| |] eqn:Bu'; try contradiction.
  destruct (step_ok layers layers' fuel top one H H' X K cs A B n lines Pl Bu Bu' Hc Hn E E' May St) as (X2 & K2 & E2 & _). exists X2, K2. split; [exact E2|]. now apply (w_set fuel top one layers layers' X K H cs A n B lines X2 K2 (Ok lines)).
Qed.
Print Assumptions C59_answer.

(** ** Examples *)

Definition listed_rows (layers : list (list layer_row)) : bool :=
  forallb (fun r => match value (snd r) COMPUTE with VList _ => true | _ => false end) (concat layers).
Lemma listed_rows_spec layers : listed_rows layers = true -> code_lists layers.
Proof.
  intros L l r Hl Hr. unfold listed_rows in L. rewrite forallb_forall in L. assert (Hc : In r (concat layers)) by (apply in_concat; eauto). specialize (L r Hc). destruct (value (snd r) COMPUTE); try discriminate. eauto.
Qed.
Definition worlds_named (layers : list (list layer_row)) : bool :=
  forallb (fun m => match value m NAME with VStr s => str_eqb s (lit "/") | _ => false end) (opinions [] layers).
Lemma worlds_named_spec layers : worlds_named layers = true -> world_names layers.
Proof.
  intros L m Hm. unfold worlds_named in L. rewrite forallb_forall in L. specialize (L m Hm). destruct (value m NAME); try discriminate. apply str_eqb_eq in L. now subst.
Qed.
(** The nodes that rely on a node, checked through the dirty map. *)
Definition silent_rows (layers : list (list layer_row)) (H : heap) (cs : list pystr) : bool :=
  forallb (fun r => negb (str_in (node_namespace_to_str_path (fst r)) (dirties H (abs_path cs))) || negb (has_opinion (value (snd r) COMPUTE))) (concat layers).
Lemma silent_rows_spec layers H cs : plain_layers layers -> stage_of layers H -> names cs -> cs <> [] -> silent_rows layers H cs = true ->
  forall es, relies H es cs -> silent COMPUTE (opinions es layers).
Proof.
  intros Pl St Hc Hn Ch es R m Hm Sy. destruct (opinion_of _ _ _ Hm) as (r & Hr & Er & <-). unfold silent_rows in Ch. rewrite forallb_forall in Ch. specialize (Ch r Hr). apply has_opinion_says in Sy. rewrite Sy in Ch. cbn [negb] in Ch. rewrite orb_false_r in Ch.
  apply negb_true_iff in Ch. rewrite Er, ns_path in Ch. assert (Hes : names es) by (apply clos_trans_t1n in R; inversion R as [x I|x y I _]; subst; apply I). assert (Q : In (abs_path es) (dirties H (abs_path cs))).
  { apply (C58_dirties layers H cs); auto; try apply Pl. exists es. auto. }
  apply str_in_In in Q. congruence.
Qed.
Definition silent_above (cs : list pystr) (A : list layer_row) : bool :=
  forallb (fun r => negb (str_eqb (node_namespace_to_str_path (fst r)) (abs_path cs)) || negb (has_opinion (value (snd r) COMPUTE))) A.
Lemma silent_above_spec cs A : silent_above cs A = true -> forall m, In (ns_of cs, m) A -> ~ says (value m COMPUTE).
Proof.
  intros Ch m Hm Sy. unfold silent_above in Ch. rewrite forallb_forall in Ch. specialize (Ch _ Hm). cbn [fst snd] in Ch. rewrite ns_path, str_eqb_refl in Ch. apply has_opinion_says in Sy. rewrite Sy in Ch. discriminate.
Qed.

Definition code (l : string) : dict pyval := [(lit "code", VList [VStr (lit l)])].
Definition recode (r : layer_row) (lines : list pyval) : layer_row := (fst r, dset COMPUTE (VList lines) (snd r)).
Definition new_lines := [VStr (lit "new")].

(** The two layers of C32: t and u take from s, and w from u; the top layer has
    no code for s and the lower one has. *)
Lemma two_plain : plain_layers two.
Proof.
  constructor; [exact C32_two_fits|apply C43_two_gapless|apply C43_two_gapless|apply low_sources_spec; vm_compute; reflexivity|apply listed_rows_spec; vm_compute; reflexivity|apply worlds_named_spec; vm_compute; reflexivity].
Qed.
Definition two_set : list (list layer_row) := [world_row "top" :: recode (row "top" [] "s" (user "x" "1")) new_lines :: tl (tl top_layer); low_layer].
Definition two_start := stage_codes two_stage.
Definition step (X : heap) (K : codes) (i : nat) (lines : list pyval) : heap * codes :=
  match set_node_code_lines X K i lines with Some (X', K', _) => (X', K') | None => (X, K) end.
Definition two_work := Eval vm_compute in step two_stage two_start 1 new_lines.
Definition two_clear := Eval vm_compute in step (fst two_work) (snd two_work) 1 [].

(** The code is set in the top layer and then taken away again. *)
Example C59_two_set : worked 9 (VStr (lit "top")) false two_set (fst two_work) (snd two_work) /\
  reads (fst two_work) [s_] COMPUTE = Some (VList new_lines) /\ reads (fst two_work) [r_; w_] COMPUTE = Some (VList new_lines) /\
  reads two_stage [r_; w_] COMPUTE = Some (VList [VStr (lit "pass")]).
Proof.
  split; [|split; [|split]; vm_compute; reflexivity]. assert (St : stage_of two two_stage) by exact C32_two_built.
  apply (w_set _ _ _ two two_set two_stage two_start two_stage [s_] [world_row "top"] (snd (row "top" [] "s" (user "x" "1"))) (tl (tl (numbered two))) new_lines (fst two_work) (snd two_work) (Ok new_lines)).
  - apply w_start; [exact two_plain|vm_compute; reflexivity].
  - vm_compute. reflexivity.
  - name_ok.
  - discriminate.
  - vm_compute. reflexivity.
  - vm_compute. reflexivity.
  - split; [apply silent_above_spec; vm_compute; reflexivity|]. split; [|discriminate]. apply silent_rows_spec; [exact two_plain|exact St|name_ok|discriminate|vm_compute; reflexivity].
  - vm_compute. reflexivity.
Qed.
Definition two_set_stage : heap := Eval vm_compute in match build_stage 9 (VStr (lit "top")) false two_set with Built H => H | _ => {| specs := []; comps := []; dirty := [] |} end.
Definition two_cleared : list (list layer_row) := [world_row "top" :: recode (row "top" [] "s" (user "x" "1")) [] :: tl (tl top_layer); low_layer].
Example C59_two_clear : worked 9 (VStr (lit "top")) false two_cleared (fst two_clear) (snd two_clear) /\
  reads (fst two_clear) [s_] COMPUTE = Some (VList [VStr (lit "pass")]) /\ reads (fst two_clear) [r_; w_] COMPUTE = Some (VList [VStr (lit "pass")]).
Proof.
  split; [|split; vm_compute; reflexivity]. assert (Pl : plain_layers two_set) by (exact (proj1 (worked_step _ _ _ _ _ _ (proj1 C59_two_set)))).
  assert (St : stage_of two_set two_set_stage) by (exists 9, (VStr (lit "top")), false; vm_compute; reflexivity).
  apply (w_set _ _ _ two_set two_cleared (fst two_work) (snd two_work) two_set_stage [s_] [world_row "top"] (snd (recode (row "top" [] "s" (user "x" "1")) new_lines)) (tl (tl (numbered two))) [] (fst two_clear) (snd two_clear) (Ok [])).
  - apply C59_two_set.
  - vm_compute. reflexivity.
  - name_ok.
  - discriminate.
  - vm_compute. reflexivity.
  - vm_compute. reflexivity.
  - split; [apply silent_above_spec; vm_compute; reflexivity|]. split; [apply silent_rows_spec; [exact Pl|exact St|name_ok|discriminate|vm_compute; reflexivity]|].
    intros _. split; [vm_compute; discriminate|]. intros (rs & _ & _ & _ & I). exfalso. vm_compute in I. discriminate.
  - vm_compute. reflexivity.
Qed.

(** ** Where the stage is wrong *)

(** The stage reads other code for the node at [es] than a new composition,
    after the code of the node number [i] was set to [lines]. *)
Definition wrong_at (layers layers' : list (list layer_row)) (cs : list pystr) (lines : list pyval) (es : list pystr) : Prop :=
  exists A n B H H' X' K', plain_layers layers /\ names cs /\ cs <> [] /\ numbered layers = A ++ (ns_of cs, n) :: B /\ numbered layers' = A ++ (ns_of cs, dset COMPUTE (VList lines) n) :: B /\
    build_stage 9 (VStr (lit "g")) false layers = Built H /\ build_stage 9 (VStr (lit "g")) false layers' = Built H' /\
    set_node_code_lines H (stage_codes H) (length A) lines = Some (X', K', Ok lines) /\
    in_stage H' es /\ reads X' es COMPUTE <> reads H' es COMPUTE.
Definition stage_or_none (layers : list (list layer_row)) : heap := match build_stage 9 (VStr (lit "g")) false layers with Built H => H | _ => {| specs := []; comps := []; dirty := [] |} end.
Local Ltac fits_two l := intros l0 r0 Hl Hr; unfold l in Hl; repeat destruct Hl as [<-|Hl]; try contradiction; cbn [In] in Hr; repeat destruct Hr as [<-|Hr]; try contradiction; try apply world_fits; (apply row_fits; [name_ok| |reflexivity]; try (left; reflexivity)); right.
Local Ltac plain_by tac := constructor; [tac|apply gap_free_gapless; vm_compute; reflexivity|apply pure_rows_pure; vm_compute; reflexivity|apply low_sources_spec; vm_compute; reflexivity|apply listed_rows_spec; vm_compute; reflexivity|apply worlds_named_spec; vm_compute; reflexivity].
Local Ltac wrong layers layers' i lines :=
  exists (firstn i (numbered layers)), (snd (nth i (numbered layers) (world_row "g"))), (skipn (S i) (numbered layers)), (stage_or_none layers), (stage_or_none layers'),
    (fst (step (stage_or_none layers) (stage_codes (stage_or_none layers)) i lines)), (snd (step (stage_or_none layers) (stage_codes (stage_or_none layers)) i lines));
  split; [|split; [name_ok|]; split; [discriminate|]; split; [vm_compute; reflexivity|]; split; [vm_compute; reflexivity|]; split; [vm_compute; reflexivity|]; split; [vm_compute; reflexivity|];
    split; [vm_compute; reflexivity|]; split; [vm_compute; reflexivity|vm_compute; discriminate]].

(** Code set in a weaker layer is shown although a stronger layer has code. *)
Definition both (low : dict pyval) : list (list layer_row) := [[world_row "g"; row "g" [] "s" (code "one")]; [world_row "h"; row "h" [] "s" low]].
Theorem C59_stronger_refuted : wrong_at (both []) (both (code "new")) [s_] new_lines [s_].
Proof. wrong (both []) (both (code "new")) 3 new_lines. plain_by ltac:(fits_two both). Qed.
Print Assumptions C59_stronger_refuted.

(** Code taken away from an instance shows the source's, although a weaker
    layer has code for the instance. *)
Definition covered (top : dict pyval) : list (list layer_row) :=
  [[world_row "g"; row "g" [] "s" (code "one"); row "g" [] "t" (instance "/s" ++ top)]; [world_row "h"; row "h" [] "t" (code "low")]].
Theorem C59_weaker_refuted : wrong_at (covered (code "new")) (covered []) [t_] [] [t_].
Proof. wrong (covered (code "new")) (covered []) 2 (@nil pyval). plain_by ltac:(fits_two covered). exists [s_]. split; [name_ok|reflexivity]. Qed.
Print Assumptions C59_weaker_refuted.

(** An instance that has code of its own keeps the change from the other
    instances after it. *)
Definition shielded (top : dict pyval) : list (list layer_row) :=
  [[world_row "g"; row "g" [] "s" top; row "g" [] "t" (instance "/s" ++ code "own"); row "g" [] "u" (instance "/s")]; [world_row "h"; row "h" [] "s" (code "low")]].
Theorem C59_shielded_refuted : wrong_at (shielded []) (shielded (code "new")) [s_] new_lines [u_] /\ wrong_at (shielded (code "new")) (shielded []) [s_] [] [u_].
Proof.
  split; [wrong (shielded []) (shielded (code "new")) 1 new_lines|wrong (shielded (code "new")) (shielded []) 1 (@nil pyval)]; plain_by ltac:(fits_two shielded); exists [s_]; (split; [name_ok|reflexivity]).
Qed.
Print Assumptions C59_shielded_refuted.

(** Code taken away from a node whose instance path is the world's shows the
    world's code. *)
Definition coded_world : layer_row :=
  ([[]], match create_node [(lit "name", VStr (lit "/")); (lit "code", VList [VStr (lit "all")])] (VStr (lit "g")) [] false with Ok n => n | Raise _ => [] end).
Lemma coded_world_fits : fits coded_world.
Proof. unfold coded_world. destruct (create_node _ _ _ _) as [nd|] eqn:Ec; [|discriminate]. apply (Props_Comp.C32_loaded_world_fits _ _ _) with (2 := Ec). now left. Qed.
Definition worldly (top : dict pyval) : list (list layer_row) := [[coded_world; row "g" [] "t" (instance "/" ++ top)]].
Theorem C59_world_refuted : wrong_at (worldly (code "new")) (worldly []) [t_] [] [t_].
Proof.
  wrong (worldly (code "new")) (worldly []) 1 (@nil pyval). plain_by ltac:(intros l0 r0 [<-|[]] Hr; destruct Hr as [<-|[<-|[]]]; [apply coded_world_fits|]).
  apply row_fits; [name_ok| |reflexivity]. right. exists []. split; [constructor|reflexivity].
Qed.
Print Assumptions C59_world_refuted.

(** The note of where a node's code comes from is not kept up. *)
Theorem C59_source_refuted : exists H X K, worked 9 (VStr (lit "top")) false two_set X K /\ build_stage 9 (VStr (lit "top")) false two_set = Built H /\
  reads X [s_] (source_of COMPUTE) = Some (VTuple [VStr (lit "low"); VStr (lit "/s")]) /\ reads H [s_] (source_of COMPUTE) = Some (VTuple [VStr (lit "top"); VStr (lit "/s")]).
Proof. exists two_set_stage, (fst two_work), (snd two_work). split; [apply C59_two_set|]. split; [vm_compute; reflexivity|]. split; vm_compute; reflexivity. Qed.
Print Assumptions C59_source_refuted.
