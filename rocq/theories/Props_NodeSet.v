(** C86: setting the comment and the execute input of a node in a layer. *)

From Coq Require Import String List NArith ZArith Bool Arith Lia.
From Verif Require Import PyStr PyStrFacts NxtPath PathSpec PathProofs Dict DictFacts ListMerger SortRows Layer PyVal NodeIO PyClass
  Comp CompSpec CompProofs CompPostProofs CompTreeProofs CompStageProofs CompTotalProofs StageView StageViewProofs LiveSpec CompLiveProofs CompSimProofs CarrySpec CarryProofs LocalSpec Props_CompCases Props_Comp Props_Carry Props_Local NodeSet.
Import ListNotations.
Local Ltac name_ok := repeat (constructor; [split; [split; [discriminate|vm_compute; intuition discriminate]|vm_compute; intuition discriminate]|]); constructor.

(** The layer with what [f] makes of its node at [cs]. *)
Definition at_place (cs ns : list pystr) : bool := if list_eq_dec (list_eq_dec N.eq_dec) ns (ns_of cs) then true else false.
Definition with_node (cs : list pystr) (f : data -> data) (rows : list layer_row) : list layer_row :=
  map (fun r => if at_place cs (fst r) then (fst r, f (snd r)) else r) rows.

Lemma filter_with (P : list pystr -> bool) (f : data -> data) (rows : list layer_row) :
  map snd (filter (fun r => P (fst r)) (map (fun r => if P (fst r) then (fst r, f (snd r)) else r) rows)) = map f (map snd (filter (fun r => P (fst r)) rows)).
Proof.
  induction rows as [|r rows IH]; [reflexivity|]. cbn [map filter]. destruct (P (fst r)) eqn:E; cbn [fst]; rewrite E; [|exact IH]. cbn [map snd]. f_equal. exact IH.
Qed.
Lemma opinions_split cs strong rows weak : opinions cs (strong ++ rows :: weak) = opinions cs strong ++ opinions cs [rows] ++ opinions cs weak.
Proof. unfold opinions. rewrite concat_app. cbn [concat]. rewrite app_nil_r. now rewrite !filter_app, !map_app. Qed.
Lemma opinions_with cs f rows : opinions cs [with_node cs f rows] = map f (opinions cs [rows]).
Proof.
  unfold opinions, with_node. cbn [concat]. rewrite !app_nil_r. exact (filter_with (at_place cs) f rows).
Qed.

(** The two attributes, and the function for each. *)
Definition settable : list pystr := [COMMENT; EXECUTE_IN].
Definition setter (a : pystr) : pyval -> pystr -> pyval -> data -> data := if str_eqb a COMMENT then set_node_comment else set_node_exec_in.
Definition getter (a : pystr) : heap -> pystr -> pyval := if str_eqb a COMMENT then get_node_comment else get_node_exec_in.
Lemma setter_is a : In a settable -> setter a = set_with_source a.
Proof. intros [<-|[<-|[]]]; reflexivity. Qed.
Lemma getter_reads a H cs v : In a settable -> reads H cs a = Some v -> getter a H (abs_path cs) = v.
Proof.
  intros Ha E. assert (Q : getter a H (abs_path cs) = get_or_none H (abs_path cs) a) by (destruct Ha as [<-|[<-|[]]]; reflexivity).
  rewrite Q. unfold get_or_none. unfold reads in E. destruct (getattr H (Co (abs_path cs)) a) as [[r w]|]; [|discriminate]. cbn in E. now injection E.
Qed.
Lemma settable_tracked a : In a settable -> In a tracked. Proof. intros [<-|[<-|[]]]; cbn; tauto. Qed.

Lemma set_reads a rp p v n b : b <> a -> b <> source_of a -> dget b (set_with_source a rp p v n) = dget b n.
Proof. intros B1 B2. unfold set_with_source. rewrite !dget_dset. fold (source_of a). destruct (str_eqb (source_of a) b) eqn:Q; [apply str_eqb_eq in Q; congruence|]. destruct (str_eqb a b) eqn:R; [apply str_eqb_eq in R; congruence|reflexivity]. Qed.
Lemma set_value a rp p v n : In a settable -> value (set_with_source a rp p v n) a = v.
Proof. intros Ha. unfold value, set_with_source. rewrite !dget_dset. replace (str_eqb (a ++ META_SOURCE) a) with false by (destruct Ha as [<-|[<-|[]]]; reflexivity). now rewrite str_eqb_refl. Qed.
Lemma set_other a rp p v n b : In a settable -> In b steering -> value (set_with_source a rp p v n) b = value n b.
Proof.
  intros Ha Hb. unfold value. rewrite set_reads; [reflexivity|..]; intros ->.
  - destruct Ha as [<-|[<-|[]]]; vm_compute in Hb; intuition discriminate.
  - destruct Ha as [<-|[<-|[]]]; vm_compute in Hb; intuition discriminate.
Qed.

Lemma set_fits a rp p v cs r : In a settable -> fits r -> fits (if at_place cs (fst r) then (fst r, set_with_source a rp p v (snd r)) else r).
Proof.
  intros Ha Fr. destruct (at_place cs (fst r)); [|exact Fr]. destruct Fr as (es & He & E & K & G). exists es. cbn [fst snd]. split; [exact He|]. split; [exact E|].
  rewrite !(set_other a rp p v (snd r)) by (auto; cbn; tauto). split; [|exact G].
  intros b Hb. unfold set_with_source. rewrite !dget_dset. destruct (str_eqb _ b); [discriminate|]. destruct (str_eqb a b); [discriminate|now apply K].
Qed.
Lemma set_well_formed a rp p v cs strong rows weak : In a settable -> well_formed (strong ++ rows :: weak) ->
  well_formed (strong ++ with_node cs (set_with_source a rp p v) rows :: weak).
Proof.
  intros Ha wf l r Hl Hr. apply in_app_or in Hl as [Hl|[<-|Hl]].
  - apply (wf l r); [apply in_or_app; now left|exact Hr].
  - unfold with_node in Hr. apply in_map_iff in Hr as (r0 & <- & Hr). apply set_fits; [exact Ha|]. apply (wf rows r0); [apply in_or_app; right; now left|exact Hr].
  - apply (wf l r); [apply in_or_app; right; now right|exact Hr].
Qed.
Lemma set_edited a rp p v cs strong rows weak : Forall2 (Forall2 (edited a cs)) (strong ++ rows :: weak) (strong ++ with_node cs (set_with_source a rp p v) rows :: weak).
Proof.
  assert (Refl : forall r, edited a cs r r) by (intros r; now repeat split).
  assert (R1 : forall l, Forall2 (edited a cs) l l) by (induction l; constructor; auto).
  apply Forall2_app; [|constructor].
  - induction strong; constructor; auto.
  - induction rows as [|r rows IH]; constructor; [|exact IH]. unfold at_place. match goal with |- context [if (if ?d then _ else _) then _ else _] => destruct d as [E|E] end; [|apply Refl].
    split; [reflexivity|]. split; [intros N; contradiction|]. intros b B1 B2. cbn [snd]. symmetry. now apply set_reads.
  - induction weak; constructor; auto.
Qed.
Lemma stage_edited a rp p v cs strong rows weak H : In a settable -> stage_of (strong ++ rows :: weak) H ->
  exists H', stage_of (strong ++ with_node cs (set_with_source a rp p v) rows :: weak) H' /\
    forall es b, (in_stage H es <-> in_stage H' es) /\ (b <> a -> b <> source_of a -> reads H es b = reads H' es b).
Proof.
  intros Ha (fuel & top & one & B).
  set (layers' := strong ++ with_node cs (set_with_source a rp p v) rows :: weak).
  pose proof (C57_carried (only a) fuel top one (strong ++ rows :: weak) layers') as C.
  assert (D : Forall2 (Forall2 (differ_only (only a))) (strong ++ rows :: weak) layers').
  { pose proof (set_edited a rp p v cs strong rows weak) as D. fold layers' in D. revert D. generalize (strong ++ rows :: weak), layers'. intros L L' D.
    induction D as [|l l' L L' Hl D IH]; constructor; [|exact IH]. clear -Hl. induction Hl as [|r r' l l' Hr Hl IH]; constructor; [|exact IH]. exact (edited_near a cs r r' Hr). }
  specialize (C (only_steers a (settable_tracked a Ha))).
  assert (So : forall b, In b tracked -> only a b = true -> only a (source_of b) = true).
  { intros b Hb. destruct Ha as [<-|[<-|[]]]; cbn in Hb; repeat destruct Hb as [<-|Hb]; try destruct Hb; vm_compute; auto. }
  specialize (C So D). rewrite B in C. destruct (build_stage fuel top one layers') as [H'| |] eqn:B'; try contradiction.
  exists H'. split; [exists fuel, top, one; exact B'|]. intros es b. destruct (C es) as (C1 & C2 & _). split; [exact C1|]. intros B1 B2. apply C2. unfold only.
  apply orb_false_iff. split; now apply str_eqb_neq.
Qed.

Section Setting.
Variables (a : pystr) (cs : list pystr) (strong weak : list (list layer_row)) (rows : list layer_row) (n : data) (real_path : pystr) (v : pyval) (H : heap).
Hypothesis Ha : In a settable.
Hypothesis wf : well_formed (strong ++ rows :: weak).
Hypothesis B : stage_of (strong ++ rows :: weak) H.
Hypothesis Hc : names cs.
(** The layer has one node at the place, and knows it as its own. *)
Hypothesis One : opinions cs [rows] = [n].
Hypothesis Own : value n SOURCE_LAYER = VStr real_path.
Let layers' := strong ++ with_node cs (setter a (VStr real_path) (abs_path cs) v) rows :: weak.

Lemma new_opinions : opinions cs layers' = opinions cs strong ++ set_with_source a (VStr real_path) (abs_path cs) v n :: opinions cs weak.
Proof. unfold layers'. rewrite opinions_split, opinions_with, One, (setter_is a Ha). reflexivity. Qed.
Lemma new_fits : well_formed layers'.
Proof. unfold layers'. rewrite (setter_is a Ha). now apply set_well_formed. Qed.

(** The edited layers compose; the same nodes exist; and nothing but the
    attribute set, and its source, reads differently at any node. *)
Theorem C86_nothing_else : exists H', stage_of layers' H' /\
  forall es b, (in_stage H es <-> in_stage H' es) /\ (b <> a -> b <> source_of a -> reads H es b = reads H' es b).
Proof. unfold layers'. rewrite (setter_is a Ha). apply stage_edited; assumption. Qed.

(** When no stronger layer says anything, the composed node has what was set,
    and its source is the layer it was set in. *)
Theorem C86_seen : forall H', stage_of layers' H' -> silent a (opinions cs strong) -> says v ->
  getter a H' (abs_path cs) = v /\ reads H' cs (source_of a) = Some (VTuple [VStr real_path; VStr (abs_path cs)]).
Proof.
  intros H' B' Si Sv. destruct (C32_strongest layers' H' new_fits B' cs a (set_with_source a (VStr real_path) (abs_path cs) v n) Hc (settable_tracked a Ha)) as (E1 & E2).
  - exists (opinions cs strong), (opinions cs weak). split; [exact new_opinions|]. rewrite set_value by exact Ha. split; [exact Sv|exact Si].
  - rewrite set_value in E1 by exact Ha. rewrite set_other in E2 by (auto; cbn; tauto). rewrite Own in E2. split; [now apply getter_reads|exact E2].
Qed.

(** When a stronger layer says something, that stays. *)
Theorem C86_hidden : forall H' m, stage_of layers' H' -> speaks_first a (opinions cs strong) m ->
  getter a H' (abs_path cs) = value m a /\ getter a H' (abs_path cs) = getter a H (abs_path cs) /\ reads H' cs (source_of a) = reads H cs (source_of a).
Proof.
  intros H' m B' Sp.
  assert (Q : forall rest, speaks_first a (opinions cs strong ++ rest) m).
  { intros rest. destruct Sp as (s & w & E & S1 & S2). exists s, (w ++ rest). split; [rewrite E, <- app_assoc; reflexivity|now split]. }
  destruct (C32_strongest layers' H' new_fits B' cs a m Hc (settable_tracked a Ha)) as (E1 & E2); [rewrite new_opinions; apply Q|].
  destruct (C32_strongest _ H wf B cs a m Hc (settable_tracked a Ha)) as (E3 & E4); [rewrite opinions_split; apply Q|].
  rewrite (getter_reads a H' cs _ Ha E1), (getter_reads a H cs _ Ha E3). split; [reflexivity|]. split; [reflexivity|]. now rewrite E2, E4.
Qed.

(** Setting None takes the layer's word back: the next one says. *)
Theorem C86_taken_back : forall H' m, stage_of layers' H' -> v = VNone -> speaks_first a (opinions cs strong ++ opinions cs weak) m ->
  getter a H' (abs_path cs) = value m a /\ reads H' cs (source_of a) = Some (VTuple [value m SOURCE_LAYER; VStr (abs_path cs)]).
Proof.
  intros H' m B' Ev Sp. destruct (C32_strongest layers' H' new_fits B' cs a m Hc (settable_tracked a Ha)) as (E1 & E2).
  - rewrite new_opinions. destruct Sp as (s & w & E & S1 & S2).
    assert (Nv : ~ says (value (set_with_source a (VStr real_path) (abs_path cs) v n) a)) by (rewrite set_value by exact Ha; rewrite Ev; intros (N & _); now apply N).
    revert S2 E. generalize (opinions cs strong), (opinions cs weak). intros P Q S2 E. clear -S1 S2 E Nv. revert s S2 E. induction P as [|x P IH]; intros s S2 E.
    + cbn in E. exists (set_with_source a (VStr real_path) (abs_path cs) v n :: s), w. split; [cbn; now rewrite E|]. split; [exact S1|]. intros y [<-|Hy]; [exact Nv|now apply S2].
    + destruct s as [|y s]; cbn in E.
      * injection E as -> E. exists [], (P ++ set_with_source a (VStr real_path) (abs_path cs) v n :: Q). split; [reflexivity|]. split; [exact S1|]. intros y [].
      * injection E as -> E. destruct (IH s (fun z Hz => S2 z (or_intror Hz)) E) as (s' & w' & E' & _ & S2'). exists (y :: s'), w'. split; [cbn; now rewrite E'|]. split; [exact S1|]. intros z [<-|Hz]; [apply S2; now left|now apply S2'].
  - split; [now apply getter_reads|exact E2].
Qed.

(** An instance that says nothing itself shows the comment set on its source,
    but not the execute input. *)
Theorem C86_instances : forall H' es, stage_of layers' H' -> names es -> es <> cs -> opinions es (strong ++ rows :: weak) <> [] ->
  silent a (opinions es (strong ++ rows :: weak)) -> instances H' es cs -> silent a (opinions cs strong) -> says v ->
  (a = COMMENT -> getter a H' (abs_path es) = v) /\ (a = EXECUTE_IN -> reads H' es a = reads H es a).
Proof.
  intros H' es B' He Ne Oe Se I Si Sv. destruct (C86_seen H' B' Si Sv) as (E1 & _).
  assert (Oe' : opinions es layers' = opinions es (strong ++ rows :: weak)).
  { symmetry. unfold layers'. rewrite (setter_is a Ha). apply (edited_opinions a cs); [apply set_edited|]. intros E. apply Ne. now apply ns_of_inj in E. }
  split; intros Ea.
  - destruct (C34_passed_on layers' H' new_fits B' es cs a He) as (E2 & _); [now rewrite Oe'|rewrite Ea; cbn; tauto|now rewrite Oe'|exact I|].
    assert (Q : reads H' cs a = Some v).
    { destruct (C32_strongest layers' H' new_fits B' cs a (set_with_source a (VStr real_path) (abs_path cs) v n) Hc (settable_tracked a Ha)) as (E3 & _); [|rewrite set_value in E3 by exact Ha; exact E3].
      exists (opinions cs strong), (opinions cs weak). split; [exact new_opinions|]. rewrite set_value by exact Ha. split; [exact Sv|exact Si]. }
    apply getter_reads; [exact Ha|]. now rewrite E2.
  - destruct (opinions es (strong ++ rows :: weak)) as [|d rest] eqn:Eo; [contradiction|].
    assert (X : In a [EXECUTE_IN; START_POINT]) by (rewrite Ea; now left).
    pose proof (C34_not_passed_on layers' H' new_fits B' es d rest a He Oe' X) as E3. pose proof (C34_not_passed_on _ H wf B es d rest a He Eo X) as E4. rewrite Eo in E4. rewrite Oe' in E3.
    destruct (E3 Se) as (-> & _). destruct (E4 Se) as (-> & _). reflexivity.
Qed.
End Setting.
Print Assumptions C86_nothing_else.
Print Assumptions C86_seen.
Print Assumptions C86_hidden.
Print Assumptions C86_taken_back.
Print Assumptions C86_instances.

(** ** The layer a node is from *)

(** With layers of different files, whose nodes know their files: the source
    layer of a composed node is the strongest one that has the node. *)
Theorem C86_source_layer : forall reals layers H cs i rows, well_formed layers -> stage_of layers H -> names cs -> NoDup reals ->
  Forall2 (fun real rows => forall r, In r rows -> value (snd r) SOURCE_LAYER = VStr real) reals layers ->
  nth_error layers i = Some rows -> opinions cs [rows] <> [] -> (forall j stronger, j < i -> nth_error layers j = Some stronger -> opinions cs [stronger] = []) ->
  get_node_source_layer reals H (abs_path cs) = Some i.
Proof.
  intros reals layers H cs i rows wf B Hc Nd F En Ne St.
  assert (Es : exists real, nth_error reals i = Some real /\ forall r, In r rows -> value (snd r) SOURCE_LAYER = VStr real).
  { clear -F En. revert i En. induction F as [|real rows0 reals layers Hr F IH]; intros [|i] En; try discriminate; [injection En as ->; exists real; now split|]. exact (IH i En). }
  destruct Es as (real & Er & Hr).
  destruct (opinions cs [rows]) as [|d rest] eqn:Eo; [contradiction|].
  assert (Ed : value d SOURCE_LAYER = VStr real).
  { assert (I : In d (opinions cs [rows])) by (rewrite Eo; now left). unfold opinions in I. apply in_map_iff in I as (r & <- & I). apply filter_In in I as (I & _). cbn [concat] in I. rewrite app_nil_r in I. now apply Hr. }
  assert (O : exists rest', opinions cs layers = d :: rest').
  { clear -En Eo St. revert i En St. induction layers as [|l layers IH]; intros i En St; [destruct i; discriminate|].
    pose proof (opinions_split cs [] l layers) as Q. cbn [app] in Q. change (opinions cs []) with (@nil data) in Q. cbn [app] in Q. destruct i as [|i].
    - injection En as ->. rewrite Q, Eo. eexists. reflexivity.
    - rewrite Q, (St 0 l) by (reflexivity || lia). apply (IH i En). intros j s Hj. apply (St (S j)). lia. }
  destruct O as (rest' & O). pose proof (C32_identity layers H wf B cs d rest' SOURCE_LAYER Hc O ltac:(cbn; tauto)) as R.
  unfold get_node_source_layer. assert (G : get_or_none H (abs_path cs) SOURCE_LAYER = VStr real).
  { unfold get_or_none. unfold reads in R. destruct (getattr H (Co (abs_path cs)) SOURCE_LAYER) as [[x w]|]; [|discriminate]. cbn in R. injection R as ->. exact Ed. }
  rewrite G. clear -Er Nd. revert i Er. induction reals as [|x reals IH]; intros [|i] Er; try discriminate; cbn [nth_error] in Er; cbn [lookup_layer].
  - injection Er as ->. now rewrite str_eqb_refl.
  - inversion_clear Nd as [|? ? Nx Nd']. destruct (str_eqb x real) eqn:E; [apply str_eqb_eq in E; subst x; exfalso; apply Nx; now apply nth_error_In in Er|]. now rewrite (IH Nd' i Er).
Qed.
Print Assumptions C86_source_layer.

(** Two layers loaded from one file: the second is taken for the first. *)
Theorem C86_one_file_twice_refuted : exists reals layers H cs i rows, well_formed layers /\ stage_of layers H /\ names cs /\
  Forall2 (fun real rows => forall r, In r rows -> value (snd r) SOURCE_LAYER = VStr real) reals layers /\
  nth_error layers i = Some rows /\ opinions cs [rows] <> [] /\ (forall j stronger, j < i -> nth_error layers j = Some stronger -> opinions cs [stronger] = []) /\
  get_node_source_layer reals H (abs_path cs) <> Some i.
Proof.
  set (layers := [[world_row "g"; row "g" [] "s" []]; [world_row "g"; row "g" [] "t" []]]).
  destruct (build_stage 9 (VStr (lit "g")) false layers) as [H| |] eqn:E; [|vm_compute in E; discriminate..].
  exists [lit "g"; lit "g"], layers, H, [t_], 1, [world_row "g"; row "g" [] "t" []].
  split. { intros l r [<-|[<-|[]]] Hr; repeat destruct Hr as [<-|Hr]; try contradiction; try apply world_fits; (apply row_fits; [name_ok|left; reflexivity|reflexivity]). }
  split; [exists 9, (VStr (lit "g")), false; exact E|]. split; [name_ok|].
  split. { repeat constructor; intros r Hr; repeat destruct Hr as [<-|Hr]; try contradiction; vm_compute; reflexivity. }
  split; [reflexivity|]. split; [vm_compute; discriminate|]. split.
  - intros [|j] s Hj Es; [|lia]. injection Es as <-. vm_compute. reflexivity.
  - vm_compute in E. injection E as <-. vm_compute. discriminate.
Qed.
Print Assumptions C86_one_file_twice_refuted.

(** ** Example: a comment set on s in the stronger of two layers. *)
Definition s_top : data := Eval vm_compute in hd [] (opinions [s_] [top_layer]).
Definition commented : list (list layer_row) := Eval vm_compute in [with_node [s_] (set_node_comment (VStr (lit "top")) (lit "/s") (VStr (lit "new"))) top_layer; low_layer].
Definition commented_stage : heap := Eval vm_compute in match build_stage 9 (VStr (lit "top")) false commented with Built H => H | _ => {| specs := []; comps := []; dirty := [] |} end.
Example C86_sample :
  In COMMENT settable /\ well_formed two /\ stage_of two two_stage /\ names [s_] /\ opinions [s_] [top_layer] = [s_top] /\ value s_top SOURCE_LAYER = VStr (lit "top") /\
  commented = [] ++ with_node [s_] (setter COMMENT (VStr (lit "top")) (abs_path [s_]) (VStr (lit "new"))) top_layer :: [low_layer] /\ stage_of commented commented_stage /\
  get_node_comment two_stage (lit "/s") = VStr (lit "low") /\ get_node_comment commented_stage (lit "/s") = VStr (lit "new") /\
  get_node_comment two_stage (lit "/r/u") = VStr (lit "low") /\ get_node_comment commented_stage (lit "/r/u") = VStr (lit "new") /\
  get_node_comment commented_stage (lit "/t") = VStr (lit "old") /\
  opinions [r_; u_] two <> [] /\ silent COMMENT (opinions [r_; u_] two) /\ instances commented_stage [r_; u_] [s_] /\
  get_node_source_layer [lit "top"; lit "low"] two_stage (lit "/s") = Some 0 /\ get_node_source_layer [lit "top"; lit "low"] two_stage (lit "/s/c") = Some 1.
Proof.
  split; [now left|]. split; [exact C32_two_fits|]. split; [exists 9, (VStr (lit "top")), false; vm_compute; reflexivity|]. split; [name_ok|]. split; [vm_compute; reflexivity|]. split; [vm_compute; reflexivity|].
  split; [vm_compute; reflexivity|]. split; [exists 9, (VStr (lit "top")), false; vm_compute; reflexivity|]. do 5 (split; [vm_compute; reflexivity|]). split; [vm_compute; discriminate|].
  split; [intros m Hm; vm_compute in Hm; destruct Hm as [<-|[]]; intros (N & _); now apply N|]. split; [|split; vm_compute; reflexivity].
  split; [name_ok|]. split; [discriminate|]. split; vm_compute; reflexivity.
Qed.
