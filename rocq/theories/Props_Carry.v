(** C57: composition carries code, comments, enabled states, start points,
    execute inputs and user attributes along without looking at them. *)

From Coq Require Import String List NArith ZArith Bool Arith Lia Relations.
From Verif Require Import PyStr PyStrFacts NxtPath PathSpec PathProofs Dict DictFacts ListMerger SortRows Layer PyVal NodeIO PyClass
  Comp CompSpec CompProofs CompPostProofs CompTreeProofs CompStageProofs CompTotalProofs StageView StageViewProofs LiveSpec CompLiveProofs CompSimProofs CarrySpec CarryProofs Props_CompCases.
Import ListNotations.
Local Ltac name_ok := repeat (constructor; [split; [split; [discriminate|vm_compute; intuition discriminate]|vm_compute; intuition discriminate]|]); constructor.

(** Any two stacks of layers that differ in free attributes only: both
    compositions succeed, or both fail, or both never end.  When they succeed,
    the same nodes exist, every attribute that is not free reads the same at
    every node, every node takes its attributes from the same classes in the
    same order, and the same nodes depend on every node. *)
Theorem C57_carried :
  forall free fuel top_real one_object layers layers',
  (forall a, In a steering -> free a = false) ->
  (forall a, In a tracked -> free a = true -> free (source_of a) = true) ->
  Forall2 (Forall2 (differ_only free)) layers layers' ->
  match build_stage fuel top_real one_object layers, build_stage fuel top_real one_object layers' with
  | Built H, Built H' => forall cs,
      (in_stage H cs <-> in_stage H' cs) /\
      (forall a, free a = false -> reads H cs a = reads H' cs a) /\
      mro_of H (Co (abs_path cs)) = mro_of H' (Co (abs_path cs)) /\
      dirties H (abs_path cs) = dirties H' (abs_path cs)
  | Broken, Broken | Endless, Endless => True
  | _, _ => False
  end.
Proof.
  intros free fuel top one layers layers' St So D.
  assert (St' : forall a, In a STRUCTURE -> free a = false) by exact St.
  assert (So' : forall a, In a TRACKED -> free a = true -> free (a ++ META_SOURCE) = true).
  { intros a Ha Fa. destruct Ha as [<-|[<-|[<-|[<-|[<-|[<-|[]]]]]]]; try (apply So; [cbn; tauto|exact Fa]). exfalso. rewrite St in Fa; [discriminate|cbn; tauto]. }
  pose proof (sim_build free St' So' fuel top one layers layers' D) as B. unfold sim_built in B.
  destruct (build_stage fuel top one layers) as [H| |], (build_stage fuel top one layers') as [H'| |]; try contradiction; try exact I.
  intros cs. split; [unfold in_stage; now rewrite (sim_here free H H' B)|]. split; [|split].
  - intros a Fa. unfold reads. now rewrite (sim_getattr free H H' B).
  - exact (sim_mro free H H' B _).
  - exact (sim_dirties free H H' B _).
Qed.
Print Assumptions C57_carried.

(** One attribute of the nodes at one place. *)
Definition edited (a : pystr) (cs : list pystr) (r r' : layer_row) : Prop :=
  fst r = fst r' /\ (fst r <> ns_of cs -> snd r = snd r') /\ forall b, b <> a -> b <> source_of a -> dget b (snd r) = dget b (snd r').

Lemma edited_near a cs r r' : edited a cs r r' -> row_near (only a) r r'.
Proof.
  intros (E1 & _ & E3). split; [exact E1|]. intros b Hb. unfold only in Hb. apply orb_false_iff in Hb as (B1 & B2). apply str_eqb_neq in B1, B2. now apply E3.
Qed.
Lemma filter_map2 {A B} (Q : A -> A -> Prop) (P : A -> bool) (f : A -> B) l l' : Forall2 Q l l' -> (forall r r', Q r r' -> P r = P r') ->
  (forall r r', Q r r' -> P r' = true -> f r = f r') -> map f (filter P l) = map f (filter P l').
Proof.
  intros F HP Hf. induction F as [|r r' l l' Hr F IH]; [reflexivity|]. cbn [filter]. rewrite (HP r r' Hr). destruct (P r') eqn:Ep; [|exact IH]. cbn [map]. now rewrite (Hf r r' Hr Ep), IH.
Qed.
Lemma edited_opinions a cs layers layers' es : Forall2 (Forall2 (edited a cs)) layers layers' -> ns_of es <> ns_of cs -> opinions es layers = opinions es layers'.
Proof.
  intros D Hne. apply (filter_map2 (edited a cs)); [exact (F2_concat _ _ _ D)| |].
  - intros r r' (E1 & _). exact (f_equal (fun x => if list_eq_dec (list_eq_dec N.eq_dec) x (ns_of es) then true else false) E1).
  - intros r r' (E1 & E2 & _) Ep. apply E2. intros E. apply Hne. rewrite <- E, E1. match type of Ep with (if ?d then _ else _) = _ => destruct d as [Q|]; [now symmetry|discriminate] end.
Qed.

(** Editing the code, the execute input or the start point of one node, in any
    number of layers: the composition of the edited layers succeeds; every
    other attribute of every node reads as before; and the attribute edited
    reads as before at every other node, but for code at the nodes that take
    from the edited one through their sources. *)
Theorem C57_local :
  forall a cs fuel top_real one_object layers layers' H, well_formed layers -> well_formed layers' -> names cs -> In a plainly ->
  Forall2 (Forall2 (edited a cs)) layers layers' -> build_stage fuel top_real one_object layers = Built H ->
  exists H', build_stage fuel top_real one_object layers' = Built H' /\
    forall es, names es ->
      (in_stage H es <-> in_stage H' es) /\
      (forall b, b <> a -> b <> source_of a -> reads H es b = reads H' es b) /\
      (in_stage H es -> es <> cs -> a <> COMPUTE \/ ~ takes_from H es cs -> reads H es a = reads H' es a).
Proof.
  intros a cs fuel top one layers layers' H wf wf' Hc Ha D B. pose proof (plainly_tracked a Ha) as Ht.
  assert (D' : Forall2 (Forall2 (row_near (only a))) layers layers').
  { clear -D. induction D as [|l l' L L' Hl D IH]; constructor; [|exact IH]. clear -Hl. induction Hl; constructor; auto. now apply (edited_near a cs). }
  pose proof (sim_build (only a) (only_steers a Ht) (only_sources a Ht) fuel top one layers layers' D') as S. rewrite B in S. unfold sim_built in S.
  destruct (build_stage fuel top one layers') as [H'| |] eqn:B'; try contradiction. exists H'. split; [reflexivity|]. intros es He.
  split; [unfold in_stage; now rewrite (sim_here _ H H' S)|]. split.
  - intros b B1 B2. unfold reads. rewrite (sim_getattr _ H H' S); [reflexivity|]. unfold only. apply str_eqb_neq in B1, B2. now rewrite B1, B2.
  - intros Hh Hne Hn. destruct (built_parts _ _ _ _ _ wf B) as (H1 & F & P). destruct (built_parts _ _ _ _ _ wf' B') as (H1' & F' & P').
    assert (Hh' : in_stage H' es) by (unfold in_stage in *; now rewrite <- (sim_here _ H H' S)). destruct (tracked_key a Ht) as (K1 & _).
    rewrite (view_internal layers H1 F H wf P es a Hh K1), (view_internal layers' H1' F' H' wf' P' es a Hh' K1). f_equal.
    apply (edit_local a cs layers layers' H1 F H H1' F' H' Ht wf wf' P P' S); [|exact Ha|exact He|exact Hh|exact Hne|].
    + intros fs Hf Hfn. apply (edited_opinions a cs); [exact D|]. intros E. apply Hfn. now apply ns_of_inj in E.
    + intros (Pa & T). destruct Hn as [Hn|Hn]; [|now apply Hn]. destruct Ha as [<-|[<-|[<-|[]]]]; [now apply Hn|..]; repeat destruct Pa as [Pa|Pa]; try discriminate; destruct Pa.
Qed.
Print Assumptions C57_local.

(** ** Examples *)

(** Rewriting one attribute of the rows at one place. *)
Definition rewritten (a : pystr) (cs : list pystr) (v : pyval) (r : layer_row) : layer_row :=
  if list_eq_dec (list_eq_dec N.eq_dec) (fst r) (ns_of cs) then (fst r, dset a v (snd r)) else r.
Definition rewrite_all (a : pystr) (cs : list pystr) (v : pyval) (layers : list (list layer_row)) : list (list layer_row) := map (map (rewritten a cs v)) layers.
Lemma rewritten_edited a cs v r : edited a cs r (rewritten a cs v r).
Proof.
  unfold rewritten. match goal with |- context [if ?d then _ else _] => destruct d as [E|] end; [|now repeat split]. split; [reflexivity|]. split; [intros Hn; now destruct Hn|].
  intros b Hb _. cbn [snd]. rewrite dget_dset. destruct (str_eqb a b) eqn:Q; [|reflexivity]. apply str_eqb_eq in Q. now destruct Hb.
Qed.
Lemma rewrite_all_edited a cs v layers : Forall2 (Forall2 (edited a cs)) layers (rewrite_all a cs v layers).
Proof.
  unfold rewrite_all. induction layers as [|l L IH]; constructor; [|exact IH]. clear. induction l as [|r l IH]; constructor; [apply rewritten_edited|exact IH].
Qed.

Lemma rewrite_all_fits a cs v layers : ~ In a steering -> well_formed layers -> well_formed (rewrite_all a cs v layers).
Proof.
  intros Ha wf l r Hl Hr. unfold rewrite_all in Hl. apply in_map_iff in Hl as (l0 & <- & Hl). apply in_map_iff in Hr as (r0 & <- & Hr). destruct (wf l0 r0 Hl Hr) as (es & He & E & F & G).
  unfold rewritten. match goal with |- context [if ?d then _ else _] => destruct d as [_|] end; [|exists es; auto]. exists es. split; [exact He|]. split; [exact E|]. cbn [snd].
  assert (K : forall b, In b steering -> value (dset a v (snd r0)) b = value (snd r0) b).
  { intros b Hb. unfold value. rewrite dget_dset. destruct (str_eqb a b) eqn:Q; [|reflexivity]. apply str_eqb_eq in Q as ->. now destruct Ha. }
  rewrite !K by (cbn; tauto). split; [|exact G]. intros b Hb. rewrite dget_dset. destruct (str_eqb a b); [discriminate|now apply F].
Qed.

(** New code for the source s of the stage of two layers: t, which takes from
    s, has the new code, and the other root r keeps its own. *)
Definition coded : list (list layer_row) := rewrite_all COMPUTE [s_] (VList [VStr (lit "return")]) two.
Definition coded_stage : heap := Eval vm_compute in match build_stage 9 (VStr (lit "top")) false coded with Built H => H | _ => {| specs := []; comps := []; dirty := [] |} end.
Example C57_coded : well_formed two /\ well_formed coded /\ Forall2 (Forall2 (edited COMPUTE [s_])) two coded /\
  build_stage 9 (VStr (lit "top")) false two = Built two_stage /\ build_stage 9 (VStr (lit "top")) false coded = Built coded_stage /\
  takes_from two_stage [t_] [s_] /\ reads two_stage [t_] COMPUTE = Some (VList [VStr (lit "pass")]) /\ reads coded_stage [t_] COMPUTE = Some (VList [VStr (lit "return")]) /\
  ~ takes_from two_stage [r_] [s_] /\ in_stage two_stage [r_] /\ in_stage two_stage [t_; c_; d_].
Proof.
  split; [exact C32_two_fits|]. split; [apply rewrite_all_fits; [vm_compute; intuition discriminate|exact C32_two_fits]|]. split; [apply rewrite_all_edited|].
  split; [vm_compute; reflexivity|]. split; [vm_compute; reflexivity|]. split; [constructor; split; [name_ok|]; split; [discriminate|]; split; vm_compute; reflexivity|].
  split; [vm_compute; reflexivity|]. split; [vm_compute; reflexivity|]. split; [|split; vm_compute; reflexivity].
  intros T. apply clos_trans_t1n in T. destruct T as [x (_ & _ & _ & I)|x y (_ & _ & _ & I) _]; vm_compute in I; discriminate.
Qed.
(** What may be free: everything composition does not steer by. *)
Definition carried (a : pystr) : bool := negb (str_in a steering).
Example C57_carried_free : (forall a, In a steering -> carried a = false) /\ (forall a, In a tracked -> carried a = true -> carried (source_of a) = true) /\
  Forall2 (Forall2 (differ_only carried)) two coded /\ In COMPUTE plainly.
Proof.
  split; [intros a Ha; unfold carried; apply str_in_In in Ha; now rewrite Ha|]. split; [intros a Ha _; cbn in Ha; repeat destruct Ha as [<-|Ha]; try reflexivity; destruct Ha|]. split; [|cbn; tauto].
  assert (Q : forall r r', edited COMPUTE [s_] r r' -> differ_only carried r r').
  { intros r r' (E1 & _ & E3). split; [exact E1|]. intros b Hb. apply E3; intros ->; vm_compute in Hb; discriminate. }
  pose proof (rewrite_all_edited COMPUTE [s_] (VList [VStr (lit "return")]) two) as D. fold coded in D. revert D. generalize two, coded. intros L L' D.
  induction D as [|l l' L L' Hl D IH]; constructor; [|exact IH]. clear -Hl Q. induction Hl; constructor; auto.
Qed.

(** Comments and enabled states are copied to proxies when they are made.  The
    node p below a instances q in its layer, so its proxy c is made from q's
    child; then p is found to be b's child p over again, and c is changed to
    take from b's child.  Its comment is still that of q's child: editing that
    comment changes a node that does not take from the edited one. *)
Definition a_ := lit "a". Definition b_ := lit "b". Definition p_ := lit "p". Definition q_ := lit "q".
Definition relinked : list (list layer_row) :=
  [[world_row "g"; row "g" [] "a" (instance "/b"); row "g" [a_] "p" (instance "/q"); row "g" [] "b" (instance "/z"); row "g" [b_] "p" []; row "g" [b_; p_] "c" [];
    row "g" [] "q" []; row "g" [q_] "c" (comment "one"); row "g" [] "z" []]].
Definition relinked_stage : heap := Eval vm_compute in match build_stage 9 (VStr (lit "g")) false relinked with Built H => H | _ => {| specs := []; comps := []; dirty := [] |} end.
Theorem C57_comment_refuted :
  exists layers layers' H H' cs es, well_formed layers /\ well_formed layers' /\ Forall2 (Forall2 (edited COMMENT cs)) layers layers' /\
    stage_of layers H /\ stage_of layers' H' /\ in_stage H es /\ es <> cs /\ ~ takes_from H es cs /\
    reads H es COMMENT = Some (VStr (lit "one")) /\ reads H' es COMMENT = Some (VStr (lit "two")).
Proof.
  set (layers' := rewrite_all COMMENT [q_; c_] (VStr (lit "two")) relinked).
  set (H' := match build_stage 9 (VStr (lit "g")) false layers' with Built H => H | _ => {| specs := []; comps := []; dirty := [] |} end).
  assert (wf : well_formed relinked).
  { intros l r [<-|[]] Hr. repeat destruct Hr as [<-|Hr]; try contradiction; try apply world_fits; (apply row_fits; [name_ok| |reflexivity]; try (left; reflexivity)); right.
    - exists [b_]. split; [name_ok|reflexivity].
    - exists [q_]. split; [name_ok|reflexivity].
    - exists [lit "z"]. split; [name_ok|reflexivity]. }
  exists relinked, layers', relinked_stage, H', [q_; c_], [a_; p_; c_]. split; [exact wf|]. split; [apply rewrite_all_fits; [vm_compute; intuition discriminate|exact wf]|]. split; [apply rewrite_all_edited|].
  split; [exists 9, (VStr (lit "g")), false; vm_compute; reflexivity|]. split; [exists 9, (VStr (lit "g")), false; vm_compute; reflexivity|]. split; [vm_compute; reflexivity|]. split; [discriminate|].
  split; [|split; vm_compute; reflexivity].
  assert (N2 : names [b_; p_; c_]) by name_ok.
  assert (First : forall x, instances relinked_stage [a_; p_; c_] x -> x = [b_; p_; c_]).
  { intros x (Hx & _ & _ & I). assert (E : reads relinked_stage [a_; p_; c_] INSTANCE_PATH = Some (VStr (abs_path [b_; p_; c_]))) by (vm_compute; reflexivity). rewrite E in I.
    apply abs_path_inj; [now apply names_comp|now apply names_comp|]. congruence. }
  intros T. apply clos_trans_t1n in T. inversion T as [x I|x y I T2]; subst; apply First in I; [discriminate|subst x].
  assert (Last : forall x, ~ instances relinked_stage [b_; p_; c_] x) by (intros x (_ & _ & _ & I); vm_compute in I; discriminate).
  inversion T2 as [x I|x y I _]; now apply Last in I.
Qed.
Print Assumptions C57_comment_refuted.
