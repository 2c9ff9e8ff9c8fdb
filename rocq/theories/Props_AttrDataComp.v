(** C83, on the nodes of the composed stage. *)

From Coq Require Import String List NArith ZArith Bool Arith Lia.
From Verif Require Import PyStr PyStrFacts NxtPath PathSpec PathProofs Dict DictFacts ListMerger SortRows Layer PyVal NodeIO PyClass PyClassSpec
  NodeEdit AttrData Comp CompSpec CompProofs CompPostProofs CompTreeProofs CompStageProofs CompTotalProofs StageView StageViewProofs Props_Comp Props_CompCases Live Arcs ArcsProofs Opinions OpinionsSpec OpinionsProofs Props_Opinions.
From Verif Require NodeEditSpec Props_AttrData.
Import ListNotations.
Local Ltac name_ok := repeat (constructor; [split; [split; [discriminate|vm_compute; intuition discriminate]|vm_compute; intuition discriminate]|]); constructor.

(** The value and the source listed for a user attribute of a composed node are
    those of one and the same node of one layer: one the composed node draws
    from. *)
Theorem C83_composed :
  forall layers H cs a v, well_formed layers -> stage_of layers H -> names cs -> in_stage H cs ->
  ~ In a internal_keys -> (forall b, a <> b ++ lit "__nxt") ->
  (forall l r, In l layers -> In r l -> dget a (snd r) = None <-> dget (source_of a) (snd r) = None) ->
  reads H cs a = Some v ->
  exists es m s, draws H cs es /\ In m (opinions es layers) /\ dget a m = Some v /\ dget (source_of a) m = Some s /\
    dget (lit "value") (get_node_attr_data (reads H cs) a) = Some v /\
    dget (lit "source") (get_node_attr_data (reads H cs) a) = Some s /\
    (forall l p, s = VTuple [l; p] -> get_node_attr_source (reads H cs) a = Ok (l, p)).
Proof.
  intros layers H cs a v wf St Hc Hh Ha Hid Hs R. unfold reads in R. destruct (getattr H (Co (abs_path cs)) a) as [[r w]|] eqn:G; [|discriminate].
  cbn [option_map snd] in R. injection R as ->.
  destruct (user_read layers H wf St a Ha (source_user a Ha) Hs cs r v Hc Hh G) as (i & d & es & s & _ & _ & D & O & Dv & Ds & G'). exists es, d, s.
  split; [exact D|]. split; [exact O|]. split; [exact Dv|]. split; [exact Ds|].
  assert (Rv : reads H cs a = Some v) by (unfold reads; rewrite G; reflexivity).
  assert (Rs : reads H cs (a ++ lit "_source__nxt") = Some s) by (unfold reads; change (lit "_source__nxt") with META_SOURCE; rewrite G'; reflexivity).
  assert (Hh' : ~ NodeEditSpec.hidden a) by (intros (b & E); now apply (Hid b)).
  rewrite (Props_AttrData.C83_data (reads H cs) a Hh'). unfold Props_AttrData.found. rewrite Rv, Rs.
  cbn [Props_AttrData.listed_as NodeEditSpec.comment NodeEditSpec.source NodeEditSpec.type NodeEditSpec.value].
  split; [|split].
  - destruct (reads H cs (a ++ lit "_comment__nxt")), (reads H cs (a ++ lit "_type__nxt")); reflexivity.
  - destruct (reads H cs (a ++ lit "_comment__nxt")), (reads H cs (a ++ lit "_type__nxt")); reflexivity.
  - intros l p ->. now apply (Props_AttrData.C83_source (reads H cs) a).
Qed.
Print Assumptions C83_composed.

(** Finding: this is not so for the comment.  A layer that gives an attribute a
    new value and no comment keeps the comment a weaker layer wrote about the
    old value. *)
Definition commented (a v c : string) : dict pyval := [(K_ATTRS, VDict [(lit a, VDict [(META_VALUE, VStr (lit v)); (lit "comment", VStr (lit c))])])].
Definition two_layers : list (list layer_row) :=
  [[world_row "top"; row "top" [] "n" (user "x" "1")]; [world_row "low"; row "low" [] "n" (commented "x" "0" "nothing")]].
Lemma two_ok : well_formed two_layers.
Proof. intros l r [<-|[<-|[]]] Hr; repeat destruct Hr as [<-|Hr]; try contradiction; try apply world_fits; (apply row_fits; [name_ok|left; reflexivity|reflexivity]). Qed.
Theorem C83_comment_refuted : exists H m,
  well_formed two_layers /\ stage_of two_layers H /\ names [lit "n"] /\ in_stage H [lit "n"] /\
  hd_error (opinions [lit "n"] two_layers) = Some m /\ dget (lit "x") m = Some (VStr (lit "1")) /\ dget (lit "x_comment__nxt") m = None /\
  get_node_attr_data (reads H [lit "n"]) (lit "x") =
    [(lit "comment", VStr (lit "nothing")); (lit "source", VTuple [VStr (lit "top"); VStr (lit "/n")]); (lit "value", VStr (lit "1"))].
Proof.
  eexists; eexists. split; [exact two_ok|]. split; [exists 9, (VStr (lit "top")), false; vm_compute; reflexivity|]. split; [name_ok|].
  split; [vm_compute; reflexivity|]. split; [vm_compute; reflexivity|]. split; [vm_compute; reflexivity|]. split; vm_compute; reflexivity.
Qed.
Print Assumptions C83_comment_refuted.

(** The example meets the hypotheses of [C83_composed]. *)
Example C83_composed_case : exists H,
  stage_of two_layers H /\ in_stage H [lit "n"] /\ ~ In (lit "x") internal_keys /\ (forall b, lit "x" <> b ++ lit "__nxt") /\
  (forall l r, In l two_layers -> In r l -> dget (lit "x") (snd r) = None <-> dget (source_of (lit "x")) (snd r) = None) /\
  reads H [lit "n"] (lit "x") = Some (VStr (lit "1")).
Proof.
  eexists. split; [exists 9, (VStr (lit "top")), false; vm_compute; reflexivity|]. split; [vm_compute; reflexivity|].
  split; [vm_compute; intuition discriminate|]. split; [intros b E; apply (f_equal (@length N)) in E; rewrite app_length in E; vm_compute (length (lit "__nxt")) in E; cbn in E; lia|].
  split; [|vm_compute; reflexivity].
  intros l r [<-|[<-|[]]] Hr; repeat destruct Hr as [<-|Hr]; try contradiction; vm_compute; split; congruence.
Qed.
