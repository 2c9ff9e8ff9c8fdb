(** C63: deleting a node from a composed stage agrees with composing the layers
    without it. *)

From Coq Require Import String List NArith ZArith Bool Arith Lia.
From Verif Require Import PyStr PyStrFacts NxtPath PathSpec PathProofs Dict DictFacts ListMerger SortRows Layer PyVal NodeIO NodeIOProofs PyClass Comp CompSpec CompProofs CompTreeProofs CompStageProofs
  StageView StageViewProofs DirtyStageSpec Props_Comp Props_CompCases Props_Dirty LocalSpec LocalProofs Props_Local Live AddNode AddNodeSpec AddNodeProofs Props_AddNode DelNode DelNodeProofs.
Import ListNotations.

(** Take regular layers with a node that is in one layer only, has no children
    and no instance path and that no node names as its source, their stage, and
    the stage of the layers without the node.  Deleting the node succeeds and
    gives a stage with the nodes of a new composition, each with the same
    instances, identity, code, enabled state, comment and user attributes; its
    name, and only its name, leaves the order of its parent's children, in the
    stage and in the layer's own node of the parent, number [home], and nothing
    else changes in the nodes of the layers. *)
Theorem C63_removed :
  forall layers layers' H H' ps nm sp real, regular layers -> regular layers' -> stage_of layers H -> stage_of layers' H' ->
  names (ps ++ [nm]) -> one_more (ps ++ [nm]) sp layers layers' ->
  value sp INSTANCE_PATH = VNone \/ value sp INSTANCE_PATH = VStr [] -> value sp SOURCE_LAYER = VStr real ->
  (forall es, ~ points H' es (ps ++ [nm])) -> reads H' ps INSTANCE_PATH <> Some (VStr (lit "/")) ->
  forall top one fuel home L, exists X, delete_node top one fuel H' home real L (abs_path (ps ++ [nm])) = Some (Ok (X, [])) /\
    (forall cs, names cs -> in_stage X cs <-> in_stage H cs) /\
    (forall cs, names cs -> in_stage X cs ->
       (forall a, asked a -> reads X cs a = reads H cs a) /\ forall rs, instances X cs rs <-> instances H cs rs) /\
    (in_stage H' ps -> NoDup (listed (reads H' ps CHILD_ORDER)) ->
       forall x, In x (listed (reads X ps CHILD_ORDER)) <-> x <> nm /\ In x (listed (reads H' ps CHILD_ORDER))) /\
    (forall i n, nth_error (specs H') i = Some n -> exists n', nth_error (specs X) i = Some n' /\
       (home <> Some i -> n' = n) /\ (forall a, a <> CHILD_ORDER -> dget a n' = dget a n) /\
       (home = Some i -> NoDup (listed (dget CHILD_ORDER n)) ->
          forall x, In x (listed (dget CHILD_ORDER n')) <-> x <> nm /\ In x (listed (dget CHILD_ORDER n)))).
Proof.
  intros layers layers' H H' ps nm sp real Rg Rg' B B' Hn M Ei Es U W top one fuel home L. exists (DelNodeProofs.X H' home ps nm).
  split; [exact (less_run layers layers' H' (VStr real) ps nm sp Rg' B' Hn Ei M U Es W home real eq_refl top one fuel L)|].
  split; [exact (less_in layers layers' H H' ps nm sp Rg Rg' B B' Hn Ei M U home)|]. split.
  - intros cs Hc Hh. apply (less_in layers layers' H H' ps nm sp Rg Rg' B B' Hn Ei M U home cs Hc) in Hh. exact (less_same layers layers' H H' ps nm sp Rg Rg' B B' Hn Ei M U home cs Hc Hh).
  - split; [|intros i n; apply X_specs]. intros Hp Nd x. exact (less_order layers layers' H' ps nm sp Rg Rg' B' Hn Ei M U W home x Hp Nd).
Qed.
Print Assumptions C63_removed.

(** Adding a node as in C62 and deleting it again gives a stage with the nodes
    of the first, and on each of them every attribute, but for the order of
    children, as it was. *)
Theorem C63_undone :
  forall layers layers' H data real ps nm sp, regular layers -> regular layers' -> stage_of layers H ->
  (forall m, In m (opinions [] layers) -> value m NAME = VStr (lit "/")) ->
  names (ps ++ [nm]) -> dget (lit "name") data = Some (VStr nm) ->
  dget (lit "instance") data = None \/ dget (lit "instance") data = Some VNone \/ dget (lit "instance") data = Some (VStr []) ->
  dget (lit "enabled") data <> Some (VList []) ->
  create_node data (VStr real) (abs_path ps) false = Ok sp -> one_more (ps ++ [nm]) sp layers layers' ->
  ps = [] \/ (forall es, ~ points H es ps) -> (forall es, ~ points H es (ps ++ [nm])) -> reads H ps INSTANCE_PATH <> Some (VStr (lit "/")) ->
  forall top one fuel home top' one' fuel' home' L, exists X Y,
    add_node top one fuel H home sp = Some (Ok (X, [abs_path (ps ++ [nm])])) /\
    delete_node top' one' fuel' X home' real L (abs_path (ps ++ [nm])) = Some (Ok (Y, [])) /\
    (forall cs, names cs -> in_stage Y cs <-> in_stage H cs) /\
    (forall cs a, names cs -> in_stage H cs -> a <> CHILD_ORDER -> reads Y cs a = reads H cs a).
Proof.
  intros layers layers' H data rp ps nm sp Rg Rg' B W Hn En Ei Ee Ec M U1 U2 Aw top one fuel home top' one' fuel' home' L.
  destruct (both_run layers layers' H data (VStr rp) ps nm sp Rg Rg' B W Hn En Ei Ee Ec M U1 U2 top one fuel home) as (X & Er & G & Eb & Eo & El & _). exists X, (DelNodeProofs.X X home' ps nm). split; [exact Er|].
  destruct (create_reads _ _ _ _ Ec) as (_ & (nm' & En' & Q1) & Q2 & _ & _). rewrite En in En'. injection En' as <-. destruct (create_added data (VStr rp) ps nm sp Hn En Ee Ec) as (_ & Es & _).
  apply (undo_run layers layers' H X ps nm sp rp Rg Rg' B Hn Q1 Q2 (both_inst data (VStr rp) ps sp Ei Ec) Es M U2 Aw G Eb).
  intros a Ha. rewrite Eo. destruct (str_in a INSTANCE_ATTRS) eqn:E; [|reflexivity]. apply str_in_In in E. contradiction.
Qed.
Print Assumptions C63_undone.

(** ** Examples *)
Local Ltac name_ok := repeat (constructor; [split; [split; [discriminate|vm_compute; intuition discriminate]|vm_compute; intuition discriminate]|]); constructor.
Local Ltac fits_two l := intros l0 r0 Hl Hr; unfold l in Hl; repeat destruct Hl as [<-|Hl]; try contradiction; cbn [In] in Hr; repeat destruct Hr as [<-|Hr]; try contradiction; try apply world_fits; (apply row_fits; [name_ok| |reflexivity]; try (left; reflexivity)); right.
Local Ltac regular_by tac := constructor; [tac|apply gap_free_gapless; vm_compute; reflexivity|apply pure_rows_pure; vm_compute; reflexivity|apply low_sources_spec; vm_compute; reflexivity].
Local Ltac built_ok := exists 9, (VStr (lit "top")), false; vm_compute; reflexivity.

(** The stages of the examples of C62 the other way round. *)
Example C63_two : regular two /\ regular two_more /\ stage_of two two_stage /\ stage_of two_more two_more_stage /\ names [r_; n_] /\ one_more [r_; n_] n_node two two_more /\
  value n_node INSTANCE_PATH = VNone /\ value n_node SOURCE_LAYER = VStr (lit "top") /\ (forall es, ~ points two_more_stage es [r_; n_]) /\ reads two_more_stage [r_] INSTANCE_PATH <> Some (VStr (lit "/")) /\
  reads two_stage [r_] INSTANCE_PATH <> Some (VStr (lit "/")) /\ in_stage two_more_stage [r_] /\ NoDup (listed (reads two_more_stage [r_] CHILD_ORDER)).
Proof.
  destruct C62_two as (A & B & C & D & _ & E & _ & F & _). do 6 (split; [assumption|]). do 2 (split; [vm_compute; reflexivity|]). split; [apply unpointed_spec; vm_compute; reflexivity|].
  split; [vm_compute; discriminate|]. split; [vm_compute; discriminate|]. split; [vm_compute; reflexivity|]. vm_compute. repeat constructor; intuition discriminate.
Qed.
(** Deleting r's n again. *)
Definition two_less : option (res (heap * list pystr)) := Eval vm_compute in delete_node (VStr (lit "top")) false 9 two_more_stage (Some 3) (lit "top") (view two_stage) (lit "/r/n").
Example C63_two_shows : exists X, two_less = Some (Ok (X, [])) /\ in_stage two_more_stage [r_; n_] /\ ~ in_stage X [r_; n_] /\ in_stage X [r_; lit "u"] /\
  reads X [r_] CHILD_ORDER = reads two_stage [r_] CHILD_ORDER /\ In n_ (listed (reads two_more_stage [r_] CHILD_ORDER)).
Proof.
  eexists. split; [reflexivity|]. split; [vm_compute; reflexivity|]. split; [vm_compute; discriminate|]. split; [vm_compute; reflexivity|]. split; [vm_compute; reflexivity|]. vm_compute. auto.
Qed.

(** ** Where the two differ: deleting an instance *)
Definition pair_ (more : list layer_row) : list (list layer_row) := [[world_row "top"; row "top" [] "s" []] ++ more].
Definition t_row : layer_row := row "top" [] "t" (instance "/s").

(** The source goes on counting the deleted node among its dependants: setting
    its enabled state fails after the deletion, and not in a new composition. *)
Theorem C63_stale_refuted :
  exists layers layers' H H' ps nm sp X i, regular layers /\ regular layers' /\ stage_of layers H /\ stage_of layers' H' /\
  names (ps ++ [nm]) /\ one_more (ps ++ [nm]) sp layers layers' /\ value sp SOURCE_LAYER = VStr (lit "top") /\ (forall es, ~ points H' es (ps ++ [nm])) /\
  delete_node (VStr (lit "top")) false 9 H' None (lit "top") (view H) (abs_path (ps ++ [nm])) = Some (Ok (X, [])) /\ ~ in_stage X (ps ++ [nm]) /\
  In (abs_path (ps ++ [nm])) (dirties X (lit "/s")) /\ nth_error (specs X) i = nth_error (specs H) i /\
  snd (set_node_enabled X i (VBool false)) = Raise AttributeError /\ snd (set_node_enabled H i (VBool false)) = Ok [].
Proof.
  destruct (delete_node (VStr (lit "top")) false 9 (stage_at (pair_ [t_row])) None (lit "top") (view (stage_at (pair_ []))) (abs_path ([] ++ [t_]))) as [[[X d]|e]|] eqn:Ea; [|vm_compute in Ea; discriminate..].
  exists (pair_ []), (pair_ [t_row]), (stage_at (pair_ [])), (stage_at (pair_ [t_row])), [], t_, (snd t_row), X, 1.
  split; [regular_by ltac:(fits_two pair_)|]. split; [regular_by ltac:(fits_two pair_); exists [s_]; (split; [name_ok|reflexivity])|].
  split; [built_ok|]. split; [built_ok|]. split; [name_ok|].
  split. { apply (one_more_in _ _ _ _ [] (hd [] (pair_ [])) (hd [] (pair_ [])) []); [reflexivity|reflexivity| |vm_compute; reflexivity]. repeat constructor. }
  split; [vm_compute; reflexivity|]. split; [apply unpointed_spec; vm_compute; reflexivity|]. vm_compute in Ea. injection Ea as <- <-. split; [vm_compute; reflexivity|]. split; [vm_compute; discriminate|]. split; [vm_compute; auto|].
  repeat split; vm_compute; reflexivity.
Qed.
Print Assumptions C63_stale_refuted.

(** The parent goes on listing the name of a deleted instance among its
    children. *)
Definition below (more : list layer_row) (order : list pyval) : list (list layer_row) :=
  [[world_row "top"; row "top" [] "s" []; (ns_of [r_], dset CHILD_ORDER (VList order) (snd (row "top" [] "r" [])))] ++ more].
Definition rt_row : layer_row := row "top" [r_] "t" (instance "/s").
Theorem C63_order_refuted :
  exists layers layers' H H' ps nm sp X j, regular layers /\ regular layers' /\ stage_of layers H /\ stage_of layers' H' /\
  names (ps ++ [nm]) /\ one_more (ps ++ [nm]) sp layers layers' /\ value sp SOURCE_LAYER = VStr (lit "top") /\ (forall es, ~ points H' es (ps ++ [nm])) /\
  delete_node (VStr (lit "top")) false 9 H' (Some j) (lit "top") (view H) (abs_path (ps ++ [nm])) = Some (Ok (X, [])) /\ ~ in_stage X (ps ++ [nm]) /\
  In nm (listed (reads X ps CHILD_ORDER)) /\ ~ In nm (listed (reads H ps CHILD_ORDER)).
Proof.
  destruct (delete_node (VStr (lit "top")) false 9 (stage_at (below [rt_row] [VStr t_])) (Some 2) (lit "top") (view (stage_at (below [] []))) (abs_path ([r_] ++ [t_]))) as [[[X d]|e]|] eqn:Ea; [|vm_compute in Ea; discriminate..].
  exists (below [] []), (below [rt_row] [VStr t_]), (stage_at (below [] [])), (stage_at (below [rt_row] [VStr t_])), [r_], t_, (snd rt_row), X, 2.
  assert (Fr : forall o, fits (ns_of [r_], dset CHILD_ORDER (VList o) (snd (row "top" [] "r" [])))).
  { intros o. assert (F : fits (row "top" [] "r" [])) by (apply row_fits; [name_ok|now left|reflexivity]). destruct F as (cs & Hc & E1 & K & Q). exists cs. split; [exact Hc|]. split; [exact E1|]. cbn [snd].
    assert (G : forall a, a <> CHILD_ORDER -> value (dset CHILD_ORDER (VList o) (snd (row "top" [] "r" []))) a = value (snd (row "top" [] "r" [])) a).
    { intros a Ha. unfold value. rewrite dget_dset. destruct (str_eqb CHILD_ORDER a) eqn:E; [apply str_eqb_eq in E; congruence|reflexivity]. }
    split; [intros a Ha; rewrite dget_dset; destruct (str_eqb CHILD_ORDER a); [discriminate|now apply K]|]. rewrite !G by discriminate. exact Q. }
  assert (Fs : fits (row "top" [] "s" [])) by (apply row_fits; [name_ok|now left|reflexivity]).
  split; [regular_by ltac:(idtac); intros l r [<-|[]] [<-|[<-|[<-|[]]]]; [apply world_fits|exact Fs|apply Fr]|].
  split. { regular_by ltac:(idtac); intros l r [<-|[]] [<-|[<-|[<-|[<-|[]]]]]; [apply world_fits|exact Fs|apply Fr|]. apply row_fits; [name_ok| |reflexivity]. right. exists [s_]. split; [name_ok|reflexivity]. }
  split; [built_ok|]. split; [built_ok|]. split; [name_ok|].
  split. { apply (one_more_in _ _ _ _ [] (hd [] (below [] [])) (hd [] (below [] [VStr t_])) []); [reflexivity|reflexivity| |vm_compute; reflexivity].
    assert (Rr : forall r, row_alike r r) by (intros r; split; [reflexivity|auto]). constructor; [apply Rr|]. constructor; [apply Rr|]. constructor; [|constructor]. split; [reflexivity|]. intros a Ha. cbn [snd]. rewrite !dget_dset. destruct (str_eqb CHILD_ORDER a) eqn:E; [apply str_eqb_eq in E; congruence|reflexivity]. }
  split; [vm_compute; reflexivity|]. split; [apply unpointed_spec; vm_compute; reflexivity|]. vm_compute in Ea. injection Ea as <- <-. split; [vm_compute; reflexivity|]. split; [vm_compute; discriminate|]. split; [vm_compute; auto|]. vm_compute. auto.
Qed.
Print Assumptions C63_order_refuted.

(** An instance below the root of its source is back as a proxy as soon as it is
    deleted. *)
Definition same_root (more : list layer_row) : list (list layer_row) := [[world_row "top"; row "top" [] "r" []; row "top" [r_] "s" []; row "top" [r_; s_] "c" []] ++ more].
Definition rrt_row : layer_row := row "top" [r_] "t" (instance "/r/s").
Theorem C63_revived_refuted :
  exists layers layers' H H' ps nm sp X d rs, regular layers /\ regular layers' /\ stage_of layers H /\ stage_of layers' H' /\
  names (ps ++ [nm]) /\ one_more (ps ++ [nm]) sp layers layers' /\ value sp SOURCE_LAYER = VStr (lit "top") /\ (forall es, ~ points H' es (ps ++ [nm])) /\
  delete_node (VStr (lit "top")) false 9 H' (Some 1) (lit "top") (view H) (abs_path (ps ++ [nm])) = Some (Ok (X, d)) /\
  ~ in_stage H (ps ++ [nm]) /\ in_stage X (ps ++ [nm]) /\ reads X (ps ++ [nm]) PROXY = Some (VBool true) /\ instances X (ps ++ [nm]) rs.
Proof.
  destruct (delete_node (VStr (lit "top")) false 9 (stage_at (same_root [rrt_row])) (Some 1) (lit "top") (view (stage_at (same_root []))) (abs_path ([r_] ++ [t_]))) as [[[X d]|e]|] eqn:Ea; [|vm_compute in Ea; discriminate..].
  exists (same_root []), (same_root [rrt_row]), (stage_at (same_root [])), (stage_at (same_root [rrt_row])), [r_], t_, (snd rrt_row), X, d, [r_; s_].
  split; [regular_by ltac:(fits_two same_root)|]. split; [regular_by ltac:(fits_two same_root); exists [r_; s_]; (split; [name_ok|reflexivity])|].
  split; [built_ok|]. split; [built_ok|]. split; [name_ok|].
  split. { apply (one_more_in _ _ _ _ [] (hd [] (same_root [])) (hd [] (same_root [])) []); [reflexivity|reflexivity| |vm_compute; reflexivity]. repeat constructor. }
  split; [vm_compute; reflexivity|]. split; [apply unpointed_spec; vm_compute; reflexivity|]. vm_compute in Ea. injection Ea as <- <-. split; [vm_compute; reflexivity|]. split; [vm_compute; discriminate|]. split; [vm_compute; reflexivity|]. split; [vm_compute; reflexivity|].
  split; [name_ok|]. split; [discriminate|]. split; vm_compute; reflexivity.
Qed.
Print Assumptions C63_revived_refuted.
