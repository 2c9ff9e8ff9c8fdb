(** C62: adding a node to a composed stage agrees with composing the layers
    anew. *)

From Coq Require Import String List NArith ZArith Bool Arith Lia.
From Verif Require Import PyStr PyStrFacts NxtPath PathSpec PathProofs Dict DictFacts ListMerger SortRows Layer PyVal NodeIO NodeIOProofs PyClass Comp CompSpec CompProofs CompTreeProofs CompStageProofs
  StageView StageViewProofs DirtyStageSpec Props_Comp Props_CompCases Props_Dirty LocalSpec LocalProofs Props_Local AddNode AddNodeSpec AddNodeProofs.
Import ListNotations.

(** Take regular layers, their stage, and the same layers with one more node,
    made by nxt from saved data, at a place where no layer has one: under a node
    of the layers that no node names as its source, at a path no node names
    either.  Adding the node to the stage succeeds, reports the new path as the
    only dirty one, and gives a stage with the nodes of a new composition, each
    with the same instances, identity, code, enabled state, comment and user
    attributes; the new node's sources are the same, and its parent lists it and
    what it listed before.  The new node is the last of the layers' nodes, and the
    layer's own node of the parent, number [home], has its name last in its child
    order; nothing else changes in the nodes of the layers. *)
Theorem C62_added :
  forall layers layers' H H' data real_path ps nm sp, regular layers -> regular layers' -> stage_of layers H -> stage_of layers' H' ->
  (forall m, In m (opinions [] layers) -> value m NAME = VStr (lit "/")) ->
  names (ps ++ [nm]) -> dget (lit "name") data = Some (VStr nm) ->
  dget (lit "instance") data = None \/ dget (lit "instance") data = Some VNone \/ dget (lit "instance") data = Some (VStr []) ->
  dget (lit "enabled") data <> Some (VList []) ->
  create_node data real_path (abs_path ps) false = Ok sp -> one_more (ps ++ [nm]) sp layers layers' ->
  ps = [] \/ (forall es, ~ points H es ps) -> (forall es, ~ points H es (ps ++ [nm])) ->
  forall top one fuel home, exists X, add_node top one fuel H home sp = Some (Ok (X, [abs_path (ps ++ [nm])])) /\
    (forall cs, names cs -> in_stage X cs <-> in_stage H' cs) /\
    (forall cs, names cs -> in_stage X cs ->
       (forall a, asked a -> reads X cs a = reads H' cs a) /\ forall rs, instances X cs rs <-> instances H' cs rs) /\
    (forall a, In a tracked -> reads X (ps ++ [nm]) (source_of a) = reads H' (ps ++ [nm]) (source_of a)) /\
    (in_stage X ps -> In nm (listed (reads X ps CHILD_ORDER))) /\
    (in_stage H ps -> forall x, In x (listed (reads X ps CHILD_ORDER)) <-> x = nm \/ In x (listed (reads H ps CHILD_ORDER))) /\
    length (specs X) = S (length (specs H)) /\ nth_error (specs X) (length (specs H)) = Some sp /\
    (forall i n, nth_error (specs H) i = Some n -> exists n', nth_error (specs X) i = Some n' /\
       (home <> Some i -> n' = n) /\ (forall a, a <> CHILD_ORDER -> dget a n' = dget a n) /\
       (home = Some i -> (In nm (listed (dget CHILD_ORDER n)) -> n' = n) /\
          (NoDup (listed (dget CHILD_ORDER n)) -> ~ In nm (listed (dget CHILD_ORDER n)) -> truthy (value n PROXY) = false ->
             listed (dget CHILD_ORDER n') = listed (dget CHILD_ORDER n) ++ [nm]))).
Proof.
  intros layers layers' H H' data rp ps nm sp Rg Rg' B B' W Hn En Ei Ee Ec M U1 U2 top one fuel home.
  destruct (both_run layers layers' H data rp ps nm sp Rg Rg' B W Hn En Ei Ee Ec M U1 U2 top one fuel home) as (X & Er & G & Eb & Eo & El & Esp & Ex). exists X. split; [exact Er|].
  split; [exact (fun cs Hc => both_stage layers layers' H H' data rp ps nm sp Rg Rg' B B' Hn Ei Ec M U1 U2 X G cs Hc)|]. split; [|split; [|split; [|split]]].
  - intros cs Hc Hh. split.
    + intros a Ha. exact (both_asked layers layers' H H' data rp ps nm sp Rg Rg' B B' W Hn En Ei Ee Ec M U1 U2 X G Eb Eo El cs a Hc Hh Ha).
    + intros rs. exact (both_instances layers layers' H H' data rp ps nm sp Rg Rg' B B' W Hn Ei Ec M U1 U2 X G Eb Eo El cs rs Hc Hh).
  - intros a Ha. exact (proj2 (both_tracked layers layers' H H' data rp ps nm sp Rg Rg' B B' W Hn En Ei Ee Ec M U1 U2 X G Eb Eo El a Ha)).
  - exact (both_listed layers layers' H ps nm sp Rg Rg' B Hn M U1 X G El).
  - exact (both_order layers layers' H data rp ps nm sp Rg Rg' B Hn Ec M U1 X G Eb El home Esp Ex).
  - exact (added_specs H X home nm sp Esp).
Qed.
Print Assumptions C62_added.

(** ** Examples *)

Local Ltac name_ok := repeat (constructor; [split; [split; [discriminate|vm_compute; intuition discriminate]|vm_compute; intuition discriminate]|]); constructor.
Local Ltac fits_two l := intros l0 r0 Hl Hr; unfold l in Hl; repeat destruct Hl as [<-|Hl]; try contradiction; cbn [In] in Hr; repeat destruct Hr as [<-|Hr]; try contradiction; try apply world_fits; (apply row_fits; [name_ok| |reflexivity]; try (left; reflexivity)); right.
Local Ltac regular_by tac := constructor; [tac|apply gap_free_gapless; vm_compute; reflexivity|apply pure_rows_pure; vm_compute; reflexivity|apply low_sources_spec; vm_compute; reflexivity].
Local Ltac built_ok := exists 9, (VStr (lit "top")), false; vm_compute; reflexivity.

Definition unpointed (H : heap) (p : pystr) : bool :=
  forallb (fun q => match option_map snd (getattr H (Co q) INSTANCE_PATH) with Some (VStr s) => negb (str_eqb s p) | _ => true end) (dkeys (comps H)).
Lemma unpointed_spec H cs : unpointed H (abs_path cs) = true -> forall es, ~ points H es cs.
Proof.
  intros U es (He & Hh & Er). unfold unpointed in U. rewrite forallb_forall in U. unfold in_stage, here, dmem in Hh.
  assert (K : In (abs_path es) (dkeys (comps H))) by (apply dget_some_key; destruct (dget (abs_path es) (comps H)) as [c|]; [now exists c|discriminate]).
  specialize (U _ K). unfold reads in Er. rewrite Er, str_eqb_refl in U. discriminate.
Qed.

(** The stage of the examples, and a node added below r in its top layer. *)
Definition n_ := lit "n".
Definition n_data : dict pyval := (lit "name", VStr n_) :: (lit "code", VList [VStr (lit "pass")]) :: user "z" "7".
Definition n_node : node := Eval vm_compute in match create_node n_data (VStr (lit "top")) (abs_path [r_]) false with Ok n => n | Raise _ => [] end.
Definition with_name (r : layer_row) : layer_row :=
  if list_eq_dec (list_eq_dec N.eq_dec) (fst r) [r_] then (fst r, dset CHILD_ORDER (VList [VStr n_]) (snd r)) else r.
Definition two_more : list (list layer_row) := [map with_name top_layer ++ [(ns_of [r_; n_], n_node)]; low_layer].
Definition two_more_stage : heap := Eval vm_compute in stage_at two_more.
Definition two_added : option (res (heap * list pystr)) := Eval vm_compute in add_node (VStr (lit "top")) false 9 two_stage (Some 3) n_node.
Lemma with_name_alike r : row_alike r (with_name r).
Proof.
  unfold with_name. destruct (list_eq_dec (list_eq_dec N.eq_dec) (fst r) [r_]); [|split; [reflexivity|auto]]. split; [reflexivity|]. intros a Ha. cbn [snd]. rewrite dget_dset. destruct (str_eqb CHILD_ORDER a) eqn:E; [apply str_eqb_eq in E; congruence|reflexivity].
Qed.
Lemma with_name_fits r : fits r -> fits (with_name r).
Proof.
  unfold with_name. destruct (list_eq_dec (list_eq_dec N.eq_dec) (fst r) [r_]); [|auto]. intros (cs & Hc & E1 & K & Q). exists cs. split; [exact Hc|]. cbn [fst snd]. split; [exact E1|].
  assert (G : forall a, a <> CHILD_ORDER -> value (dset CHILD_ORDER (VList [VStr n_]) (snd r)) a = value (snd r) a).
  { intros a Ha. unfold value. rewrite dget_dset. destruct (str_eqb CHILD_ORDER a) eqn:E; [apply str_eqb_eq in E; congruence|reflexivity]. }
  split; [intros a Ha; rewrite dget_dset; destruct (str_eqb CHILD_ORDER a); [discriminate|now apply K]|]. rewrite !G by discriminate. exact Q.
Qed.
Example C62_two : regular two /\ regular two_more /\ stage_of two two_stage /\ stage_of two_more two_more_stage /\
  (forall m, In m (opinions [] two) -> value m NAME = VStr (lit "/")) /\ names [r_; n_] /\
  create_node n_data (VStr (lit "top")) (abs_path [r_]) false = Ok n_node /\ one_more [r_; n_] n_node two two_more /\
  (forall es, ~ points two_stage es [r_]) /\ (forall es, ~ points two_stage es [r_; n_]).
Proof.
  assert (Fn : fits (ns_of [r_; n_], n_node)). { apply (C32_loaded_fits n_data (VStr (lit "top")) [r_] n_ n_node); [name_ok|reflexivity|now left|vm_compute; reflexivity]. }
  split; [exact (proj1 C61_regular)|]. split.
  { regular_by ltac:(idtac). intros l r [<-|[<-|[]]] Hr.
    - apply in_app_or in Hr as [Hr|[<-|[]]]; [|exact Fn]. apply in_map_iff in Hr as (r0 & <- & Hr). apply with_name_fits. apply (C32_two_fits top_layer); [now left|exact Hr].
    - apply (C32_two_fits low_layer); [right; now left|exact Hr]. }
  split; [exact C32_two_built|]. split; [built_ok|]. split; [intros m Hm; vm_compute in Hm; repeat destruct Hm as [<-|Hm]; try contradiction; vm_compute; reflexivity|].
  split; [name_ok|]. split; [vm_compute; reflexivity|]. split; [|split; apply unpointed_spec; vm_compute; reflexivity].
  apply (one_more_in _ _ _ _ [] top_layer (map with_name top_layer) [low_layer]); [reflexivity|reflexivity| |vm_compute; reflexivity].
  induction top_layer; constructor; [apply with_name_alike|assumption].
Qed.
(** What the new node shows: r's x, its own z, its own code. *)
Example C62_two_shows : exists X, two_added = Some (Ok (X, [lit "/r/n"])) /\
  reads X [r_; n_] (lit "x") = Some (VStr (lit "2")) /\ reads X [r_; n_] (lit "z") = Some (VStr (lit "7")) /\ reads X [r_; n_] COMPUTE = Some (VList [VStr (lit "pass")]) /\
  reads two_more_stage [r_; n_] (lit "x") = Some (VStr (lit "2")) /\ reads X [r_] CHILD_ORDER = reads two_more_stage [r_] CHILD_ORDER /\ ~ In n_ (listed (reads two_stage [r_] CHILD_ORDER)).
Proof.
  eexists. split; [reflexivity|]. repeat (split; [vm_compute; reflexivity|]). vm_compute. intuition discriminate.
Qed.

(** ** Where the two differ *)

(** The parent is in another layer than the new node: the stage lists the new
    name among the parent's children, a new composition does not. *)
Definition low_n : layer_row := row "low" [s_] "n" [].
Definition apart (more : list layer_row) : list (list layer_row) := [[world_row "top"; row "top" [] "s" []]; [world_row "low"] ++ more].
Theorem C62_order_refuted :
  exists layers layers' H H' data real_path ps nm sp X, regular layers /\ regular layers' /\ stage_of layers H /\ stage_of layers' H' /\
  names (ps ++ [nm]) /\ dget (lit "name") data = Some (VStr nm) /\ dget (lit "instance") data = None /\ dget (lit "enabled") data = None /\
  create_node data real_path (abs_path ps) false = Ok sp /\ one_more (ps ++ [nm]) sp layers layers' /\ (forall es, ~ points H es ps) /\ (forall es, ~ points H es (ps ++ [nm])) /\
  add_node (VStr (lit "top")) false 9 H None sp = Some (Ok (X, [abs_path (ps ++ [nm])])) /\
  In nm (listed (reads X ps CHILD_ORDER)) /\ in_stage H' (ps ++ [nm]) /\ ~ In nm (listed (reads H' ps CHILD_ORDER)).
Proof.
  destruct (add_node (VStr (lit "top")) false 9 (stage_at (apart [])) None (snd low_n)) as [[[X d]|e]|] eqn:Ea; [|vm_compute in Ea; discriminate..].
  exists (apart []), (apart [low_n]), (stage_at (apart [])), (stage_at (apart [low_n])), [(lit "name", VStr n_)], (VStr (lit "low")), [s_], n_, (snd low_n), X.
  split; [regular_by ltac:(fits_two apart)|]. split; [regular_by ltac:(fits_two apart)|]. split; [built_ok|]. split; [built_ok|]. split; [name_ok|]. do 3 (split; [reflexivity|]). split; [vm_compute; reflexivity|].
  split. { apply (one_more_in _ _ _ _ [[world_row "top"; row "top" [] "s" []]] [world_row "low"] [world_row "low"] []); [reflexivity|reflexivity| |vm_compute; reflexivity]. repeat constructor. }
  split; [apply unpointed_spec; vm_compute; reflexivity|]. split; [apply unpointed_spec; vm_compute; reflexivity|].
  vm_compute in Ea. injection Ea as <- <-. split; [vm_compute; reflexivity|]. split; [vm_compute; auto|]. split; [vm_compute; reflexivity|]. vm_compute. intuition discriminate.
Qed.
Print Assumptions C62_order_refuted.

(** The parent is instanced by a node that is instanced itself: the copy below
    the second one gets the new node as its source, not the copy below the
    first. *)
Definition chain (more : list layer_row) : list (list layer_row) := [[world_row "top"; row "top" [] "s" []; row "top" [] "q" (instance "/s"); row "top" [] "p" (instance "/q")] ++ more].
Definition top_n : layer_row := row "top" [s_] "n" [].
Theorem C62_indirect_refuted :
  exists layers layers' H H' data real_path ps nm sp X d cs rs, regular layers /\ regular layers' /\ stage_of layers H /\ stage_of layers' H' /\
  names (ps ++ [nm]) /\ dget (lit "name") data = Some (VStr nm) /\ dget (lit "instance") data = None /\ dget (lit "enabled") data = None /\
  create_node data real_path (abs_path ps) false = Ok sp /\ one_more (ps ++ [nm]) sp layers layers' /\ (forall es, ~ points H es (ps ++ [nm])) /\
  add_node (VStr (lit "top")) false 20 H None sp = Some (Ok (X, d)) /\ names cs /\ in_stage X cs /\ in_stage H' cs /\
  instances H' cs rs /\ ~ instances X cs rs /\ instances X cs (ps ++ [nm]).
Proof.
  destruct (add_node (VStr (lit "top")) false 20 (stage_at (chain [])) None (snd top_n)) as [[[X d]|e]|] eqn:Ea; [|vm_compute in Ea; discriminate..].
  exists (chain []), (chain [top_n]), (stage_at (chain [])), (stage_at (chain [top_n])), [(lit "name", VStr n_)], (VStr (lit "top")), [s_], n_, (snd top_n), X, d, [lit "p"; n_], [lit "q"; n_].
  split; [regular_by ltac:(fits_two chain); [exists [s_]|exists [lit "q"]]; (split; [name_ok|reflexivity])|]. split; [regular_by ltac:(fits_two chain); [exists [s_]|exists [lit "q"]]; (split; [name_ok|reflexivity])|].
  split; [built_ok|]. split; [built_ok|]. split; [name_ok|]. do 3 (split; [reflexivity|]). split; [vm_compute; reflexivity|].
  split. { apply (one_more_in _ _ _ _ [] (hd [] (chain [])) (hd [] (chain [])) []); [reflexivity|reflexivity| |vm_compute; reflexivity]. repeat constructor. }
  split; [apply unpointed_spec; vm_compute; reflexivity|]. vm_compute in Ea. injection Ea as <- <-. split; [vm_compute; reflexivity|]. split; [name_ok|]. do 2 (split; [vm_compute; reflexivity|]). split; [|split].
  - split; [name_ok|]. split; [discriminate|]. split; vm_compute; reflexivity.
  - intros (_ & _ & _ & E). vm_compute in E. discriminate E.
  - split; [name_ok|]. split; [discriminate|]. split; vm_compute; reflexivity.
Qed.
Print Assumptions C62_indirect_refuted.
