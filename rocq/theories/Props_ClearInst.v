(** C67: taking a node's instance source away agrees with composing the changed
    layers anew. *)

From Coq Require Import String List NArith ZArith Bool Arith Lia.
From Verif Require Import PyStr PyStrFacts NxtPath PathSpec PathProofs Dict DictFacts ListMerger SortRows Layer PyVal NodeIO NodeIOProofs PyClass Comp CompSpec CompProofs CompTreeProofs CompStageProofs
  StageView StageViewProofs DirtyStageSpec Props_Comp Props_CompCases Props_Dirty LocalSpec LocalProofs Props_Local AddNode AddNodeSpec Props_AddNode SetInst SetInstSpec ClearInstProofs Props_SetInst.
From Verif Require OpinionsSpec.
Import ListNotations.

(** Take regular layers and their stage, and the same layers with one node
    changed: it no longer names the instance source it named, and no other layer
    names one for it.  The stage records that layer as where the node's source
    comes from.  The node is not a proxy and not a source itself, its source's
    sources do not lead to the world, and neither of the two has children.  Clearing the instance path
    of that layer's node on the stage succeeds, reports the node's path as dirty,
    and gives the nodes of a new composition, each with the same instances,
    identity, code, enabled state, comment and user attributes.  The node has no
    source afterwards, and only that layer's node is changed, to what the layer
    now says. *)
Theorem C67_taken :
  forall layers layers' H H' ps nm rs real_path d d' stronger i, regular layers -> regular layers' -> stage_of layers H -> stage_of layers' H' ->
  (forall m, In m (opinions [] layers) -> value m NAME = VStr (lit "/")) -> plainly_silent layers ->
  names (ps ++ [nm]) -> names rs -> rs <> [] -> in_stage H rs ->
  one_changed (ps ++ [nm]) d d' stronger layers layers' -> cleared (ps ++ [nm]) rs (VStr real_path) d d' -> value d SOURCE_LAYER = VStr real_path ->
  nth_error (bases_in (comps H) (Co (abs_path (ps ++ [nm])))) (length stronger) = Some (Sp i) ->
  silent INSTANCE_PATH (opinions (ps ++ [nm]) layers') ->
  reads H (ps ++ [nm]) (source_of INSTANCE_PATH) = Some (VTuple [VStr real_path; VStr (abs_path (ps ++ [nm]))]) ->
  reads H (ps ++ [nm]) PROXY = Some (VBool false) -> ~ OpinionsSpec.follows H rs [] -> (forall es, ~ points H es (ps ++ [nm])) ->
  (forall xs, names xs -> xs <> [] -> ~ in_stage H ((ps ++ [nm]) ++ xs)) -> (forall xs, names xs -> xs <> [] -> ~ in_stage H (rs ++ xs)) ->
  forall top one fuel, exists X dirty, set_instance top one fuel H i (VStr real_path) VNone = Some (Ok (X, dirty)) /\
    In (abs_path (ps ++ [nm])) dirty /\
    (forall es, names es -> in_stage X es <-> in_stage H' es) /\
    (forall es a, names es -> in_stage H' es -> asked a -> reads X es a = reads H' es a) /\
    (forall es ts, names es -> in_stage H' es -> instances X es ts <-> instances H' es ts) /\
    reads X (ps ++ [nm]) INSTANCE_PATH = Some VNone /\
    reads X (ps ++ [nm]) (source_of INSTANCE_PATH) = Some (VTuple [VStr real_path; VStr (abs_path (ps ++ [nm]))]) /\
    length (specs X) = length (specs H) /\ (forall j, j <> i -> nth_error (specs X) j = nth_error (specs H) j) /\
    exists n, nth_error (specs X) i = Some n /\ forall a, value n a = value d' a.
Proof.
  intros layers layers' H H' ps nm rs rp d d' st i Rg Rg' B B' World Plain Hc Hr Hrn Hrh [above rows rows' below E E' Es] Ed Esl Enth Sil Esrc Eprox Enor unseen leaf bare top one fuel.
  destruct (stage_parts layers H (r_fits _ Rg) B) as (H1 & F & P). destruct (stage_parts layers' H' (r_fits _ Rg') B') as (H1' & F' & P').
  assert (Eo : opinions (ps ++ [nm]) layers = st ++ d :: opinions (ps ++ [nm]) (rows' :: below)). { rewrite E, opinions_mid, <- Es. now destruct (list_eq_dec (list_eq_dec N.eq_dec) (ns_of (ps ++ [nm])) (ns_of (ps ++ [nm]))). }
  assert (Eo' : opinions (ps ++ [nm]) layers' = st ++ d' :: opinions (ps ++ [nm]) (rows' :: below)). { rewrite E', opinions_mid, <- Es. now destruct (list_eq_dec (list_eq_dec N.eq_dec) (ns_of (ps ++ [nm])) (ns_of (ps ++ [nm]))). }
  assert (Else : forall es, names es -> es <> ps ++ [nm] -> opinions es layers' = opinions es layers). { intros es He Ne. rewrite E, E', !opinions_mid. destruct (list_eq_dec (list_eq_dec N.eq_dec) (ns_of (ps ++ [nm])) (ns_of es)) as [Q|Q]; [|reflexivity]. destruct Ne. now apply ns_inj. }
  exact (b_final layers layers' H H' ps nm rs rp d d' st _ i Rg Rg' B B' World Hc Hr Hrn Ed Eo Eo' Else Sil Esrc Eprox Enor leaf bare Hrh unseen Plain Esl Enth H1 F H1' F' P P' top one fuel).
Qed.
Print Assumptions C67_taken.

(** ** Examples *)

Local Ltac name_ok := repeat (constructor; [split; [split; [discriminate|vm_compute; intuition discriminate]|vm_compute; intuition discriminate]|]); constructor.
Local Ltac fits_two l := intros l0 r0 Hl Hr; unfold l in Hl; repeat destruct Hl as [<-|Hl]; try contradiction; cbn [In] in Hr; repeat destruct Hr as [<-|Hr]; try contradiction; try apply world_fits; (apply row_fits; [name_ok| |reflexivity]; try (left; reflexivity)); right.
Local Ltac regular_by tac := constructor; [tac|apply gap_free_gapless; vm_compute; reflexivity|apply pure_rows_pure; vm_compute; reflexivity|apply low_sources_spec; vm_compute; reflexivity].
Local Ltac built_ok := exists 9, (VStr (lit "top")), false; vm_compute; reflexivity.

(** /q has a node in both layers, and the lower one stops naming /s, which
    instances /t. *)
Definition taken_top : list layer_row := [world_row "top"; row "top" [] "t" (user "w" "0"); row "top" [] "s" (user "x" "1" ++ comment "c" ++ instance "/t"); row "top" [] "q" (user "y" "2")].
Definition taken (more : dict pyval) : list (list layer_row) :=
  [[world_row "top"; row "top" [] "t" (user "w" "0"); row "top" [] "s" (user "x" "1" ++ comment "c" ++ instance "/t"); row "top" [] "q" (user "y" "2")]; [world_row "low"; q_low more]].
Definition taken_stage : heap := Eval vm_compute in stage_at (taken (instance "/s")).
Definition taken_set : option (res (heap * list pystr)) := Eval vm_compute in set_instance (VStr (lit "top")) false 9 taken_stage 5 (VStr (lit "low")) VNone.
Lemma q_cleared : cleared [q_] [s_] (VStr (lit "low")) (snd (q_low (instance "/s"))) (snd (q_low [])).
Proof.
  assert (E : snd (q_low (instance "/s")) = dset INSTANCE_PATH (VStr (lit "/s")) (snd (q_low []))) by (vm_compute; reflexivity).
  do 4 (split; [vm_compute; reflexivity|]). intros a N _. rewrite E, dget_dset. destruct (str_eqb INSTANCE_PATH a) eqn:Q; [apply str_eqb_eq in Q; congruence|reflexivity].
Qed.
Example C67_two : regular (taken (instance "/s")) /\ regular (taken []) /\ stage_of (taken (instance "/s")) taken_stage /\ stage_of (taken []) (stage_at (taken [])) /\
  (forall m, In m (opinions [] (taken (instance "/s"))) -> value m NAME = VStr (lit "/")) /\ plainly_silent (taken (instance "/s")) /\ in_stage taken_stage [s_] /\
  one_changed [q_] (snd (q_low (instance "/s"))) (snd (q_low [])) [snd (row "top" [] "q" (user "y" "2"))] (taken (instance "/s")) (taken []) /\
  cleared [q_] [s_] (VStr (lit "low")) (snd (q_low (instance "/s"))) (snd (q_low [])) /\ value (snd (q_low (instance "/s"))) SOURCE_LAYER = VStr (lit "low") /\
  nth_error (bases_in (comps taken_stage) (Co (abs_path [q_]))) 1 = Some (Sp 5) /\
  silent INSTANCE_PATH (opinions [q_] (taken [])) /\
  reads taken_stage [q_] (source_of INSTANCE_PATH) = Some (VTuple [VStr (lit "low"); VStr (lit "/q")]) /\
  reads taken_stage [q_] PROXY = Some (VBool false) /\ ~ OpinionsSpec.follows taken_stage [s_] [] /\
  (forall es, ~ points taken_stage es [q_]) /\
  (forall xs, names xs -> xs <> [] -> ~ in_stage taken_stage ([q_] ++ xs)) /\ (forall xs, names xs -> xs <> [] -> ~ in_stage taken_stage ([s_] ++ xs)).
Proof.
  split; [regular_by ltac:(fits_two taken); [exists [t_]|exists [s_]]; (split; [name_ok|reflexivity])|]. split; [regular_by ltac:(fits_two taken); exists [t_]; (split; [name_ok|reflexivity])|]. split; [built_ok|]. split; [built_ok|].
  split; [intros m Hm; vm_compute in Hm; repeat destruct Hm as [<-|Hm]; try contradiction; vm_compute; reflexivity|]. split; [apply plain_rows_spec; vm_compute; reflexivity|]. split; [vm_compute; reflexivity|].
  split; [apply (one_changed_in _ _ _ _ _ _ [taken_top] [world_row "low"] [] []); vm_compute; reflexivity|]. split; [exact q_cleared|]. split; [vm_compute; reflexivity|]. split; [vm_compute; reflexivity|].
  split; [intros m Hm; vm_compute in Hm; repeat destruct Hm as [<-|Hm]; try contradiction; vm_compute; intuition discriminate|]. split; [vm_compute; reflexivity|]. split; [vm_compute; reflexivity|].
  split. { assert (G : forall x r, OpinionsSpec.points taken_stage x r -> reads taken_stage x INSTANCE_PATH = Some (VStr (abs_path r))) by (now intros x r (_ & _ & E)).
    assert (Es : forall r, OpinionsSpec.points taken_stage [s_] r -> r = [t_]). { intros r Pr. pose proof Pr as (Hr & _). apply G in Pr. assert (E : reads taken_stage [s_] INSTANCE_PATH = Some (VStr (abs_path [t_]))) by (vm_compute; reflexivity). rewrite E in Pr. assert (Q : abs_path r = abs_path [t_]) by congruence. apply path_inj in Q; [exact Q|exact Hr|name_ok]. }
    assert (Et : forall r, ~ OpinionsSpec.points taken_stage [t_] r). { intros r Pr. apply G in Pr. vm_compute in Pr. discriminate Pr. }
    intros Fo. inversion Fo as [? ? Pr|? r ? Pr Fo2]; apply Es in Pr; [discriminate Pr|]. subst r. inversion Fo2 as [? ? Pr2|? r2 ? Pr2 Fo3]; exact (Et _ Pr2). }
  split; [apply unpointed_spec; vm_compute; reflexivity|].
  split; apply childless_spec; try discriminate; try name_ok; vm_compute; reflexivity.
Qed.
(** What came from /s and /t is gone; what the layers say is still there. *)
Example C67_two_shows : exists X, taken_set = Some (Ok (X, [lit "/q"; lit "/q"])) /\
  reads X [q_] (lit "w") = None /\ reads X [q_] (lit "x") = None /\ reads X [q_] (lit "y") = Some (VStr (lit "2")) /\ reads X [q_] (lit "z") = Some (VStr (lit "3")) /\ reads X [q_] COMMENT = Some VNone /\
  reads taken_stage [q_] (lit "w") = Some (VStr (lit "0")) /\ reads taken_stage [q_] (lit "x") = Some (VStr (lit "1")) /\ reads taken_stage [q_] COMMENT = Some (VStr (lit "c")).
Proof. eexists. split; [reflexivity|]. repeat (split; [vm_compute; reflexivity|]). vm_compute. reflexivity. Qed.

(** ** Where the two differ *)

(** Below a node that uses the same source, where that source has a source of
    its own, the cleared node takes over the source's source.  (These layers have
    a node below an instance, so they are not regular.) *)
Definition chain_head : list layer_row := [world_row "top"; row "top" [] "t" (user "x" "1"); row "top" [] "s" (instance "/t"); row "top" [] "a" (instance "/s")].
Definition chain_low (more : dict pyval) : layer_row := row "top" [lit "a"] "n" more.
Definition chain (more : dict pyval) : list (list layer_row) := [[world_row "top"; row "top" [] "t" (user "x" "1"); row "top" [] "s" (instance "/t"); row "top" [] "a" (instance "/s"); chain_low more]].
Theorem C67_parent_refuted :
  exists layers layers' H H' cs rs ts real_path d d' i X dirty, well_formed layers /\ gapless layers /\ no_ancestor_sources layers /\ well_formed layers' /\ stage_of layers H /\ stage_of layers' H' /\
  names cs /\ names rs /\ rs <> [] /\ in_stage H rs /\ one_changed cs d d' [] layers layers' /\ cleared cs rs (VStr real_path) d d' /\ value d SOURCE_LAYER = VStr real_path /\
  nth_error (bases_in (comps H) (Co (abs_path cs))) 0 = Some (Sp i) /\ silent INSTANCE_PATH (opinions cs layers') /\
  reads H cs (source_of INSTANCE_PATH) = Some (VTuple [VStr real_path; VStr (abs_path cs)]) /\ reads H cs PROXY = Some (VBool false) /\
  (exists ps, parent H cs ps /\ instances H ps rs) /\ instances H rs ts /\
  set_instance (VStr (lit "top")) false 9 H i (VStr real_path) VNone = Some (Ok (X, dirty)) /\
  instances X cs ts /\ reads H' cs INSTANCE_PATH = Some VNone.
Proof.
  destruct (set_instance (VStr (lit "top")) false 9 (stage_at (chain (instance "/s"))) 4 (VStr (lit "top")) VNone) as [[[X ds]|e]|] eqn:Ea; [|vm_compute in Ea; discriminate..].
  exists (chain (instance "/s")), (chain []), (stage_at (chain (instance "/s"))), (stage_at (chain [])), [lit "a"; lit "n"], [s_], [lit "t"], (lit "top"), (snd (chain_low (instance "/s"))), (snd (chain_low [])), 4, X, ds.
  split; [fits_two chain; [exists [lit "t"]|exists [s_]|exists [s_]]; (split; [name_ok|reflexivity])|]. split; [apply gap_free_gapless; vm_compute; reflexivity|]. split; [apply low_sources_spec; vm_compute; reflexivity|].
  split; [fits_two chain; [exists [lit "t"]|exists [s_]]; (split; [name_ok|reflexivity])|]. split; [built_ok|]. split; [built_ok|].
  split; [name_ok|]. split; [name_ok|]. split; [discriminate|]. split; [vm_compute; reflexivity|].
  split; [apply (one_changed_in _ _ _ _ _ _ [] chain_head [] []); vm_compute; reflexivity|].
  split. { assert (E : snd (chain_low (instance "/s")) = dset INSTANCE_PATH (VStr (lit "/s")) (snd (chain_low []))) by (vm_compute; reflexivity).
    do 4 (split; [vm_compute; reflexivity|]). intros a N _. rewrite E, dget_dset. destruct (str_eqb INSTANCE_PATH a) eqn:Q; [apply str_eqb_eq in Q; congruence|reflexivity]. }
  split; [vm_compute; reflexivity|]. split; [vm_compute; reflexivity|]. split; [intros m Hm; vm_compute in Hm; repeat destruct Hm as [<-|Hm]; try contradiction; vm_compute; intuition discriminate|].
  split; [vm_compute; reflexivity|]. split; [vm_compute; reflexivity|].
  split; [exists [lit "a"]; split; [exists 1; split; [cbn; lia|]; split; [reflexivity|]; split; [vm_compute; reflexivity|]; intros j Hj; cbn in Hj; lia|split; [name_ok|]; split; [discriminate|]; split; vm_compute; reflexivity]|].
  split; [split; [name_ok|]; split; [discriminate|]; split; vm_compute; reflexivity|].
  vm_compute in Ea. injection Ea as <- <-. split; [vm_compute; reflexivity|]. split; [split; [name_ok|]; split; [discriminate|]; split; vm_compute; reflexivity|]. vm_compute. reflexivity.
Qed.
Print Assumptions C67_parent_refuted.
