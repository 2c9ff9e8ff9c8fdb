(** C66: giving a node of a composed stage an instance source agrees with
    composing the changed layers anew. *)

From Coq Require Import String List NArith ZArith Bool Arith Lia.
From Verif Require Import PyStr PyStrFacts NxtPath PathSpec PathProofs Dict DictFacts ListMerger SortRows Layer PyVal NodeIO NodeIOProofs PyClass Comp CompSpec CompProofs CompTreeProofs CompStageProofs
  StageView StageViewProofs DirtyStageSpec Props_Comp Props_CompCases Props_Dirty LocalSpec LocalProofs Props_Local AddNode AddNodeSpec Props_AddNode SetInst SetInstSpec SetInstProofs.
Import ListNotations.

Lemma opinions_mid cs above rows x e rows' below :
  opinions cs (above ++ (rows ++ (x, e) :: rows') :: below) =
  opinions cs (above ++ [rows]) ++ (if list_eq_dec (list_eq_dec N.eq_dec) x (ns_of cs) then [e] else []) ++ opinions cs (rows' :: below).
Proof.
  unfold opinions. rewrite !concat_app. cbn [concat]. rewrite app_nil_r, <- app_assoc, app_assoc, filter_app, map_app. f_equal. cbn [app filter fst snd]. destruct (list_eq_dec (list_eq_dec N.eq_dec) x (ns_of cs)); reflexivity.
Qed.
Lemma ns_inj es cs : names es -> names cs -> ns_of cs = ns_of es -> es = cs.
Proof.
  intros He Hc E. destruct es as [|e es], cs as [|c cs]; cbn in E; try reflexivity.
  - injection E as -> E. inversion Hc as [|? ? ((N & _) & _) ?]; subst. now destruct N.
  - injection E as <- E. inversion He as [|? ? ((N & _) & _) ?]; subst. now destruct N.
  - now symmetry.
Qed.

(** Take regular layers and their stage, and the same layers with one node
    changed: it now names an existing node as its instance source.  No layer gave
    the node a source, it is not a source itself and neither of the two has
    children.  Setting the instance path of that layer's node on the stage
    succeeds, reports the node's path as dirty, and gives the nodes of a new
    composition, each with the same instances, identity, code, enabled state,
    comment and user attributes.  The new source and the layer that says it are
    recorded, and only that layer's node is changed, to what the layer now says. *)
Theorem C66_given :
  forall layers layers' H H' ps nm rs real_path d d' stronger i, regular layers -> regular layers' -> stage_of layers H -> stage_of layers' H' ->
  (forall m, In m (opinions [] layers) -> value m NAME = VStr (lit "/")) -> plainly_silent layers ->
  names (ps ++ [nm]) -> names rs -> rs <> [] -> in_stage H rs ->
  one_changed (ps ++ [nm]) d d' stronger layers layers' -> redirected (ps ++ [nm]) rs (VStr real_path) d d' -> value d SOURCE_LAYER = VStr real_path ->
  nth_error (bases_in (comps H) (Co (abs_path (ps ++ [nm])))) (length stronger) = Some (Sp i) ->
  silent INSTANCE_PATH (opinions (ps ++ [nm]) layers) -> reads H (ps ++ [nm]) INSTANCE_PATH = Some VNone -> (forall es, ~ points H es (ps ++ [nm])) ->
  (forall xs, names xs -> xs <> [] -> ~ in_stage H ((ps ++ [nm]) ++ xs)) -> (forall xs, names xs -> xs <> [] -> ~ in_stage H (rs ++ xs)) ->
  forall top one fuel, exists X dirty, set_instance top one (S fuel) H i (VStr real_path) (VStr (abs_path rs)) = Some (Ok (X, dirty)) /\
    In (abs_path (ps ++ [nm])) dirty /\
    (forall es, names es -> in_stage X es <-> in_stage H' es) /\
    (forall es a, names es -> in_stage H' es -> asked a -> reads X es a = reads H' es a) /\
    (forall es ts, names es -> in_stage H' es -> instances X es ts <-> instances H' es ts) /\
    reads X (ps ++ [nm]) INSTANCE_PATH = Some (VStr (abs_path rs)) /\
    reads X (ps ++ [nm]) (source_of INSTANCE_PATH) = Some (VTuple [VStr real_path; VStr (abs_path (ps ++ [nm]))]) /\
    length (specs X) = length (specs H) /\ (forall j, j <> i -> nth_error (specs X) j = nth_error (specs H) j) /\
    exists n, nth_error (specs X) i = Some n /\ forall a, value n a = value d' a.
Proof.
  intros layers layers' H H' ps nm rs rp d d' st i Rg Rg' B B' World Plain Hc Hr Hrn Hrh [above rows rows' below E E' Es] Ed Esl Enth Sil Eold unseen leaf bare top one fuel.
  destruct (stage_parts layers H (r_fits _ Rg) B) as (H1 & F & P). destruct (stage_parts layers' H' (r_fits _ Rg') B') as (H1' & F' & P').
  assert (Eo : opinions (ps ++ [nm]) layers = st ++ d :: opinions (ps ++ [nm]) (rows' :: below)). { rewrite E, opinions_mid, <- Es. now destruct (list_eq_dec (list_eq_dec N.eq_dec) (ns_of (ps ++ [nm])) (ns_of (ps ++ [nm]))). }
  assert (Eo' : opinions (ps ++ [nm]) layers' = st ++ d' :: opinions (ps ++ [nm]) (rows' :: below)). { rewrite E', opinions_mid, <- Es. now destruct (list_eq_dec (list_eq_dec N.eq_dec) (ns_of (ps ++ [nm])) (ns_of (ps ++ [nm]))). }
  assert (Else : forall es, names es -> es <> ps ++ [nm] -> opinions es layers' = opinions es layers). { intros es He Ne. rewrite E, E', !opinions_mid. destruct (list_eq_dec (list_eq_dec N.eq_dec) (ns_of (ps ++ [nm])) (ns_of es)) as [Q|Q]; [|reflexivity]. destruct Ne. now apply ns_inj. }
  exact (b_final layers layers' H H' ps nm rs rp d d' st _ i Rg Rg' B B' World Hc Hr Hrn Ed Eo Eo' Else Sil Eold leaf bare Hrh unseen Plain Esl Enth H1 F H1' F' P P' top one fuel).
Qed.
Print Assumptions C66_given.

(** ** Examples *)

Local Ltac name_ok := repeat (constructor; [split; [split; [discriminate|vm_compute; intuition discriminate]|vm_compute; intuition discriminate]|]); constructor.
Local Ltac fits_two l := intros l0 r0 Hl Hr; unfold l in Hl; repeat destruct Hl as [<-|Hl]; try contradiction; cbn [In] in Hr; repeat destruct Hr as [<-|Hr]; try contradiction; try apply world_fits; (apply row_fits; [name_ok| |reflexivity]; try (left; reflexivity)); right.
Local Ltac regular_by tac := constructor; [tac|apply gap_free_gapless; vm_compute; reflexivity|apply pure_rows_pure; vm_compute; reflexivity|apply low_sources_spec; vm_compute; reflexivity].
Local Ltac built_ok := exists 9, (VStr (lit "top")), false; vm_compute; reflexivity.

Definition childless (H : heap) (p : pystr) : bool := forallb (fun q => negb (is_ancestor q p)) (dkeys (comps H)).
Lemma childless_spec H cs : names cs -> cs <> [] -> childless H (abs_path cs) = true -> forall xs, names xs -> xs <> [] -> ~ in_stage H (cs ++ xs).
Proof.
  intros Hc N U xs Hx Nx Hh. unfold childless in U. rewrite forallb_forall in U. unfold in_stage, here, dmem in Hh.
  assert (K : In (abs_path (cs ++ xs)) (dkeys (comps H))) by (apply dget_some_key; destruct (dget _ (comps H)) as [c|]; [now exists c|discriminate]).
  specialize (U _ K). apply negb_true_iff in U. apply not_true_iff_false in U. apply U. apply is_ancestor_abs; [apply names_comp; apply Forall_app; auto|now apply names_comp|]. right. exists xs. auto.
Qed.
Definition plain_rows (layers : list (list layer_row)) : bool :=
  forallb (fun r => forallb (fun a => has_opinion (value (snd r) a) || (match value (snd r) a, unsaid a with VNone, VNone => true | VList [], VList [] => true | _, _ => false end)) passed_on) (concat layers).
Lemma plain_rows_spec layers : plain_rows layers = true -> plainly_silent layers.
Proof.
  intros U cs m a Hm Ha. unfold plain_rows in U. rewrite forallb_forall in U. unfold opinions in Hm. apply in_map_iff in Hm as (r & <- & Hr). apply filter_In in Hr as (Hr & _). specialize (U r Hr). rewrite forallb_forall in U. specialize (U a Ha).
  assert (G : forall w u, has_opinion w || (match w, u with VNone, VNone => true | VList [], VList [] => true | _, _ => false end) = true -> says w \/ w = u).
  { clear. intros w u U. apply orb_true_iff in U as [U|U]; [left; now apply has_opinion_says|right]. destruct w as [| | | |[|]| | |], u as [| | | |[|]| | |]; try discriminate U; reflexivity. }
  exact (G _ _ U).
Qed.

(** /q has a node in both layers; the lower one gets /s as its source. *)
Definition q_ := lit "q".
Definition q_low (more : dict pyval) : layer_row := row "low" [] "q" (user "z" "3" ++ more).
Definition given_top : list layer_row := [world_row "top"; row "top" [] "s" (user "x" "1" ++ comment "c"); row "top" [] "q" (user "y" "2")].
Definition given (more : dict pyval) : list (list layer_row) := [given_top; [world_row "low"; q_low more]].
Definition given_set : option (res (heap * list pystr)) := Eval vm_compute in set_instance (VStr (lit "top")) false 9 (stage_at (given [])) 4 (VStr (lit "low")) (VStr (lit "/s")).
Lemma q_redirected : redirected [q_] [s_] (VStr (lit "low")) (snd (q_low [])) (snd (q_low (instance "/s"))).
Proof.
  assert (E : snd (q_low (instance "/s")) = dset INSTANCE_PATH (VStr (lit "/s")) (snd (q_low []))) by (vm_compute; reflexivity).
  split; [vm_compute; reflexivity|]. split; [vm_compute; reflexivity|]. intros a N _. rewrite E, dget_dset. destruct (str_eqb INSTANCE_PATH a) eqn:Q; [apply str_eqb_eq in Q; congruence|reflexivity].
Qed.
Example C66_two : regular (given []) /\ regular (given (instance "/s")) /\ stage_of (given []) (stage_at (given [])) /\ stage_of (given (instance "/s")) (stage_at (given (instance "/s"))) /\
  (forall m, In m (opinions [] (given [])) -> value m NAME = VStr (lit "/")) /\ plainly_silent (given []) /\ in_stage (stage_at (given [])) [s_] /\
  one_changed [q_] (snd (q_low [])) (snd (q_low (instance "/s"))) [snd (row "top" [] "q" (user "y" "2"))] (given []) (given (instance "/s")) /\
  redirected [q_] [s_] (VStr (lit "low")) (snd (q_low [])) (snd (q_low (instance "/s"))) /\ value (snd (q_low [])) SOURCE_LAYER = VStr (lit "low") /\
  nth_error (bases_in (comps (stage_at (given []))) (Co (abs_path [q_]))) 1 = Some (Sp 4) /\
  silent INSTANCE_PATH (opinions [q_] (given [])) /\ reads (stage_at (given [])) [q_] INSTANCE_PATH = Some VNone /\ (forall es, ~ points (stage_at (given [])) es [q_]) /\
  (forall xs, names xs -> xs <> [] -> ~ in_stage (stage_at (given [])) ([q_] ++ xs)) /\ (forall xs, names xs -> xs <> [] -> ~ in_stage (stage_at (given [])) ([s_] ++ xs)).
Proof.
  split; [regular_by ltac:(fits_two given)|]. split; [regular_by ltac:(fits_two given); exists [s_]; (split; [name_ok|reflexivity])|]. split; [built_ok|]. split; [built_ok|].
  split; [intros m Hm; vm_compute in Hm; repeat destruct Hm as [<-|Hm]; try contradiction; vm_compute; reflexivity|]. split; [apply plain_rows_spec; vm_compute; reflexivity|]. split; [vm_compute; reflexivity|].
  split; [apply (one_changed_in _ _ _ _ _ _ [given_top] [world_row "low"] [] []); vm_compute; reflexivity|]. split; [exact q_redirected|]. split; [vm_compute; reflexivity|]. split; [vm_compute; reflexivity|].
  split; [intros m Hm; vm_compute in Hm; repeat destruct Hm as [<-|Hm]; try contradiction; vm_compute; intuition discriminate|]. split; [vm_compute; reflexivity|]. split; [apply unpointed_spec; vm_compute; reflexivity|].
  split; apply childless_spec; try discriminate; try name_ok; vm_compute; reflexivity.
Qed.
(** /q now has the source's x and comment next to what its layers say. *)
Example C66_two_shows : exists X, given_set = Some (Ok (X, [lit "/q"])) /\
  reads X [q_] (lit "x") = Some (VStr (lit "1")) /\ reads X [q_] (lit "y") = Some (VStr (lit "2")) /\ reads X [q_] (lit "z") = Some (VStr (lit "3")) /\ reads X [q_] COMMENT = Some (VStr (lit "c")) /\
  reads (stage_at (given [])) [q_] (lit "x") = None /\ reads (stage_at (given [])) [q_] COMMENT = Some VNone.
Proof. eexists. split; [reflexivity|]. repeat (split; [vm_compute; reflexivity|]). vm_compute. reflexivity. Qed.

(** ** Where the two differ *)

(** A stronger layer names a source.  Giving the weaker layer's node another one
    still moves the composed node to the weaker layer's source. *)
Definition contested (more : dict pyval) : list (list layer_row) :=
  [[world_row "top"; row "top" [] "s" (user "x" "1"); row "top" [] "t" (user "x" "9"); row "top" [] "q" (instance "/s")]; [world_row "low"; q_low more]].
Theorem C66_stronger_refuted :
  exists layers layers' H H' cs rs ts real_path d d' stronger i X dirty, regular layers /\ regular layers' /\ stage_of layers H /\ stage_of layers' H' /\
  names cs /\ names rs /\ in_stage H rs /\ one_changed cs d d' stronger layers layers' /\ redirected cs rs (VStr real_path) d d' /\ value d SOURCE_LAYER = VStr real_path /\
  nth_error (bases_in (comps H) (Co (abs_path cs))) (length stronger) = Some (Sp i) /\
  (exists m, In m stronger /\ value m INSTANCE_PATH = VStr (abs_path ts)) /\ instances H cs ts /\ instances H' cs ts /\ rs <> ts /\
  set_instance (VStr (lit "top")) false 9 H i (VStr real_path) (VStr (abs_path rs)) = Some (Ok (X, dirty)) /\ instances X cs rs.
Proof.
  destruct (set_instance (VStr (lit "top")) false 9 (stage_at (contested [])) 5 (VStr (lit "low")) (VStr (lit "/t"))) as [[[X ds]|e]|] eqn:Ea; [|vm_compute in Ea; discriminate..].
  exists (contested []), (contested (instance "/t")), (stage_at (contested [])), (stage_at (contested (instance "/t"))), [q_], [lit "t"], [s_], (lit "low"), (snd (q_low [])), (snd (q_low (instance "/t"))), [snd (row "top" [] "q" (instance "/s"))], 5, X, ds.
  split; [regular_by ltac:(fits_two contested); exists [s_]; (split; [name_ok|reflexivity])|]. split; [regular_by ltac:(fits_two contested); [exists [s_]|exists [lit "t"]]; (split; [name_ok|reflexivity])|]. split; [built_ok|]. split; [built_ok|].
  split; [name_ok|]. split; [name_ok|]. split; [vm_compute; reflexivity|].
  split; [apply (one_changed_in _ _ _ _ _ _ [hd [] (contested [])] [world_row "low"] [] []); vm_compute; reflexivity|].
  split. { assert (E : snd (q_low (instance "/t")) = dset INSTANCE_PATH (VStr (lit "/t")) (snd (q_low []))) by (vm_compute; reflexivity).
    split; [vm_compute; reflexivity|]. split; [vm_compute; reflexivity|]. intros a N _. rewrite E, dget_dset. destruct (str_eqb INSTANCE_PATH a) eqn:Q; [apply str_eqb_eq in Q; congruence|reflexivity]. }
  split; [vm_compute; reflexivity|]. split; [vm_compute; reflexivity|]. split; [exists (snd (row "top" [] "q" (instance "/s"))); split; [now left|vm_compute; reflexivity]|].
  split; [split; [name_ok|]; split; [discriminate|]; split; vm_compute; reflexivity|]. split; [split; [name_ok|]; split; [discriminate|]; split; vm_compute; reflexivity|]. split; [discriminate|].
  vm_compute in Ea. injection Ea as <- <-. split; [vm_compute; reflexivity|]. split; [name_ok|]. split; [discriminate|]. split; vm_compute; reflexivity.
Qed.
Print Assumptions C66_stronger_refuted.

(** Cleared with an empty string, the stage's node reads None where a new
    composition reads the empty string. *)
Definition emptied_ (more : dict pyval) : list (list layer_row) := [[world_row "top"; row "top" [] "q" more]].
Theorem C66_empty_refuted :
  exists layers layers' H H' cs real_path d d' i X dirty, regular layers /\ well_formed layers' /\ stage_of layers H /\ stage_of layers' H' /\ names cs /\
  one_changed cs d d' [] layers layers' /\ d' = dset INSTANCE_PATH (VStr []) d /\ value d SOURCE_LAYER = VStr real_path /\ bases_in (comps H) (Co (abs_path cs)) = [Sp i; Co (lit "/")] /\
  set_instance (VStr (lit "top")) false 9 H i (VStr real_path) (VStr []) = Some (Ok (X, dirty)) /\
  reads H' cs INSTANCE_PATH = Some (VStr []) /\ reads X cs INSTANCE_PATH = Some VNone.
Proof.
  destruct (set_instance (VStr (lit "top")) false 9 (stage_at (emptied_ [])) 1 (VStr (lit "top")) (VStr [])) as [[[X ds]|e]|] eqn:Ea; [|vm_compute in Ea; discriminate..].
  exists (emptied_ []), (emptied_ (instance "")), (stage_at (emptied_ [])), (stage_at (emptied_ (instance ""))), [q_], (lit "top"), (snd (row "top" [] "q" [])), (snd (row "top" [] "q" (instance ""))), 1, X, ds.
  split; [regular_by ltac:(fits_two emptied_)|]. split.
  { intros l r [<-|[]] [<-|[<-|[]]]; [apply world_fits|]. apply (C32_loaded_fits ((lit "name", VStr q_) :: instance "") (VStr (lit "top")) [] q_); [name_ok|reflexivity|right; right; left; reflexivity|vm_compute; reflexivity]. }
   split; [built_ok|]. split; [built_ok|]. split; [name_ok|].
  split; [apply (one_changed_in _ _ _ _ _ _ [] [world_row "top"] [] []); vm_compute; reflexivity|]. do 3 (split; [vm_compute; reflexivity|]). vm_compute in Ea. injection Ea as <- <-. split; [vm_compute; reflexivity|]. split; vm_compute; reflexivity.
Qed.
Print Assumptions C66_empty_refuted.
