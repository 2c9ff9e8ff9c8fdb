(** C51: setting a node's enabled state updates the composed stage. *)

From Coq Require Import String List NArith ZArith Bool Arith Lia.
From Verif Require Import PyStr PyStrFacts NxtPath PathSpec PathProofs Dict DictFacts ListMerger SortRows Layer PyVal NodeIO PyClass
  NodeEdit Comp CompSpec CompProofs CompPostProofs CompTreeProofs CompStageProofs CompTotalProofs StageView StageViewProofs Props_CompCases Props_NodeEdit LiveSpec Live LiveBase LiveProofs.
Import ListNotations.
Local Ltac name_ok := repeat (constructor; [split; [split; [discriminate|vm_compute; intuition discriminate]|vm_compute; intuition discriminate]|]); constructor.

Lemma ones_numbered (rows : list layer_row) : exists layers, numbered layers = rows.
Proof. exists (map (fun r => [r]) rows). unfold numbered. rewrite map_map. induction rows as [|r rows IH]; [reflexivity|]. cbn [map concat]. rewrite IH. reflexivity. Qed.

(** Layers without instances.  The node edited is number [length A] of the
    layers, and no stronger layer says anything about its enabled state.  Then
    the composed stage, updated in place, has the same nodes as the stage a new
    composition of the edited layers gives, and every attribute of every node
    reads the same, but for the note of which layer the edited node's state is
    from.  The edited node has the state asked for. *)
Theorem C51_no_rebuild :
  forall ud uw bi literal_eval fuel top_real one_object layers H pl cs A n B b, well_formed layers -> no_instances layers ->
  build_stage fuel top_real one_object layers = Built H -> names cs -> cs <> [] ->
  numbered layers = A ++ (ns_of cs, n) :: B -> (forall m, In (ns_of cs, m) A -> ~ says (value m ENABLED)) ->
  (forall m, In ([[]], m) (numbered layers) -> value m NAME = VStr (lit "/")) ->
  exists Hs n', setattr_enabled ud uw bi literal_eval H pl (length A) (VBool b) = Some (Hs, Ok []) /\
    nth_error (specs Hs) (length A) = Some n' /\ dget ENABLED n' = Some (VBool b) /\ reads Hs cs ENABLED = Some (VBool b) /\
    forall layers', numbered layers' = A ++ (ns_of cs, n') :: B ->
    exists H', build_stage fuel top_real one_object layers' = Built H' /\
      forall es, names es -> (in_stage Hs es <-> in_stage H' es) /\
        forall a, (es, a) <> (cs, source_of ENABLED) -> reads Hs es a = reads H' es a.
Proof.
  intros ud uw bi le fuel top one layers H pl cs A n B b wf Ni Bu Hc Hne E Weak World.
  set (n' := switched pl n (VBool b)). assert (But : near (tracked_all ENABLED) n n') by apply switched_near. assert (New : dget ENABLED n' = Some (VBool b)) by apply switched_enabled.
  assert (Spr : spreads (tracked_all ENABLED) (tracked_keys ENABLED)) by (apply tracked_spreads; cbn; tauto).
  assert (Keys : forall a, In a internal_keys -> In a (tracked_all ENABLED) -> dget a n' <> None).
  { intros a _ Ha. unfold n', switched. rewrite !dget_dset. destruct Ha as [<-|[<-|[<-|[]]]]; repeat (match goal with |- context [str_eqb ?x ?y] => destruct (str_eqb x y) eqn:? end); try discriminate. }
  assert (Kin : forall a, In a (tracked_keys ENABLED) -> In a internal_keys) by (intros a Ha; apply str_in_In; destruct Ha as [<-|[<-|[]]]; reflexivity).
  assert (Sp0 : specs H = map snd A ++ n :: map snd B).
  { destruct (plain_comps layers fuel top one H wf Ni Bu) as (S1 & _). rewrite S1. change (map snd (numbered layers) = map snd A ++ n :: map snd B). rewrite E, map_app. reflexivity. }
  assert (Es : specs (with_spec H (length A) n') = map snd A ++ n' :: map snd B).
  { replace (length A) with (length (map snd A)) by apply map_length. now apply with_spec_specs with n. }
  assert (En : nth_error (specs H) (length A) = Some n).
  { rewrite Sp0. rewrite nth_error_app2 by (rewrite map_length; lia). rewrite map_length, Nat.sub_diag. reflexivity. }
  assert (Build : forall layers', numbered layers' = A ++ (ns_of cs, n') :: B -> exists H', build_stage fuel top one layers' = Built H' /\ edited layers layers' H H' (tracked_keys ENABLED) cs A n n').
  { intros layers' E'. destruct (edited_builds layers layers' fuel top one H _ _ Spr cs A B n n' wf Ni Bu E E' But Keys) as (H' & B'). exists H'. split; [exact B'|].
    exact (edited_facts layers layers' fuel top one H _ _ Spr cs A B n n' wf Ni Bu Hc Hne E E' But Keys Kin H' B'). }
  assert (Own : forall layers' H', build_stage fuel top one layers' = Built H' -> edited layers layers' H H' (tracked_keys ENABLED) cs A n n' -> forall c', dget (abs_path cs) (comps H') = Some c' -> dget ENABLED (own c') = Some (VBool b)).
  { intros layers' H' B' Ed. apply (own_tracked layers layers' fuel top one H H' _ cs A n n' ENABLED (VBool b) Ed B' Hc); [cbn; tauto|exact New|split; discriminate|exact Weak]. }
  destruct (ones_numbered (A ++ (ns_of cs, n') :: B)) as (layers1 & E1). destruct (Build layers1 E1) as (H1 & B1 & Ed1).
  exists (set_attr (with_spec H (length A) n') (abs_path cs) ENABLED (VBool b)), n'. split; [|split; [|split; [exact New|split]]].
  - unfold setattr_enabled. rewrite En. cbv zeta. rewrite switched_subs. f_equal. cbn [clean_value]. fold n'.
    exact (live_switch layers layers1 fuel top one H cs A n n' b wf Ni Bu Hc Hne World H1 B1 Ed1).
  - unfold set_attr. cbn [specs with_comps]. rewrite Es, nth_error_app2 by (rewrite map_length; lia). rewrite map_length, Nat.sub_diag. reflexivity.
  - exact (proj1 (e_reads _ _ _ _ _ _ _ _ _ Ed1 ENABLED (VBool b) (Own layers1 H1 B1 Ed1))).
  - intros layers' E'. destruct (Build layers' E') as (H' & B' & Ed). exists H'. split; [exact B'|]. intros es He. split.
    + unfold in_stage. rewrite (e_here _ _ _ _ _ _ _ _ _ Ed). unfold set_attr. rewrite here_with. reflexivity.
    + intros a Ha. apply (proj2 (e_reads _ _ _ _ _ _ _ _ _ Ed ENABLED (VBool b) (Own layers' H' B' Ed))); [exact He|]. intros (-> & [<-|[<-|[]]] & Hn); [now apply Hn|now apply Ha].
Qed.
Print Assumptions C51_no_rebuild.

(** Any stage, with instances or without.  When the call changes the composed
    stage at all, the edited node and the nodes it reports have the state asked
    for, and every other attribute of every node, and the state of every other
    node, reads as it did before the call. *)
Theorem C51_reported :
  forall layers H i n' state Hs ds, well_formed layers -> stage_of layers H -> dget ENABLED n' <> None -> i < length (specs H) ->
  let Hw := with_spec H i n' in
  set_node_enabled Hw i state = (Hs, Ok ds) ->
  (ds = [] /\ Hs = Hw) \/
  ((forall p, In p (path_of Hw (Sp i) :: ds) -> here H p = true /\ forall es, abs_path es = p -> reads Hs es ENABLED = Some state) /\
   forall es a, in_stage H es -> a <> ENABLED \/ ~ In (abs_path es) (path_of Hw (Sp i) :: ds) -> reads Hs es a = reads Hw es a).
Proof. intros layers H i n' state Hs ds wf St Key Hi Hw E. exact (reach layers H i n' wf St Key Hi state Hs ds E). Qed.
Print Assumptions C51_reported.

(** ** Stages *)

Definition state (b : bool) : dict pyval := [(lit "enabled", VBool b)].
Definition spot (layer p : string) : place := {| real := VStr (lit layer); at_path := lit p; active := true |}.
Definition set_enabled := setattr_enabled nodigit nodigit dunders lits.
Definition built (layers : list (list layer_row)) : heap :=
  match build_stage 9 (VStr (lit "top")) false layers with Built H => H | _ => {| specs := []; comps := []; dirty := [] |} end.
Definition after (H : heap) (pl : place) (i : nat) (v : pyval) : heap * res (list pystr) :=
  match set_enabled H pl i v with Some r => r | None => (H, Raise TypeError) end.
Definition changed (r : layer_row) (pl : place) (v : pyval) : layer_row :=
  (fst r, match set_subs nodigit nodigit dunders lits pl ENABLED false [(META_VALUE, v)] [] [(META_VALUE, v)] (snd r) with Some (n, _) => n | None => [] end).

(** The lower layer's s and its child c; s is enabled by nobody before. *)
Definition es_row := row "low" [] "s" [].
Definition plain_two (r : layer_row) : list (list layer_row) :=
  [[world_row "top"; row "top" [] "s" []; row "top" [s_] "c" (state true)]; [world_row "low"; r; row "low" [s_] "d" []]].
Lemma plain_no_instances r : value (snd r) INSTANCE_PATH = VNone -> no_instances (plain_two r).
Proof.
  intros Hr cs rs _ _ _ (n & (st & wk & E & _) & V). assert (Hn : In n (opinions cs (plain_two r))) by (rewrite E; apply in_or_app; right; now left).
  unfold opinions in Hn. apply in_map_iff in Hn as (x & <- & Hx). apply filter_In in Hx as (Hx & _). cbn [plain_two concat app In] in Hx.
  repeat (destruct Hx as [<-|Hx]; [first [pose proof (eq_trans (eq_sym Hr) V) as Z; discriminate Z|vm_compute in V; discriminate V]|]). destruct Hx.
Qed.
Example C51_ex : exists A n B, numbered (plain_two es_row) = A ++ (ns_of [s_], n) :: B /\ length A = 4 /\
  well_formed (plain_two es_row) /\ no_instances (plain_two es_row) /\
  (forall m, In (ns_of [s_], m) A -> ~ says (value m ENABLED)) /\
  (forall m, In ([[]], m) (numbered (plain_two es_row)) -> value m NAME = VStr (lit "/")) /\
  stage_of (plain_two es_row) (built (plain_two es_row)) /\
  reads (built (plain_two es_row)) [s_] ENABLED = Some VNone /\
  (let Hs := fst (after (built (plain_two es_row)) (spot "low" "/s") 4 (VBool false)) in
   let layers' := plain_two (changed es_row (spot "low" "/s") (VBool false)) in
   reads Hs [s_] ENABLED = Some (VBool false) /\ reads (built layers') [s_] ENABLED = Some (VBool false) /\
   reads Hs [s_; c_] ENABLED = Some (VBool true) /\
   numbered layers' = A ++ (ns_of [s_], snd (changed es_row (spot "low" "/s") (VBool false))) :: B /\
   reads Hs [s_] (source_of ENABLED) <> reads (built layers') [s_] (source_of ENABLED)).
Proof.
  exists [world_row "top"; row "top" [] "s" []; row "top" [s_] "c" (state true); world_row "low"], (snd es_row), [row "low" [s_] "d" []].
  split; [vm_compute; reflexivity|]. split; [reflexivity|]. split.
  { intros l r Hl Hr. destruct Hl as [<-|[<-|[]]]; cbn [In] in Hr; repeat destruct Hr as [<-|Hr]; try contradiction; try apply world_fits;
    (apply row_fits; [name_ok| |reflexivity]; left; reflexivity). }
  split; [apply plain_no_instances; vm_compute; reflexivity|]. split.
  { intros m Hm. repeat (destruct Hm as [Hm|Hm]; [first [discriminate Hm|injection Hm as <-; intros (X & _); apply X; vm_compute; reflexivity]|]). destruct Hm. }
  split.
  { intros m Hm. apply numbered_in in Hm as (l & Hl & Hm). destruct Hl as [<-|[<-|[]]]; repeat (destruct Hm as [Hm|Hm]; [first [discriminate Hm|injection Hm as <-; vm_compute; reflexivity]|]); destruct Hm. }
  split; [exists 9, (VStr (lit "top")), false; vm_compute; reflexivity|]. split; [vm_compute; reflexivity|]. cbv zeta.
  split; [vm_compute; reflexivity|]. split; [vm_compute; reflexivity|]. split; [vm_compute; reflexivity|]. split; [vm_compute; reflexivity|]. vm_compute. discriminate.
Qed.

(** An edit: the row [r] of the layers, with [A] before and [B] behind it in
    the order of the numbers, gets the state [v]; [Hs] is the stage updated in
    place and [ds] what the call returns. *)
Definition edit (layers layers' : list (list layer_row)) (A : list layer_row) (r : layer_row) (B : list layer_row)
           (pl : place) (v : pyval) (Hs : heap) (ds : list pystr) : Prop :=
  well_formed layers /\ stage_of layers (built layers) /\ stage_of layers' (built layers') /\
  numbered layers = A ++ r :: B /\ numbered layers' = A ++ changed r pl v :: B /\
  set_enabled (built layers) pl (length A) v = Some (Hs, Ok ds).
Local Ltac stages := split; [exists 9, (VStr (lit "top")), false; vm_compute; reflexivity|]; split; [exists 9, (VStr (lit "top")), false; vm_compute; reflexivity|];
  split; [vm_compute; reflexivity|]; split; [vm_compute; reflexivity|]; vm_compute; reflexivity.

(** A layer below another that says otherwise: the stage shows the weaker
    layer's state until the next composition. *)
Definition strong := row "top" [] "t" (state true).
Definition weak := row "low" [] "t" [].
Theorem C51_stronger_layer_refuted : exists Hs,
  edit [[strong]; [weak]] [[strong]; [changed weak (spot "low" "/t") (VBool false)]] [strong] weak [] (spot "low" "/t") (VBool false) Hs [] /\
  reads Hs [t_] ENABLED = Some (VBool false) /\
  reads (built [[strong]; [changed weak (spot "low" "/t") (VBool false)]]) [t_] ENABLED = Some (VBool true).
Proof.
  exists (fst (after (built [[strong]; [weak]]) (spot "low" "/t") 1 (VBool false))). split; [|split; vm_compute; reflexivity]. split; [|stages].
  intros l r [<-|[<-|[]]] [<-|[]]; (apply row_fits; [name_ok|left; reflexivity|reflexivity]).
Qed.
Print Assumptions C51_stronger_layer_refuted.

(** Taking a state back does not bring up that of the layer below. *)
Definition off := row "top" [] "t" (state false).
Definition on := row "low" [] "t" (state true).
Theorem C51_taken_back_refuted : exists Hs,
  edit [[off]; [on]] [[changed off (spot "top" "/t") VNone]; [on]] [] off [on] (spot "top" "/t") VNone Hs [] /\
  reads Hs [t_] ENABLED = Some VNone /\
  reads (built [[changed off (spot "top" "/t") VNone]; [on]]) [t_] ENABLED = Some (VBool true).
Proof.
  exists (fst (after (built [[off]; [on]]) (spot "top" "/t") 0 VNone)). split; [|split; vm_compute; reflexivity]. split; [|stages].
  intros l r [<-|[<-|[]]] [<-|[]]; (apply row_fits; [name_ok|left; reflexivity|reflexivity]).
Qed.
Print Assumptions C51_taken_back_refuted.

(** An instance that says it is enabled is shown disabled when its source is
    disabled, until the next composition. *)
Definition source_row := row "top" [] "s" [].
Definition user_row := row "top" [] "t" (instance "/s" ++ state true).
Theorem C51_instance_with_own_state_refuted : exists Hs,
  edit [[source_row; user_row]] [[changed source_row (spot "top" "/s") (VBool false); user_row]] [] source_row [user_row] (spot "top" "/s") (VBool false) Hs [lit "/t"] /\
  reads (built [[source_row; user_row]]) [t_] ENABLED = Some (VBool true) /\ reads Hs [t_] ENABLED = Some (VBool false) /\
  reads (built [[changed source_row (spot "top" "/s") (VBool false); user_row]]) [t_] ENABLED = Some (VBool true).
Proof.
  exists (fst (after (built [[source_row; user_row]]) (spot "top" "/s") 0 (VBool false))). split; [|split; [|split]; vm_compute; reflexivity]. split; [|stages].
  intros l r [<-|[]] [<-|[<-|[]]]; (apply row_fits; [name_ok| |reflexivity]); [left; reflexivity|right; exists [s_]; split; [name_ok|reflexivity]].
Qed.
Print Assumptions C51_instance_with_own_state_refuted.

(** Enabling an instance of a disabled node shows only after the next
    composition, unless the path of the source is part of its own path. *)
Definition dead_row := row "top" [] "s" (state false).
Definition quiet_row := row "top" [] "t" (instance "/s").
Definition quiet_row2 := row "top" [] "s2" (instance "/s").
Theorem C51_instance_of_disabled_refuted : exists Hs Hs2,
  edit [[dead_row; quiet_row]] [[dead_row; changed quiet_row (spot "top" "/t") (VBool true)]] [dead_row] quiet_row [] (spot "top" "/t") (VBool true) Hs [] /\
  reads Hs [t_] ENABLED = Some (VBool false) /\
  reads (built [[dead_row; changed quiet_row (spot "top" "/t") (VBool true)]]) [t_] ENABLED = Some (VBool true) /\
  edit [[dead_row; quiet_row2]] [[dead_row; changed quiet_row2 (spot "top" "/s2") (VBool true)]] [dead_row] quiet_row2 [] (spot "top" "/s2") (VBool true) Hs2 [] /\
  reads Hs2 [lit "s2"] ENABLED = Some (VBool true).
Proof.
  exists (fst (after (built [[dead_row; quiet_row]]) (spot "top" "/t") 1 (VBool true))), (fst (after (built [[dead_row; quiet_row2]]) (spot "top" "/s2") 1 (VBool true))).
  split; [|split; [vm_compute; reflexivity|split; [vm_compute; reflexivity|split; [|vm_compute; reflexivity]]]].
  - split; [|stages]. intros l r [<-|[]] [<-|[<-|[]]]; (apply row_fits; [name_ok| |reflexivity]); [left; reflexivity|right; exists [s_]; split; [name_ok|reflexivity]].
  - split; [|stages]. intros l r [<-|[]] [<-|[<-|[]]]; (apply row_fits; [name_ok| |reflexivity]); [left; reflexivity|right; exists [s_]; split; [name_ok|reflexivity]].
Qed.
Print Assumptions C51_instance_of_disabled_refuted.

(** Two nodes are reported: t, an instance of s, and u, an instance of t. *)
Definition chain : list (list layer_row) := [[source_row; quiet_row; row "top" [] "u" (instance "/t"); row "top" [] "r" []]].
Example C51_reported_ex : well_formed chain /\ stage_of chain (built chain) /\
  snd (after (built chain) (spot "top" "/s") 0 (VBool false)) = Ok [lit "/t"; lit "/u"] /\
  (let Hs := fst (after (built chain) (spot "top" "/s") 0 (VBool false)) in
   reads Hs [u_] ENABLED = Some (VBool false) /\ reads Hs [r_] ENABLED = Some VNone).
Proof.
  split; [|split; [exists 9, (VStr (lit "top")), false; vm_compute; reflexivity|repeat split; vm_compute; reflexivity]].
  intros l r [<-|[]] [<-|[<-|[<-|[<-|[]]]]]; (apply row_fits; [name_ok| |reflexivity]); [left; reflexivity|right; exists [s_]; split; [name_ok|reflexivity]|right; exists [t_]; split; [name_ok|reflexivity]|left; reflexivity].
Qed.
