(** C61: what a node shows is decided by what the layers say about the nodes it
    draws from. *)

From Coq Require Import String List NArith ZArith Bool Arith Lia.
From Verif Require Import PyStr PyStrFacts NxtPath PathSpec PathProofs Dict DictFacts ListMerger SortRows Layer PyVal NodeIO NodeIOProofs PyClass Comp CompSpec CompProofs CompTreeProofs CompStageProofs
  StageView StageViewProofs DirtyStageSpec Props_Comp Props_CompCases Props_Dirty LocalSpec LocalProofs.
Import ListNotations.

(** Take two stacks of layers, and a node of the first stage such that the
    layers say the same, child orders apart, about every node it draws from.
    If no source one of these nodes was missing is there in the second stage,
    then the second stage has the node, drawing from the same nodes, and it
    shows the same: identity, instance, code, enabled state, comment and every
    user attribute.  The two stacks may differ in everything else. *)
Theorem C61_local :
  forall layers layers' H H' cs, regular layers -> regular layers' -> stage_of layers H -> stage_of layers' H' -> names cs -> in_stage H cs ->
  (opinions [] layers = [] <-> opinions [] layers' = []) ->
  (forall es, draws H cs es -> said_alike layers layers' es) ->
  (forall es rs, draws H cs es -> names rs -> rs <> [] -> reads H es INSTANCE_PATH = Some (VStr (abs_path rs)) -> in_stage H' rs -> in_stage H rs) ->
  in_stage H' cs /\ (forall es, draws H' cs es <-> draws H cs es) /\ (forall rs, instances H' cs rs <-> instances H cs rs) /\
  (forall a, asked a -> reads H' cs a = reads H cs a) /\
  (forall a, opinions cs layers <> [] -> In a tracked -> reads H' cs (source_of a) = reads H cs (source_of a)).
Proof.
  intros layers layers' H H' cs Rg Rg' B B' Hc Hh W Al Nn. pose proof (all_same layers layers' H H' Rg Rg' B B' W cs Hc Hh Al Nn cs (draws_self H cs)) as Sm.
  split; [apply Sm|]. split; [|split; [|split]].
  - intros es. symmetry. apply (draws_same layers layers' H H' Rg Rg' B B' W cs Hc Hh Al Nn cs es (draws_self H cs)).
  - intros rs. symmetry. apply Sm.
  - intros a [Ha|Ha]; [now apply Sm|]. destruct (stage_parts layers H (r_fits _ Rg) B) as (H1 & F & P). destruct (stage_parts layers' H' (r_fits _ Rg') B') as (H1' & F' & P').
    exact (user_same layers layers' H H' Rg Rg' B B' W cs Hc Hh Al Nn H1 F H1' F' P P' a Ha).
  - apply Sm.
Qed.
Print Assumptions C61_local.

(** In particular, a change confined to one node. *)
Theorem C61_elsewhere :
  forall layers layers' H H' at_, regular layers -> regular layers' -> stage_of layers H -> stage_of layers' H' ->
  (opinions [] layers = [] <-> opinions [] layers' = []) ->
  (forall es, names es -> es <> at_ -> said_alike layers layers' es) ->
  forall cs, names cs -> in_stage H cs -> ~ draws H cs at_ ->
  (forall es rs, draws H cs es -> names rs -> rs <> [] -> reads H es INSTANCE_PATH = Some (VStr (abs_path rs)) -> in_stage H' rs -> in_stage H rs) ->
  in_stage H' cs /\ forall a, asked a -> reads H' cs a = reads H cs a.
Proof.
  intros layers layers' H H' q Rg Rg' B B' W Al cs Hc Hh N Nn. destruct (C61_local layers layers' H H' cs Rg Rg' B B' Hc Hh W) as (A & _ & _ & C & _); [|exact Nn|auto].
  intros es D. destruct (draws_names H cs es D Hc Hh) as (He & _). apply Al; [exact He|]. intros ->. contradiction.
Qed.
Print Assumptions C61_elsewhere.

(** ** Examples *)

Local Ltac name_ok := repeat (constructor; [split; [split; [discriminate|vm_compute; intuition discriminate]|vm_compute; intuition discriminate]|]); constructor.
Local Ltac fits_two l := intros l0 r0 Hl Hr; unfold l in Hl; repeat destruct Hl as [<-|Hl]; try contradiction; cbn [In] in Hr; repeat destruct Hr as [<-|Hr]; try contradiction; try apply world_fits; (apply row_fits; [name_ok| |reflexivity]; try (left; reflexivity)); right.
Local Ltac regular_by tac := constructor; [tac|apply gap_free_gapless; vm_compute; reflexivity|apply pure_rows_pure; vm_compute; reflexivity|apply low_sources_spec; vm_compute; reflexivity].
Local Ltac built_ok := exists 9, (VStr (lit "top")), false; vm_compute; reflexivity.

(** The stage of the examples without r's children, with another x for r and
    with more nodes. *)
Definition other : list (list layer_row) :=
  [[world_row "top"; row "top" [] "q" (user "x" "9"); row "top" [lit "q"] "s" []; row "top" [] "s" (user "x" "1"); row "top" [] "t" (instance "/s"); row "top" [] "r" (user "x" "4" ++ instance "/q")];
   [world_row "low"; row "low" [] "s" ((lit "code", VList [VStr (lit "pass")]) :: comment "low"); row "low" [] "t" (comment "old");
    row "low" [lit "s"] "c" ((lit "enabled", VBool false) :: user "y" "3"); row "low" [lit "s"; lit "c"] "d" []]].
Definition other_stage : heap := Eval vm_compute in match build_stage 9 (VStr (lit "top")) false other with Built H => H | _ => {| specs := []; comps := []; dirty := [] |} end.
Example C61_regular : regular two /\ regular other.
Proof.
  split; [regular_by ltac:(exact C32_two_fits)|]. regular_by ltac:(fits_two other); [exists [s_]|exists [lit "q"]]; (split; [name_ok|reflexivity]).
Qed.
Lemma drawn_by layers H cs l : regular layers -> stage_of layers H -> names cs -> in_stage H cs -> mro_of H (Co (abs_path cs)) = Some l ->
  forall es, draws H cs es -> names es /\ In (Co (abs_path es)) l.
Proof.
  intros Rg B Hc Hh El es D. destruct (draws_names H cs es D Hc Hh) as (He & _). split; [exact He|]. destruct (stage_parts _ _ (r_fits _ Rg) B) as (H1 & F & P).
  exact (proj2 (draws_mro layers H1 F H (r_fits _ Rg) P cs es l Hc Hh He El) D).
Qed.
(** /t/c, a proxy, draws from itself, /t, the world, /s/c and /s. *)
Local Lemma t_c_draws es : draws two_stage [t_; c_] es -> In es [[]; [s_]; [t_]; [s_; c_]; [t_; c_]].
Proof.
  intros D. destruct (mro_of two_stage (Co (abs_path [t_; c_]))) as [l|] eqn:E; [|vm_compute in E; discriminate].
  assert (Hn : names [t_; c_]) by name_ok. assert (Hh : in_stage two_stage [t_; c_]) by (vm_compute; reflexivity).
  destruct (drawn_by two two_stage [t_; c_] l (proj1 C61_regular) C32_two_built Hn Hh E es D) as (He & I).
  assert (Q : forall fs, names fs -> abs_path es = abs_path fs -> es = fs) by (intros fs Hf; now apply path_inj).
  vm_compute in E. injection E as <-. cbn [In] in I |- *.
  repeat match type of I with _ \/ _ => destruct I as [I|I] | False => destruct I end; try discriminate I; injection I as I; symmetry in I;
    first [left; symmetry; apply (Q []); [name_ok|exact I]|right; left; symmetry; apply (Q [s_]); [name_ok|exact I]|right; right; left; symmetry; apply (Q [t_]); [name_ok|exact I]
          |right; right; right; left; symmetry; apply (Q [s_; c_]); [name_ok|exact I]|right; right; right; right; left; symmetry; apply (Q [t_; c_]); [name_ok|exact I]].
Qed.
Example C61_proxy : in_stage two_stage [t_; c_] /\ (forall es, draws two_stage [t_; c_] es -> said_alike two other es) /\
  reads two_stage [t_; c_] (lit "y") = Some (VStr (lit "3")) /\ ~ said_alike two other [r_].
Proof.
  split; [vm_compute; reflexivity|]. split; [|split; [vm_compute; reflexivity|]].
  - intros es D. apply t_c_draws in D. unfold said_alike. repeat destruct D as [<-|D]; [..|destruct D];
    match goal with |- Forall2 _ (opinions ?x ?y) (opinions ?x' ?y') => let a := eval vm_compute in (opinions x y) in let b := eval vm_compute in (opinions x' y') in change (Forall2 (fun n m => forall k, k <> CHILD_ORDER -> dget k n = dget k m) a b) end;
    repeat (constructor; [intros; reflexivity|]); constructor.
  - unfold said_alike. intros A. assert (L : Forall2 (fun n m => dget (lit "x") n = dget (lit "x") m) (opinions [r_] two) (opinions [r_] other)).
    { induction A as [|n m l l' E _ IH]; constructor; [apply E; discriminate|exact IH]. }
    destruct (opinions [r_] two) as [|n l] eqn:E; [discriminate E|]. destruct (opinions [r_] other) as [|m l'] eqn:E'; [discriminate E'|]. inversion L as [|? ? ? ? Q _]; subst.
    vm_compute in E. injection E as <- _. vm_compute in E'. injection E' as <- _. vm_compute in Q. discriminate.
Qed.
(** And so it shows the same in the other stage. *)
Example C61_proxy_same : forall a, asked a -> reads other_stage [t_; c_] a = reads two_stage [t_; c_] a.
Proof.
  assert (B' : stage_of other other_stage) by built_ok. apply (C61_local two other two_stage other_stage [t_; c_]); try apply C61_regular; try exact C32_two_built; try exact B'; try apply C61_proxy; [name_ok| |].
  - split; intros E; vm_compute in E; discriminate.
  - intros es rs D Hr Hrn E _. apply t_c_draws in D. assert (S1 : names [s_]) by name_ok. assert (S2 : names [s_; c_]) by name_ok.
    assert (G : forall v fs, names fs -> in_stage two_stage fs -> v = Some (VStr (abs_path fs)) -> v = Some (VStr (abs_path rs)) -> in_stage two_stage rs).
    { intros v fs Hf Hfh -> Q. injection Q as Q. apply path_inj in Q; auto. now subst. }
    repeat destruct D as [<-|D]; [..|destruct D]; try (vm_compute in E; discriminate E).
    + apply (G _ [s_] S1) with (3 := E); vm_compute; reflexivity.
    + apply (G _ [s_; c_] S2) with (3 := E); vm_compute; reflexivity.
Qed.

(** ** Where a node shows something else *)

Definition stage_at (layers : list (list layer_row)) : heap := match build_stage 9 (VStr (lit "top")) false layers with Built H => H | _ => {| specs := []; comps := []; dirty := [] |} end.
Lemma said_refl layers layers' cs : opinions cs layers = opinions cs layers' -> said_alike layers layers' cs.
Proof. unfold said_alike. intros ->. induction (opinions cs layers'); constructor; auto. Qed.
(** A node drawing from itself and the world only. *)
Lemma small layers layers' H cs : regular layers -> stage_of layers H -> names cs -> in_stage H cs ->
  (exists l, mro_of H (Co (abs_path cs)) = Some l /\ forall q, In (Co q) l -> q = abs_path cs \/ q = WORLD) ->
  opinions cs layers = opinions cs layers' -> opinions [] layers = opinions [] layers' -> forall es, draws H cs es -> said_alike layers layers' es.
Proof.
  intros Rg B Hc Hh (l & El & Hl) E1 E2 es D. destruct (drawn_by _ _ _ l Rg B Hc Hh El es D) as (He & I). apply said_refl. destruct (Hl _ I) as [Q|Q].
  - apply path_inj in Q; auto. now subst.
  - apply path_world in Q; auto. now subst.
Qed.
(** t instances a node that is not there; adding that node changes t, which
    does not draw from it. *)
Definition dangling (more : list layer_row) : list (list layer_row) := [[world_row "top"; row "top" [] "t" (instance "/s")] ++ more].
Theorem C61_appears_refuted : exists layers layers' H H' cs a, regular layers /\ regular layers' /\ stage_of layers H /\ stage_of layers' H' /\ names cs /\ in_stage H cs /\
  (opinions [] layers = [] <-> opinions [] layers' = []) /\ (forall es, draws H cs es -> said_alike layers layers' es) /\ asked a /\ reads H' cs a <> reads H cs a.
Proof.
  set (more := [row "top" [] "s" (user "x" "1")]). exists (dangling []), (dangling more), (stage_at (dangling [])), (stage_at (dangling more)), [t_], (lit "x").
  assert (R1 : regular (dangling [])) by (regular_by ltac:(fits_two dangling); exists [s_]; (split; [name_ok|reflexivity])).
  assert (R2 : regular (dangling more)) by (regular_by ltac:(fits_two dangling); exists [s_]; (split; [name_ok|reflexivity])).
  assert (B1 : stage_of (dangling []) (stage_at (dangling []))) by built_ok. assert (B2 : stage_of (dangling more) (stage_at (dangling more))) by built_ok.
  assert (Hn : names [t_]) by name_ok. assert (Hh : in_stage (stage_at (dangling [])) [t_]) by (vm_compute; reflexivity).
  repeat (split; [assumption|]). split; [split; intros E; vm_compute in E; discriminate|]. split; [|split; [right; vm_compute; intuition discriminate|vm_compute; discriminate]].
  apply (small (dangling []) (dangling more) _ [t_] R1 B1 Hn Hh); [|vm_compute; reflexivity..].
  eexists. split; [vm_compute; reflexivity|]. intros q [E|[E|[E|[E|[]]]]]; try discriminate E; injection E as <-; auto.
Qed.
Print Assumptions C61_appears_refuted.

(** What a node says in one layer is seen below it. *)
Definition said_x (v : string) : list (list layer_row) := [[world_row "top"; row "top" [] "s" (user "x" v); row "top" [s_] "c" []; row "top" [] "t" (instance "/s/c")]].
Theorem C61_drawn_refuted : exists layers layers' H H' cs at_, regular layers /\ regular layers' /\ stage_of layers H /\ stage_of layers' H' /\ names cs /\ in_stage H cs /\
  draws H cs at_ /\ at_ <> cs /\ ~ said_alike layers layers' at_ /\ reads H' cs (lit "x") <> reads H cs (lit "x").
Proof.
  exists (said_x "1"), (said_x "2"), (stage_at (said_x "1")), (stage_at (said_x "2")), [t_], [s_].
  assert (R : forall v, (v = "1" \/ v = "2")%string -> regular (said_x v)) by (intros v [->| ->]; regular_by ltac:(fits_two said_x); exists [s_; c_]; (split; [name_ok|reflexivity])).
  split; [apply R; auto|]. split; [apply R; auto|]. split; [built_ok|]. split; [built_ok|]. split; [name_ok|]. split; [vm_compute; reflexivity|]. split; [|split; [discriminate|split; [|vm_compute; discriminate]]].
  - apply draws_source with [s_; c_]; [split; [name_ok|]; split; [discriminate|]; split; vm_compute; reflexivity|]. apply draws_parent with [s_]; [|constructor].
    exists 1. split; [cbn; lia|]. split; [reflexivity|]. split; [vm_compute; reflexivity|]. intros j Hj. cbn in Hj. lia.
  - unfold said_alike. intros A. remember (opinions [s_] (said_x "1")) as l eqn:E. remember (opinions [s_] (said_x "2")) as l' eqn:E'. destruct A as [|n m l l' Q _]; [discriminate E|].
    vm_compute in E. injection E as -> _. vm_compute in E'. injection E' as -> _. specialize (Q (lit "x") ltac:(discriminate)). vm_compute in Q. discriminate Q.
Qed.
Print Assumptions C61_drawn_refuted.
