(** C53: what each base of a composed node is to it. *)

From Coq Require Import String List NArith ZArith Bool Arith Lia.
From Verif Require Import PyStr PyStrFacts NxtPath PathSpec PathProofs Dict DictFacts ListMerger SortRows Layer PyVal NodeIO PyClass
  NodeEdit Comp CompSpec CompProofs CompPostProofs CompTreeProofs CompStageProofs CompTotalProofs StageView StageViewProofs Props_CompCases Live Arcs ArcsProofs.
Import ListNotations.
Local Ltac name_ok := repeat (constructor; [split; [split; [discriminate|vm_compute; intuition discriminate]|vm_compute; intuition discriminate]|]); constructor.

(** The node's parent is in the stage, or the node is at the top.  The
    references are the layers' nodes, strongest first, or the one proxy made for
    the node.  There is an instance base exactly when the node instances a node
    in the stage that is not its parent, and it is that node.  There is a parent
    base exactly when the parent is in the stage, and is not drawn from through
    the source anyway, and it is the parent.  No base is left without an arc. *)
Theorem C53_arcs :
  forall layers H ps nm, well_formed layers -> stage_of layers H ->
  (forall m, In m (opinions [] layers) -> value m NAME = VStr (lit "/")) ->
  names (ps ++ [nm]) -> in_stage H (ps ++ [nm]) -> in_stage H ps \/ ps = [] ->
  let cs := ps ++ [nm] in let d := bases_arcs H (abs_path cs) in
  (exists is, references d = map Sp is /\
     match opinions cs layers with
     | [] => exists m, spec_nodes (specs H) (references d) = [m] /\ value m PROXY = VBool true
     | l => spec_nodes (specs H) (references d) = l
     end) /\
  (forall r, instance_base d = Some r <-> exists rs, instances H cs rs /\ rs <> ps /\ r = Co (abs_path rs)) /\
  (forall r, parent_base d = Some r <-> in_stage H ps /\ (forall rs, instances H cs rs -> rs = ps \/ ~ draws H rs ps) /\ r = Co (abs_path ps)) /\
  no_arc d = None.
Proof.
  intros layers H ps nm wf St World Hn Hh Hp cs d.
  destruct (arcs_are layers H wf St World ps nm Hn Hh Hp) as (is & Hne & S1 & S2 & par & source & E & M). fold cs in E, S1, S2, M. fold d in E. rewrite E. cbn [references instance_base parent_base no_arc].
  destruct (stage_parts layers H wf St) as (H1 & F & P).
  assert (One : forall rs rs', instances H cs rs -> instances H cs rs' -> rs = rs').
  { intros rs rs' (A & _ & _ & B) (A' & _ & _ & B'). rewrite B in B'. injection B' as Q. apply abs_path_inj in Q; [exact Q|now apply names_comp|now apply names_comp]. }
  split; [|split; [|split; [|reflexivity]]].
  - exists is. split; [reflexivity|]. destruct (opinions cs layers) as [|m l] eqn:Eo; [now apply S2|]. apply S1. discriminate.
  - intros r. destruct M as [(No & _ & ->)|(rs & I & Nc & [(-> & _ & ->)|(Ns & -> & _)])]; (split; [intros Q|intros (rs' & I' & Ns' & ->)]).
    + discriminate Q.
    + now destruct (No rs').
    + discriminate Q.
    + destruct Ns'. now apply One.
    + injection Q as <-. exists rs. auto.
    + now rewrite (One _ _ I' I).
  - intros r. destruct M as [(No & -> & _)|(rs & I & Nc & [(-> & -> & _)|(Ns & _ & [(Nd & ->)|((Hps & D) & ->)])])]; (split; [intros Q|intros (Hps' & All & ->)]).
    + destruct (here H (abs_path ps)) eqn:Eh; [|discriminate]. injection Q as <-. split; [exact Eh|]. split; [|reflexivity]. intros rs I. now destruct (No rs).
    + unfold in_stage in Hps'. now rewrite Hps'.
    + injection Q as <-. split; [apply I|]. split; [|reflexivity]. intros rs' I'. left. now apply One.
    + reflexivity.
    + destruct (here H (abs_path ps)) eqn:Eh; [|discriminate]. injection Q as <-. split; [exact Eh|]. split; [|reflexivity]. intros rs' I'. right. rewrite (One _ _ I' I). now apply Nd.
    + unfold in_stage in Hps'. now rewrite Hps'.
    + discriminate Q.
    + destruct (All rs I) as [Q|Q]; [now destruct Ns|now destruct Q].
Qed.
Print Assumptions C53_arcs.

(** Every base has the arc its entry in the dictionary says. *)
Theorem C53_every_base :
  forall layers H ps nm, well_formed layers -> stage_of layers H ->
  (forall m, In m (opinions [] layers) -> value m NAME = VStr (lit "/")) ->
  names (ps ++ [nm]) -> in_stage H (ps ++ [nm]) -> in_stage H ps \/ ps = [] ->
  forall r, In r (bases_in (comps H) (Co (abs_path (ps ++ [nm])))) ->
  get_arc H (abs_path (ps ++ [nm])) r =
    match r with Sp _ => Some Reference | Co q => if str_eqb q (abs_path ps) then Some Parent else Some Instance end.
Proof.
  intros layers H ps nm wf St World Hn Hh Hp r Hr. destruct r as [i|q]; [now apply (arc_layer layers H wf St ps nm Hn Hh)|].
  destruct (str_eqb q (abs_path ps)) eqn:E.
  - apply str_eqb_eq in E as ->. apply (arc_parent layers H wf St World ps nm Hn Hh).
    destruct (bases_split layers H wf St ps nm Hn Hh Hp) as (is & rest & Eb & _ & _ & _ & M). rewrite Eb in Hr. apply in_app_or in Hr as [Hr|Hr]; [apply in_map_iff in Hr as (? & [=] & _)|]. cbv zeta in M.
    destruct (here H (abs_path ps)) eqn:Eh; [reflexivity|]. destruct M as [(_ & ->)|(rs & (_ & _ & Hrs & _) & _ & [(_ & ->)|(_ & ->)])]; [destruct Hr| |]; (destruct Hr as [[= Q]|[]]; rewrite <- Eh, <- Q; exact Hrs).
  - destruct (bases_split layers H wf St ps nm Hn Hh Hp) as (is & rest & Eb & _ & _ & _ & M). rewrite Eb in Hr. apply in_app_or in Hr as [Hr|Hr]; [apply in_map_iff in Hr as (? & [=] & _)|]. cbv zeta in M.
    destruct (stage_parts layers H wf St) as (H1 & F & P). apply str_eqb_neq in E.
    assert (Q : exists rs, instances H (ps ++ [nm]) rs /\ rs <> ps ++ [nm] /\ q = abs_path rs).
    { destruct M as [(_ & ->)|(rs & I & Nc & M)].
      - destruct (here H (abs_path ps)); [|destruct Hr]. destruct Hr as [[= <-]|[]]. now destruct E.
      - exists rs. split; [exact I|]. split; [exact Nc|]. destruct M as [(_ & ->)|(_ & ->)].
        + apply in_app_or in Hr as [Hr|[[= <-]|[]]]; [|reflexivity]. destruct (here H (abs_path ps)); [|destruct Hr]. destruct Hr as [[= <-]|[]]. now destruct E.
        + destruct Hr as [[= <-]|[]]. reflexivity. }
    destruct Q as (rs & I & Nc & ->). pose proof (view_source layers H1 F H wf P _ rs Hh I) as (A & B & C). destruct I as (Hrs & _ & Hrh & _). apply (arc_source layers H wf St World ps nm Hn Hh (abs_path rs) A C); [|exact E].
    intros Q. apply Nc. apply abs_path_inj in Q; [exact Q|now apply names_comp|now apply names_comp].
Qed.
Print Assumptions C53_every_base.

(** In the sample stage: u, a child of r, instances s; w instances u, which
    draws from r already; the proxy t/c of s/c. *)
Example C53_sample :
  (forall m, In m (opinions [] two) -> value m NAME = VStr (lit "/")) /\
  in_stage two_stage [r_; u_] /\ in_stage two_stage [r_] /\
  parent_base (bases_arcs two_stage (abs_path [r_; u_])) = Some (Co (abs_path [r_])) /\
  instance_base (bases_arcs two_stage (abs_path [r_; u_])) = Some (Co (abs_path [s_])) /\
  parent_base (bases_arcs two_stage (abs_path [r_; w_])) = None /\
  instance_base (bases_arcs two_stage (abs_path [r_; w_])) = Some (Co (abs_path [r_; u_])) /\
  length (references (bases_arcs two_stage (abs_path [s_]))) = 2 /\ length (references (bases_arcs two_stage (abs_path [t_; c_]))) = 1 /\
  instance_base (bases_arcs two_stage (abs_path [t_; c_])) = Some (Co (abs_path [s_; c_])).
Proof. split; [intros m [<-|[<-|[]]]; vm_compute; reflexivity|]. repeat split; vm_compute; reflexivity. Qed.

(** Below a gap the closest ancestor takes the parent's place as a base, but is
    taken for an instance source, of a node that instances nothing. *)
Definition gap_layers : list (list layer_row) := [[world_row "g"; row "g" [] "a" []; row "g" [lit "a"; lit "b"] "c" []]].
Definition gap_heap : heap := Eval vm_compute in match build_stage 9 (VStr (lit "g")) false gap_layers with Built H => H | _ => {| specs := []; comps := []; dirty := [] |} end.
Theorem C53_gap_refuted :
  exists layers H cs, well_formed layers /\ stage_of layers H /\ names cs /\ in_stage H cs /\ (forall rs, ~ instances H cs rs) /\
    (exists ds, StageView.parent H cs ds /\ parent_base (bases_arcs H (abs_path cs)) = None /\ instance_base (bases_arcs H (abs_path cs)) = Some (Co (abs_path ds))).
Proof.
  exists gap_layers, gap_heap, [lit "a"; lit "b"; lit "c"]. split.
  { intros l r [<-|[]] Hr. repeat destruct Hr as [<-|Hr]; try contradiction; try apply world_fits; (apply row_fits; [name_ok|left; reflexivity|reflexivity]). }
  split; [exists 9, (VStr (lit "g")), false; vm_compute; reflexivity|]. split; [name_ok|]. split; [vm_compute; reflexivity|]. split.
  { intros rs (_ & _ & _ & Q). vm_compute in Q. discriminate Q. }
  exists [lit "a"]. split; [|split; vm_compute; reflexivity]. exists 1. split; [cbn; lia|]. split; [reflexivity|]. split; [vm_compute; reflexivity|].
  intros j Hj. assert (j = 2) as -> by (cbn in Hj; lia). vm_compute. discriminate.
Qed.
Print Assumptions C53_gap_refuted.
