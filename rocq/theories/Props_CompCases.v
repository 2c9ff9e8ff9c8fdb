(** C32, C33, C34, C43: concrete stages that meet the hypotheses of the
    theorems in Props_Comp.v, and stages where more would be false. *)

From Coq Require Import String List NArith ZArith Bool Arith Lia.
From Verif Require Import PyStr PyStrFacts NxtPath PathSpec PathProofs Dict DictFacts ListMerger SortRows Layer PyVal NodeIO NodeIOProofs PyClass Comp CompSpec CompProofs CompTreeProofs CompStageProofs CompTotalProofs StageView StageViewProofs Props_Comp.
Import ListNotations.

(** ** Examples *)

(** A node as loaded from a layer's file. *)
Definition row (layer : string) (ps : list pystr) (nm : string) (data : dict pyval) : layer_row :=
  (ps ++ [lit nm], match create_node ((lit "name", VStr (lit nm)) :: data) (VStr (lit layer)) (abs_path ps) false with Ok n => n | Raise _ => [] end).
Definition world_row (layer : string) : layer_row :=
  ([[]], match create_node [(lit "name", VStr (lit "/"))] (VStr (lit layer)) [] false with Ok n => n | Raise _ => [] end).
Definition instance_ok (data : dict pyval) : Prop :=
  dget (lit "instance") data = None \/ exists rs, names rs /\ dget (lit "instance") data = Some (VStr (abs_path rs)).
Lemma row_fits layer ps nm data : names (ps ++ [lit nm]) -> instance_ok data ->
  (match create_node ((lit "name", VStr (lit nm)) :: data) (VStr (lit layer)) (abs_path ps) false with Ok _ => true | Raise _ => false end) = true -> fits (row layer ps nm data).
Proof.
  intros Hn Hi E. unfold row. destruct (create_node _ _ _ _) as [nd|] eqn:Ec; [|discriminate]. apply (C32_loaded_fits _ _ _ _ _ Hn) with (3 := Ec); [reflexivity|]. destruct Hi as [Hi|(rs & Hr & Hi)]; [now left|].
  right. right. right. exists rs. auto.
Qed.
Lemma world_fits layer : fits (world_row layer).
Proof. unfold world_row. destruct (create_node _ _ _ _) as [nd|] eqn:Ec; [|discriminate]. apply (C32_loaded_world_fits _ _ _) with (2 := Ec). now left. Qed.
Local Ltac name_ok := repeat (constructor; [split; [split; [discriminate|vm_compute; intuition discriminate]|vm_compute; intuition discriminate]|]); constructor.

Definition instance (p : string) : dict pyval := [(lit "instance", VStr (lit p))].
Definition comment (c : string) : dict pyval := [(lit "comment", VStr (lit c))].
Definition user (a v : string) : dict pyval := [(K_ATTRS, VDict [(lit a, VDict [(META_VALUE, VStr (lit v))])])].
(** Two layers; t instances s, which has children; u is a child of r and
    instances s; w is a child of r and instances r's other child u. *)
Definition top_layer : list layer_row :=
  [world_row "top"; row "top" [] "s" (user "x" "1"); row "top" [] "t" (instance "/s"); row "top" [] "r" (user "x" "2");
   row "top" [lit "r"] "u" (instance "/s"); row "top" [lit "r"] "w" (instance "/r/u")].
Definition low_layer : list layer_row :=
  [world_row "low"; row "low" [] "s" ((lit "code", VList [VStr (lit "pass")]) :: comment "low"); row "low" [] "t" (comment "old");
   row "low" [lit "s"] "c" ((lit "enabled", VBool false) :: user "y" "3"); row "low" [lit "s"; lit "c"] "d" []].
Definition two : list (list layer_row) := [top_layer; low_layer].
Definition two_stage : heap := Eval vm_compute in match build_stage 9 (VStr (lit "top")) false two with Built H => H | _ => {| specs := []; comps := []; dirty := [] |} end.

Definition r_ := lit "r". Definition s_ := lit "s". Definition t_ := lit "t". Definition u_ := lit "u". Definition w_ := lit "w". Definition c_ := lit "c". Definition d_ := lit "d".
Example C32_two_fits : well_formed two.
Proof.
  intros l r Hl Hr. destruct Hl as [<-|[<-|[]]]; cbn [In top_layer low_layer] in Hr; repeat destruct Hr as [<-|Hr]; try contradiction; try apply world_fits;
  (apply row_fits; [name_ok| |reflexivity]; try (left; reflexivity)); right.
  - exists [s_]. split; [name_ok|reflexivity].
  - exists [s_]. split; [name_ok|reflexivity].
  - exists [r_; u_]. split; [name_ok|reflexivity].
Qed.
Example C32_two_built : stage_of two two_stage.
Proof.
  exists 9, (VStr (lit "top")), false. vm_compute. reflexivity.
Qed.
(** The lower layer speaks on t's comment. *)
Example C32_comment : exists m, speaks_first COMMENT (opinions [t_] two) m /\
  reads two_stage [t_] COMMENT = Some (VStr (lit "old")) /\ reads two_stage [t_] (source_of COMMENT) = Some (VTuple [VStr (lit "low"); VStr (lit "/t")]).
Proof.
  exists (snd (row "low" [] "t" (comment "old"))). split.
  - exists [snd (row "top" [] "t" (instance "/s"))], []. split; [vm_compute; reflexivity|]. split; [split; vm_compute; discriminate|]. intros m [<-|[]] (A & _). apply A. reflexivity.
  - split; vm_compute; reflexivity.
Qed.
(** Nobody speaks on r's comment; t takes s's code. *)
Example C32_quiet : silent COMMENT (opinions [r_] two) /\ reads two_stage [r_] COMMENT = Some VNone /\ reads two_stage [r_] (source_of COMMENT) = Some (VTuple [VStr (lit "top"); VStr (lit "/r")]).
Proof. split; [|split; vm_compute; reflexivity]. intros m [<-|[]] (A & _). apply A. reflexivity. Qed.
Example C34_code : instances two_stage [t_] [s_] /\ silent COMPUTE (opinions [t_] two) /\ reads two_stage [t_] COMPUTE = Some (VList [VStr (lit "pass")]) /\
  reads two_stage [t_] (source_of COMPUTE) = Some (VTuple [VStr (lit "top"); VStr (lit "/t")]).
Proof.
  split; [split; [name_ok|]; split; [discriminate|]; split; vm_compute; reflexivity|]. split; [|split; vm_compute; reflexivity].
  intros m [<-|[<-|[]]] (_ & A); apply A; reflexivity.
Qed.
(** User attributes: s's own x; t has s's; u has its parent's x and w that of u,
    which draws from w's parent. *)
Example C33_values : reads two_stage [s_] (lit "x") = Some (VStr (lit "1")) /\ reads two_stage [t_] (lit "x") = Some (VStr (lit "1")) /\
  reads two_stage [r_; u_] (lit "x") = Some (VStr (lit "2")) /\ reads two_stage [t_; c_; d_] (lit "y") = Some (VStr (lit "3")) /\ reads two_stage [r_] (lit "y") = None.
Proof. repeat split; vm_compute; reflexivity. Qed.
Example C33_parent_and_source : parent two_stage [r_; u_] [r_] /\ instances two_stage [r_; u_] [s_] /\ ~ draws two_stage [s_] [r_] /\
  has_first (lit "x") (opinions [r_] two) (VStr (lit "2")).
Proof.
  split; [|split; [|split]].
  - exists 1. split; [cbn; lia|]. split; [reflexivity|]. split; [vm_compute; reflexivity|]. intros j Hj. cbn in Hj. lia.
  - split; [name_ok|]. split; [discriminate|]. split; vm_compute; reflexivity.
  - intros D. destruct (stage_parts two two_stage C32_two_fits C32_two_built) as (H1 & F & P). assert (N1 : names [s_]) by name_ok. assert (N2 : names [r_]) by name_ok.
    assert (Hs : in_stage two_stage [s_]) by (vm_compute; reflexivity). destruct (mro_of two_stage (Co (abs_path [s_]))) as [l|] eqn:E; [|vm_compute in E; discriminate].
    apply (draws_mro two H1 F two_stage C32_two_fits P [s_] [r_] l N1 Hs N2 E) in D. vm_compute in E. injection E as <-. vm_compute in D. repeat destruct D as [D|D]; try discriminate D. destruct D.
  - exists [], (snd (row "top" [] "r" (user "x" "2"))), []. split; [vm_compute; reflexivity|]. split; [vm_compute; reflexivity|intros m []].
Qed.
Example C33_source_draws_from_parent : parent two_stage [r_; w_] [r_] /\ instances two_stage [r_; w_] [r_; u_] /\ draws two_stage [r_; u_] [r_] /\
  reads two_stage [r_; w_] (lit "x") = Some (VStr (lit "2")).
Proof.
  split; [|split; [|split]].
  - exists 1. split; [cbn; lia|]. split; [reflexivity|]. split; [vm_compute; reflexivity|]. intros j Hj. cbn in Hj. lia.
  - split; [name_ok|]. split; [discriminate|]. split; vm_compute; reflexivity.
  - apply draws_parent with [r_]; [|constructor]. exists 1. split; [cbn; lia|]. split; [reflexivity|]. split; [vm_compute; reflexivity|]. intros j Hj. cbn in Hj. lia.
  - vm_compute; reflexivity.
Qed.
(** t gets proxies of s's descendants. *)
Example C43_two_mirrored : in_stage two_stage [t_; c_; d_] /\ opinions [t_; c_; d_] two = [] /\ reads two_stage [t_; c_] PROXY = Some (VBool true) /\
  reads two_stage [t_; c_] ENABLED = Some (VBool false) /\ listed (reads two_stage [t_] CHILD_ORDER) = [c_].
Proof. repeat split; vm_compute; reflexivity. Qed.

(** The layers above have no gaps and nothing below instances. *)
Lemma opinions_row cs layers : opinions cs layers <> [] -> exists r, In r (concat layers) /\ fst r = ns_of cs.
Proof.
  unfold opinions. match goal with |- context [filter ?f ?x] => destruct (filter f x) as [|r l] eqn:E end; intros Hn; [now destruct Hn|]. exists r.
  assert (Hr : In r (r :: l)) by now left. rewrite <- E in Hr. apply filter_In in Hr as (A & B). split; [exact A|]. match type of B with context [if ?x then _ else _] => destruct x; [assumption|discriminate B] end.
Qed.
Lemma opinion_of cs layers d : In d (opinions cs layers) -> exists r, In r (concat layers) /\ fst r = ns_of cs /\ snd r = d.
Proof.
  unfold opinions. intros Hd. apply in_map_iff in Hd as (r & <- & Hr). apply filter_In in Hr as (A & B). exists r. split; [exact A|]. split; [|reflexivity]. match type of B with context [if ?x then _ else _] => destruct x; [assumption|discriminate B] end.
Qed.
(** Checking both for a list of rows. *)
Definition places (layers : list (list layer_row)) : list (list pystr) := map fst (concat layers).
Definition gap_free (l : list (list pystr)) : bool :=
  forallb (fun ns => match removelast ns with [] => true | up => existsb (fun m => if list_eq_dec (list_eq_dec N.eq_dec) m up then true else false) l end) l.
Lemma gap_free_gapless layers : gap_free (places layers) = true -> gapless layers.
Proof.
  intros G ps nm Hn Ho. destruct (opinions_row _ _ Ho) as (r & Hr & E). destruct ps as [|p ps]; [now left|right]. unfold gap_free in G. rewrite forallb_forall in G.
  specialize (G (fst r)). rewrite E in G. assert (Q : In (ns_of ((p :: ps) ++ [nm])) (places layers)) by (rewrite <- E; unfold places; apply in_map; exact Hr). specialize (G Q). cbn [ns_of app] in G.
  change (p :: ps ++ [nm]) with ((p :: ps) ++ [nm]) in G. rewrite removelast_last in G. apply existsb_exists in G as (m & Hm & Em). match type of Em with context [if ?x then _ else _] => destruct x as [->|]; [|discriminate Em] end.
  unfold places in Hm. apply in_map_iff in Hm as (r' & Er & Hr'). intros F. assert (In (snd r') (opinions (p :: ps) layers)); [|rewrite F in *; assumption].
  unfold opinions. apply in_map. apply filter_In. split; [exact Hr'|]. match goal with |- context [if ?x then _ else _] => destruct x as [_|Ne]; [reflexivity|destruct Ne; exact Er] end.
Qed.
Definition instances_none (layers : list (list layer_row)) (ns : list pystr) : bool :=
  forallb (fun r => if list_eq_dec (list_eq_dec N.eq_dec) (fst r) ns then match value (snd r) INSTANCE_PATH with VStr (_ :: _ :: _) => false | _ => true end else true) (concat layers).
Definition pure_rows (layers : list (list layer_row)) : bool :=
  forallb (fun ns => forallb (fun k => instances_none layers (ns_of (firstn k ns))) (seq 0 (length ns))) (places layers).
Lemma pure_rows_pure layers : pure_rows layers = true -> pure layers.
Proof.
  intros Pr a b rs Hn Hb Ho Hr Hrn (m & Sp & Em). destruct (opinions_row _ _ Ho) as (r & Hin & E). unfold pure_rows in Pr. rewrite forallb_forall in Pr. specialize (Pr (fst r)). rewrite E in Pr.
  assert (Q : In (ns_of (a ++ b)) (places layers)) by (rewrite <- E; unfold places; apply in_map; exact Hin). specialize (Pr Q). rewrite forallb_forall in Pr.
  assert (Eab : ns_of (a ++ b) = a ++ b) by (destruct a; [destruct b; [congruence|reflexivity]|reflexivity]). rewrite Eab in Pr. specialize (Pr (length a)). rewrite app_length in Pr.
  assert (Hk : In (length a) (seq 0 (length a + length b))). { apply in_seq. destruct b; [congruence|cbn [length]; lia]. } specialize (Pr Hk). rewrite firstn_app, Nat.sub_diag, firstn_all, app_nil_r in Pr.
  apply speaks_in in Sp. destruct (opinion_of _ _ _ Sp) as (r' & Hr' & Er & <-). unfold instances_none in Pr. rewrite forallb_forall in Pr. specialize (Pr r' Hr'). 
  match type of Pr with context [if ?x then _ else _] => destruct x as [_|Ne]; [|destruct Ne; exact Er] end. pose proof (eq_ind _ (fun v => match v with VStr (_ :: _ :: _) => false | _ => true end = true) Pr _ Em) as Pr2. clear Pr. rename Pr2 into Pr. destruct rs as [|x rs]; [congruence|]. rewrite abs_path_slashed in Pr by discriminate.
  pose proof Hr as Hx. inversion Hx as [|? ? ((Hx1 & _) & _) _]; subst. cbn [slashed] in Pr. destruct x as [|y x]; [now apply Hx1|]. discriminate Pr.
Qed.
Example C43_two_gapless : gapless two /\ pure two.
Proof. split; [apply gap_free_gapless|apply pure_rows_pure]; vm_compute; reflexivity. Qed.

(** ** Where the properties fail *)

Definition composed (layers : list (list layer_row)) : heap := match build_stage 20 (VStr (lit "top")) false layers with Built H => H | _ => {| specs := []; comps := []; dirty := [] |} end.
Lemma composed_built layers : (match build_stage 20 (VStr (lit "top")) false layers with Built _ => true | _ => false end) = true -> stage_of layers (composed layers).
Proof. intros E. exists 20, (VStr (lit "top")), false. unfold composed. destruct (build_stage 20 (VStr (lit "top")) false layers); [reflexivity|discriminate|discriminate]. Qed.
Definition q_ := lit "q".
Definition lone (rows : list layer_row) : list (list layer_row) := [world_row "top" :: rows].

(** A layer's instance path for a node below an instance is lost to that of the
    source's child of the same name. *)
Definition overridden := lone [row "top" [] "s" []; row "top" [] "q" []; row "top" [] "t" (instance "/s"); row "top" [s_] "c" []; row "top" [t_] "c" (instance "/q")].
Theorem C34_instance_path_overridden_refuted : stage_of overridden (composed overridden) /\ source_in overridden [t_; c_] [q_] /\
  reads (composed overridden) [t_; c_] INSTANCE_PATH = Some (VStr (lit "/s/c")).
Proof.
  split; [apply composed_built; vm_compute; reflexivity|]. split; [|vm_compute; reflexivity]. exists (snd (row "top" [t_] "c" (instance "/q"))). split; [|vm_compute; reflexivity].
  exists [], []. split; [vm_compute; reflexivity|]. split; [split; vm_compute; discriminate|intros m []].
Qed.

(** A local child of an instance may lack the descendants of its counterpart. *)
Definition deep := lone [row "top" [] "x" []; row "top" [] "t" (instance "/x/y/s"); row "top" [lit "x"] "y" []; row "top" [t_] "c" []; row "top" [lit "x"; lit "y"] "s" [];
  row "top" [lit "x"; lit "y"; s_] "c" []; row "top" [lit "x"; lit "y"; s_; c_] "d" []].
Theorem C43_descendants_missing_refuted : stage_of deep (composed deep) /\ gapless deep /\ instances (composed deep) [t_; c_] [lit "x"; lit "y"; s_; c_] /\
  in_stage (composed deep) [lit "x"; lit "y"; s_; c_; d_] /\ ~ in_stage (composed deep) [t_; c_; d_].
Proof.
  split; [apply composed_built; vm_compute; reflexivity|]. split; [apply gap_free_gapless; vm_compute; reflexivity|]. split; [split; [name_ok|]; split; [discriminate|]; split; vm_compute; reflexivity|].
  split; [vm_compute; reflexivity|vm_compute; discriminate].
Qed.

(** The world's composed child order is that of the weakest layer alone. *)
Theorem C32_world_order_refuted : stage_of two two_stage /\ listed (reads two_stage [] CHILD_ORDER) = [].
Proof. split; [apply C32_two_built|vm_compute; reflexivity]. Qed.

(** An instance of its own ancestor gets no proxies, but the ancestor's code. *)
Definition inner := lone [row "top" [] "s" [(lit "code", VList [VStr (lit "pass")])]; row "top" [s_] "c" (instance "/s"); row "top" [s_] "d" []].
Theorem C34_ancestor_source_refuted : stage_of inner (composed inner) /\ instances (composed inner) [s_; c_] [s_] /\
  in_stage (composed inner) [s_; d_] /\ ~ in_stage (composed inner) [s_; c_; d_] /\ reads (composed inner) [s_; c_] COMPUTE = Some (VList [VStr (lit "pass")]).
Proof.
  split; [apply composed_built; vm_compute; reflexivity|]. split; [split; [name_ok|]; split; [discriminate|]; split; vm_compute; reflexivity|].
  split; [vm_compute; reflexivity|]. split; [vm_compute; discriminate|vm_compute; reflexivity].
Qed.

(** Nodes instancing each other, themselves or their descendants break
    building. *)
Theorem C43_broken_refuted : exists fuel,
  build_stage fuel VNone false (lone [row "top" [] "s" (instance "/t"); row "top" [] "t" (instance "/s")]) = Broken /\
  build_stage fuel VNone false (lone [row "top" [] "s" (instance "/s")]) = Broken /\
  build_stage fuel VNone false (lone [row "top" [] "s" (instance "/s/c"); row "top" [s_] "c" []]) = Broken.
Proof. exists 20. repeat split; vm_compute; reflexivity. Qed.

(** Two nodes whose children instance the other node: building never ends. *)
Definition loop := lone [row "top" [] "s" []; row "top" [] "t" []; row "top" [s_] "c" (instance "/t"); row "top" [t_] "d" (instance "/s")].
Lemma loop_fits : well_formed loop.
Proof.
  intros l r Hl Hr. destruct Hl as [<-|[]]; cbn [In] in Hr; repeat destruct Hr as [<-|Hr]; try contradiction; try apply world_fits;
  (apply row_fits; [name_ok| |reflexivity]; try (left; reflexivity)); right.
  - exists [t_]. split; [name_ok|reflexivity].
  - exists [s_]. split; [name_ok|reflexivity].
Qed.
Fixpoint zigzag (k : nat) : list pystr := match k with O => [] | S k => c_ :: d_ :: zigzag k end.
Lemma zigzag_names k : names (zigzag k).
Proof. induction k as [|k IH]; [constructor|]. cbn [zigzag]. constructor; [split; [split; [discriminate|vm_compute; intuition discriminate]|vm_compute; intuition discriminate]|]. constructor; [split; [split; [discriminate|vm_compute; intuition discriminate]|vm_compute; intuition discriminate]|exact IH]. Qed.
Theorem C43_endless_refuted : well_formed loop /\ forall fuel top_real one_object, ~ exists H, build_stage fuel top_real one_object loop = Built H.
Proof.
  split; [apply loop_fits|]. intros fuel top one (H & B). assert (St : stage_of loop H) by (now exists fuel, top, one). pose proof loop_fits as wf.
  assert (gl : gapless loop) by (apply gap_free_gapless; vm_compute; reflexivity). assert (pu : pure loop) by (apply pure_rows_pure; vm_compute; reflexivity).
  assert (N1 : names [s_; c_]) by name_ok. assert (N2 : names [t_; d_]) by name_ok. assert (N3 : names [s_]) by name_ok. assert (N4 : names [t_]) by name_ok. assert (N5 : names [d_]) by name_ok.
  assert (O1 : in_stage H [s_; c_]) by (apply (C32_conserved loop H wf St); [exact N1|vm_compute; discriminate]). assert (O2 : in_stage H [t_; d_]) by (apply (C32_conserved loop H wf St); [exact N2|vm_compute; discriminate]).
  assert (O3 : in_stage H [s_]) by (apply (C32_conserved loop H wf St); [exact N3|vm_compute; discriminate]). assert (O4 : in_stage H [t_]) by (apply (C32_conserved loop H wf St); [exact N4|vm_compute; discriminate]).
  assert (I1 : instances H [s_; c_] [t_]).
  { split; [exact N4|]. split; [discriminate|]. split; [exact O4|]. apply (C34_instance_path loop H wf St); auto; [|vm_compute; discriminate|discriminate|].
    - intros a b c E Hb Ho rs Hr Hrn. apply (pu a b rs); auto. unfold names in *. rewrite E in N1. rewrite app_assoc in N1. now apply Forall_app in N1.
    - exists (snd (row "top" [s_] "c" (instance "/t"))). split; [|vm_compute; reflexivity]. exists [], []. split; [vm_compute; reflexivity|]. split; [split; vm_compute; discriminate|intros m []]. }
  assert (I2 : instances H [t_; d_] [s_]).
  { split; [exact N3|]. split; [discriminate|]. split; [exact O3|]. apply (C34_instance_path loop H wf St); auto; [|vm_compute; discriminate|discriminate|].
    - intros a b c E Hb Ho rs Hr Hrn. apply (pu a b rs); auto. unfold names in *. rewrite E in N2. rewrite app_assoc in N2. now apply Forall_app in N2.
    - exists (snd (row "top" [t_] "d" (instance "/s"))). split; [|vm_compute; reflexivity]. exists [], []. split; [vm_compute; reflexivity|]. split; [split; vm_compute; discriminate|intros m []]. }
  assert (Q1 : ~ strict_prefix [t_] [s_; c_]) by (intros (e & _ & E); discriminate E). assert (Q2 : ~ strict_prefix [s_] [t_; d_]) by (intros (e & _ & E); discriminate E).
  assert (All : forall k, in_stage H (s_ :: zigzag k)).
  { induction k as [|k IH]; [exact O3|]. change (s_ :: zigzag (S k)) with ([s_; c_] ++ d_ :: zigzag k).
    apply (C43_mirror loop H wf St gl pu [s_; c_] [t_] N1 O1 I1 Q1); [constructor; [inversion N5; assumption|apply zigzag_names]|].
    change ([t_] ++ d_ :: zigzag k) with ([t_; d_] ++ zigzag k). apply (C43_mirror loop H wf St gl pu [t_; d_] [s_] N2 O2 I2 Q2); [apply zigzag_names|exact IH]. }
  assert (Inj : NoDup (map (fun k => abs_path (s_ :: zigzag k)) (seq 0 (S (length (comps H)))))).
  { apply FinFun.Injective_map_NoDup; [|apply seq_NoDup]. intros i j E. apply abs_path_inj in E.
    - injection E as E. revert j E. induction i as [|i IHi]; intros [|j] E; cbn [zigzag] in E; try discriminate E; [reflexivity|]. f_equal. apply IHi. injection E as E. exact E.
    - apply names_comp. constructor; [now inversion N3|apply zigzag_names].
    - apply names_comp. constructor; [now inversion N3|apply zigzag_names]. }
  assert (L : incl (map (fun k => abs_path (s_ :: zigzag k)) (seq 0 (S (length (comps H))))) (dkeys (comps H))).
  2:{ apply (NoDup_incl_length Inj) in L. rewrite map_length, seq_length in L. unfold dkeys in L. rewrite map_length in L. lia. }
  intros p Hp. apply in_map_iff in Hp as (k & <- & _). apply here_In. apply All.
Qed.

Print Assumptions C34_instance_path_overridden_refuted.
Print Assumptions C43_descendants_missing_refuted.
Print Assumptions C32_world_order_refuted.
Print Assumptions C34_ancestor_source_refuted.
Print Assumptions C43_broken_refuted.
Print Assumptions C43_endless_refuted.
