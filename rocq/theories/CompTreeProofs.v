(** Which proxies there are. *)

From Coq Require Import String List NArith ZArith Bool Arith Lia Permutation Relations.
From Verif Require Import PyStr PyStrFacts NxtPath PathSpec PathProofs Dict DictFacts ListMerger SortRows Layer PyVal NodeIO PyClass Comp CompSpec MergeProofs CompProofs CompProxyProofs.
From Verif Require DirtyMap DirtySpec DirtyProofs SortProofs LayerSpec LayerProofs HierarchyProofs.
Import ListNotations.

(** *** Names and paths *)

Lemma names_comp ns : names ns -> Forall component ns.
Proof. apply Forall_impl. intros a Ha. apply Ha. Qed.
Lemma names_app a b : names (a ++ b) <-> names a /\ names b.
Proof. apply Forall_app. Qed.
Lemma names_snoc a x : names (a ++ [x]) <-> names a /\ plain_name x.
Proof. unfold names. rewrite Forall_app. split; intros (A & B); (split; [exact A|]). { now inversion B. } { constructor; auto. } Qed.
Lemma path_inj a b : names a -> names b -> abs_path a = abs_path b -> a = b.
Proof. intros Ha Hb. apply abs_path_inj; now apply names_comp. Qed.
Lemma path_world a : names a -> abs_path a = WORLD <-> a = [].
Proof.
  intros Ha. split; [|now intros ->]. intros E. apply path_inj; [exact Ha|constructor|exact E].
Qed.
Lemma path_not_empty a : abs_path a <> [].
Proof. destruct a; discriminate. Qed.
Lemma to_path ns : ns <> [] -> node_namespace_to_str_path ns = abs_path ns.
Proof. intros Hn. rewrite abs_path_slashed by exact Hn. unfold node_namespace_to_str_path. symmetry. now apply slashed_join. Qed.
Lemma from_path ns : names ns -> ns <> [] -> str_path_to_node_namespace (abs_path ns) = ns.
Proof.
  intros Ha Hn. rewrite <- to_path by exact Hn. apply namespace_of_path; [exact Hn|]. revert Ha. apply Forall_impl. intros c ((_ & A) & B). auto.
Qed.
Lemma absolute ns : exists s, abs_path ns = SLASH :: s.
Proof. destruct ns; cbn; eauto. Qed.

(** *** A well formed comp layer *)

Record tree (H : heap) : Prop := {
  t_path : forall p, here H p = true -> exists ps, names ps /\ p = abs_path ps;
  t_place : forall ps nm, names (ps ++ [nm]) -> here H (abs_path (ps ++ [nm])) = true ->
    attr H (abs_path (ps ++ [nm])) PARENT_PATH = VStr (abs_path ps) /\ attr H (abs_path (ps ++ [nm])) NAME = VStr nm;
  t_root : here H WORLD = true -> attr H WORLD PARENT_PATH = VStr [];
  t_inst : forall p s, inst_of H p = Some s -> s = [] \/ exists rs, names rs /\ s = abs_path rs;
  t_world : inst_of H WORLD = None
}.

Lemma view_keys H : dkeys (nodes (view H)) = dkeys (comps H).
Proof. unfold view, dkeys. cbn [nodes]. rewrite map_map. reflexivity. Qed.
Lemma tree_view H : NoDup (dkeys (comps H)) -> tree H -> LayerSpec.wf_nodes (nodes (view H)).
Proof.
  intros Hn T. split; [now rewrite view_keys|]. intros k n Hi. unfold view in Hi. cbn [nodes] in Hi. apply in_map_iff in Hi as ((k' & c) & E & Hi).
  injection E as <- <-. cbn [fst]. assert (Hk : here H k' = true) by (apply here_In; apply in_map_iff; now exists (k', c)).
  destruct (t_path _ T _ Hk) as (ps & Hps & ->). destruct ps as [|x ps] using rev_ind.
  - left. split; [reflexivity|]. cbn [n_parent]. unfold parent_of. change (abs_path []) with WORLD in *. now rewrite (t_root _ T Hk).
  - right. destruct (t_place _ T _ _ Hps Hk) as (A & B). exists ps, x. split; [now apply names_comp|]. split; [reflexivity|]. cbn [n_parent n_name].
    unfold parent_of, name_of. now rewrite A, B.
Qed.
Lemma view_ready H : LayerSpec.all_ready same_string (view H).
Proof. intros p _. split; [|exact I]. unfold LayerSpec.ready. cbn [view kids dget nodes]. apply LayerProofs.scan_real_exact. reflexivity. Qed.

(** Something is at or below the path. *)
Definition known (H : heap) (ns : list pystr) : Prop := exists r, names r /\ here H (abs_path (ns ++ r)) = true.

Lemma view_has H ns : LayerSpec.has (nodes (view H)) ns <-> here H (abs_path ns) = true.
Proof. unfold LayerSpec.has. rewrite view_keys. symmetry. apply here_In. Qed.
Lemma kids_spec H rs c : NoDup (dkeys (comps H)) -> tree H -> names rs -> rs <> [] ->
  In c (kid_paths H (abs_path rs)) <-> exists nm, plain_name nm /\ c = abs_path (rs ++ [nm]) /\ known H (rs ++ [nm]).
Proof.
  intros Hn T Hr Hne. unfold kid_paths.
  destruct (HierarchyProofs.children_implied same_string same_string (view H) rs (tree_view _ Hn T) (view_ready H) (names_comp _ Hr) (or_introl Hne)) as (l & E & _ & Hin & _).
  rewrite E. cbn [as_list]. rewrite Hin. split.
  - intros (nm & Hc & -> & r & Hrc & Hh). apply view_has in Hh. destruct (t_path _ T _ Hh) as (ps & Hps & Ep).
    assert (Ec : (rs ++ [nm]) ++ r = ps).
    { apply abs_path_inj; [|now apply names_comp|exact Ep]. apply Forall_app. split; [|exact Hrc]. apply Forall_app. split; [now apply names_comp|now constructor]. }
    subst ps. apply names_app in Hps as (A & B). apply names_snoc in A as (_ & A). exists nm. split; [exact A|]. split; [reflexivity|]. exists r. auto.
  - intros (nm & Hc & -> & r & Hrc & Hh). exists nm. split; [apply Hc|]. split; [reflexivity|]. exists r. split; [now apply names_comp|]. now apply view_has.
Qed.

Lemma possible_spec H ps real : tree H -> names ps -> possible H (abs_path ps) = Some real ->
  inst_of H (abs_path ps) = Some real /\ (exists rs, names rs /\ rs <> [] /\ real = abs_path rs) /\ ps <> [] /\
  startswith (real ++ NODE_SEP) (abs_path ps) = false /\ ~ In real (dirties H (abs_path ps)).
Proof.
  intros T Hps E. unfold possible in E. destruct (inst_of H (abs_path ps)) as [i|] eqn:Ei; [|discriminate].
  destruct (is_empty i || str_eqb i WORLD) eqn:Ew; [discriminate|]. apply orb_false_iff in Ew as (E1 & E2).
  destruct (t_inst _ T _ _ Ei) as [->|(rs & Hrs & ->)]; [discriminate|]. destruct (absolute rs) as (s & Es).
  rewrite Es in E at 1. rewrite expand_relative_absolute, <- Es in E. destruct (startswith _ _) eqn:E3; [discriminate|].
  destruct (str_in _ _) eqn:E4; [discriminate|]. injection E as <-. split; [reflexivity|]. split.
  { exists rs. split; [exact Hrs|]. split; [|reflexivity]. intros ->. cbn in E2. discriminate. }
  split; [|split; [exact E3|now apply str_in_false]]. intros ->. change (abs_path []) with WORLD in Ei. rewrite (t_world _ T) in Ei. discriminate.
Qed.
Lemma possible_intro H ps rs : names rs -> rs <> [] -> inst_of H (abs_path ps) = Some (abs_path rs) ->
  startswith (abs_path rs ++ NODE_SEP) (abs_path ps) = false -> ~ In (abs_path rs) (dirties H (abs_path ps)) -> possible H (abs_path ps) = Some (abs_path rs).
Proof.
  intros Hr Hne Ei E3 E4. unfold possible. rewrite Ei. assert (E1 : is_empty (abs_path rs) = false) by (destruct (absolute rs) as (s & ->); reflexivity).
  rewrite E1. assert (E2 : str_eqb (abs_path rs) WORLD = false) by (apply abs_path_neqb; [now apply names_comp|exact Hne]). rewrite E2. cbn [orb].
  destruct (absolute rs) as (s & Es). rewrite Es at 1. rewrite expand_relative_absolute, <- Es, E3. apply str_in_false in E4. now rewrite E4.
Qed.

(** *** The invariant of the proxy loop *)

Section Inv.
Variables (n : nat) (H0 : heap).

(** The node names a source below the world. *)
Definition instp (H : heap) (p : pystr) : Prop := exists ss, names ss /\ ss <> [] /\ inst_of H p = Some (abs_path ss).
(** No layer puts a node at or above [ps] below a node that names a source. *)
Definition clear (ps : list pystr) : Prop :=
  forall a b c, ps = a ++ b ++ c -> b <> [] -> here H0 (abs_path (a ++ b)) = true -> ~ instp H0 (abs_path a).
Definition linked (H : heap) : Prop := forall ps nm, names (ps ++ [nm]) -> here H (abs_path (ps ++ [nm])) = true ->
  ps = [] \/ here H (abs_path ps) = true.
Definition quiet (v : pyval) : pyval := if has_opinion v then v else VNone.
Definition edge (H : heap) (s t : pystr) : Prop :=
  exists ts, names ts /\ ts <> [] /\ t = abs_path ts /\ here H t = true /\ (clear ts -> inst_of H t = Some s).
Definition copies (H : heap) (q s : pystr) : Prop :=
  here H s = true /\ attr H q ENABLED = attr H s ENABLED /\ attr H q COMMENT = quiet (attr H s COMMENT) /\ attr H q SOURCE_LAYER = attr H s SOURCE_LAYER.
Definition made (H : heap) (ps : list pystr) (nm : pystr) : Prop :=
  exists c i cm en sl, dget (abs_path (ps ++ [nm])) (comps H) = Some c /\ cbases c = [Sp i] /\ n <= i /\
    nth_error (specs H) i = Some (proxy_spec nm cm en sl (abs_path ps)) /\
    forall a, dget a (own c) <> None -> loose a \/ a = SOURCE_LAYER.

Record inv (H : heap) : Prop := {
  i_good : good n H;
  i_tree : tree H;
  i_root : here H WORLD = true -> here H0 WORLD = true;
  i_old : forall p, here H0 p = true -> here H p = true;
  i_link : linked H0 -> linked H;
  i_born : forall ps nm, names (ps ++ [nm]) -> here H (abs_path (ps ++ [nm])) = true -> here H0 (abs_path (ps ++ [nm])) = false ->
    here H (abs_path ps) = true /\ instp H (abs_path ps) /\
    (exists ss, names ss /\ ss <> [] /\ inst_of H (abs_path (ps ++ [nm])) = Some (abs_path (ss ++ [nm]))) /\ made H ps nm;
  i_layer : forall ps, names ps -> clear ps -> here H0 (abs_path ps) = true -> inst_of H (abs_path ps) = inst_of H0 (abs_path ps);
  i_proxy : forall ps nm, names (ps ++ [nm]) -> clear (ps ++ [nm]) -> here H (abs_path (ps ++ [nm])) = true -> here H0 (abs_path (ps ++ [nm])) = false ->
    exists rs, names rs /\ rs <> [] /\ inst_of H (abs_path ps) = Some (abs_path rs) /\
      inst_of H (abs_path (ps ++ [nm])) = Some (abs_path (rs ++ [nm])) /\
      (linked H0 -> copies H (abs_path (ps ++ [nm])) (abs_path (rs ++ [nm])));
  i_edges : forall s t, DirtySpec.depends (dirty H) s t -> edge H s t
}.

Lemma clear_up ps x : clear (ps ++ x) -> clear ps.
Proof. intros C a b c -> Hb. apply (C a b (c ++ x)); [now rewrite <- !app_assoc|exact Hb]. Qed.

Definition later (A B : heap) : Prop :=
  kept A B /\ (forall s t, DirtySpec.depends (dirty A) s t -> DirtySpec.depends (dirty B) s t) /\ (forall p, here A p = true -> instp A p -> instp B p).
Lemma later_refl A : later A A.
Proof. split; [apply kept_refl|split; auto]. Qed.
Lemma later_trans A B C : later A B -> later B C -> later A C.
Proof.
  intros (a & b & c) (d & e & f). split; [eapply kept_trans; eauto|]. split; [auto|]. intros p Hp I. apply f; [eapply kept_here; eauto|auto].
Qed.

(** An instancing node has a layer's instancing node at or above it. *)
Lemma from_root H : inv H -> forall ps, names ps -> clear ps -> here H (abs_path ps) = true -> instp H (abs_path ps) ->
  exists a b, ps = a ++ b /\ here H0 (abs_path a) = true /\ instp H0 (abs_path a).
Proof.
  intros I ps. induction ps as [|x ps IH] using rev_ind; intros Hn Hc Hh Hi.
  - destruct Hi as (ss & _ & _ & E). change (abs_path []) with WORLD in E. rewrite (t_world _ (i_tree _ I)) in E. discriminate.
  - destruct (here H0 (abs_path (ps ++ [x]))) eqn:E0.
    + exists (ps ++ [x]), []. split; [now rewrite app_nil_r|]. split; [exact E0|]. destruct Hi as (ss & A & B & C). exists ss. split; [exact A|]. split; [exact B|].
      now rewrite <- (i_layer _ I).
    + destruct (i_born _ I _ _ Hn Hh E0) as (A & B & _). apply names_snoc in Hn as (Hn & _). destruct (IH Hn (clear_up _ _ Hc) A B) as (a & b & -> & F).
      exists a, (b ++ [x]). split; [now rewrite app_assoc|exact F].
Qed.
Lemma no_layer_below H : inv H -> forall ps nm, names (ps ++ [nm]) -> clear (ps ++ [nm]) -> here H (abs_path ps) = true -> instp H (abs_path ps) ->
  here H0 (abs_path (ps ++ [nm])) = false.
Proof.
  intros I ps nm Hn Hc Hh Hi. destruct (here H0 (abs_path (ps ++ [nm]))) eqn:E; [|reflexivity]. exfalso. apply names_snoc in Hn as (Hn & _).
  destruct (from_root H I ps Hn (clear_up _ _ Hc) Hh Hi) as (a & b & -> & Ha & Hia). apply (Hc a (b ++ [nm]) []); [now rewrite app_nil_r, app_assoc|now destruct b| |exact Hia].
  now rewrite app_assoc.
Qed.

(** Sources of nodes without such nodes do not change. *)
Lemma stable A B : inv A -> inv B -> kept A B -> forall ps, names ps -> clear ps -> here A (abs_path ps) = true ->
  inst_of B (abs_path ps) = inst_of A (abs_path ps).
Proof.
  intros IA IB K ps. induction ps as [|x ps IH] using rev_ind; intros Hn Hc Hh.
  - change (abs_path []) with WORLD. now rewrite (t_world _ (i_tree _ IA)), (t_world _ (i_tree _ IB)).
  - destruct (here H0 (abs_path (ps ++ [x]))) eqn:E0; [now rewrite (i_layer _ IA), (i_layer _ IB)|].
    destruct (i_proxy _ IA _ _ Hn Hc Hh E0) as (ra & Ha & _ & Pa & Qa & _).
    destruct (i_proxy _ IB _ _ Hn Hc (kept_here _ _ _ K Hh) E0) as (rb & Hb & _ & Pb & Qb & _).
    destruct (i_born _ IA _ _ Hn Hh E0) as (Hp & _). apply names_snoc in Hn as (Hn & _). rewrite (IH Hn (clear_up _ _ Hc) Hp) in Pb. rewrite Qa, Qb. f_equal.
    assert (E : abs_path ra = abs_path rb) by congruence. apply path_inj in E as ->; auto.
Qed.

(** *** Preservation *)

Lemma not_loose a : In a [PARENT_PATH; NAME; ENABLED; COMMENT; SOURCE_LAYER] -> ~ loose a.
Proof. intros I L. repeat destruct I as [<-|I]; try destruct I; destruct L as [L|[L|L]]; vm_compute in L; discriminate. Qed.
Ltac nl := apply not_loose; cbn [In]; tauto.

Lemma tree_kept H H' : tree H -> good n H -> kept H H' -> (forall q, here H' q = here H q) ->
  (forall q s, inst_of H' q = Some s -> inst_of H q = Some s \/ exists rs, names rs /\ s = abs_path rs) -> inst_of H' WORLD = None -> tree H'.
Proof.
  intros T G K Hk Hi Hw. split.
  - intros p Hp. rewrite Hk in Hp. now apply (t_path _ T).
  - intros ps nm Hn Hp. rewrite Hk in Hp. rewrite !(kept_attr n H H'); try assumption; try nl. now apply (t_place _ T).
  - intros Hp. rewrite Hk in Hp. rewrite (kept_attr n H H'); try assumption; try nl. now apply (t_root _ T).
  - intros q s E. destruct (Hi _ _ E) as [F|F]; [now apply (t_inst _ T) in F|now right].
  - exact Hw.
Qed.
Lemma copies_kept H H' q s : good n H -> kept H H' -> here H q = true -> copies H q s -> copies H' q s.
Proof.
  intros G K Hq (A & B & C & D). split; [eapply kept_here; eauto|]. rewrite !(kept_attr n H H'); try assumption; try nl. auto.
Qed.

(** A changed instance path. *)
Lemma inv_inst H ps nm rs : inv H -> names (ps ++ [nm]) -> names (rs ++ [nm]) -> rs <> [] -> here H (abs_path (ps ++ [nm])) = true ->
  (clear (ps ++ [nm]) -> inst_of H (abs_path (ps ++ [nm])) = Some (abs_path (rs ++ [nm]))) ->
  inv (set_attr H (abs_path (ps ++ [nm])) INSTANCE_PATH (VStr (abs_path (rs ++ [nm])))) /\
  later H (set_attr H (abs_path (ps ++ [nm])) INSTANCE_PATH (VStr (abs_path (rs ++ [nm])))).
Proof.
  intros I Hp Hr Hne Hh Hc. set (k := abs_path (ps ++ [nm])) in *. set (v := abs_path (rs ++ [nm])) in *. set (H' := set_attr H k INSTANCE_PATH (VStr v)).
  destruct (step_inst n H k (VStr v) (i_good _ I)) as (G' & K). fold H' in G', K.
  assert (Hi : forall q, inst_of H' q = if str_eqb q k then Some v else inst_of H q).
  { intros q. unfold inst_of, H'. rewrite attr_set_attr, Hh, str_eqb_refl. cbn [andb]. rewrite andb_true_r. now destruct (str_eqb q k). }
  assert (Hk : forall q, here H' q = here H q) by (intros q; apply here_set_attr).
  assert (Hcl : forall qs, names qs -> clear qs -> inst_of H' (abs_path qs) = inst_of H (abs_path qs)).
  { intros qs Hq Cq. rewrite Hi. destruct (str_eqb (abs_path qs) k) eqn:E; [|reflexivity]. apply str_eqb_eq in E. rewrite E. symmetry. apply Hc.
    apply path_inj in E; [now subst qs|exact Hq|exact Hp]. }
  assert (Hm : forall q, instp H q -> instp H' q).
  { intros q (ss & A & B & C). destruct (str_eqb q k) eqn:E.
    - exists (rs ++ [nm]). split; [exact Hr|]. split; [now destruct rs|]. now rewrite Hi, E.
    - exists ss. split; [exact A|]. split; [exact B|]. now rewrite Hi, E. }
  split; [|split; [exact K|split; [auto|auto]]]. split.
  - exact G'.
  - apply (tree_kept H); try assumption; [apply I|apply I| |].
    + intros q s. rewrite Hi. destruct (str_eqb q k); [|now left]. intros E. injection E as <-. right. exists (rs ++ [nm]). auto.
    + rewrite Hi. destruct (str_eqb WORLD k) eqn:E; [|apply I]. apply str_eqb_eq in E. symmetry in E. apply (path_world _ Hp) in E. destruct ps; discriminate.
  - rewrite Hk. apply I.
  - intros p. rewrite Hk. apply I.
  - intros L qs x. rewrite !Hk. now apply (i_link _ I).
  - intros qs x Hq. rewrite !Hk. intros A B. destruct (i_born _ I _ _ Hq A B) as (C & D & (ss & E1 & E2 & E3) & c & i & cm & en & sl & F1 & F2 & F3 & F4 & F5).
    split; [exact C|]. split; [now apply Hm|]. split.
    + destruct (str_eqb (abs_path (qs ++ [x])) k) eqn:E.
      * rewrite Hi, E. apply str_eqb_eq in E. apply path_inj in E; [|exact Hq|exact Hp]. apply app_inj_tail in E as (-> & ->). apply names_snoc in Hr as (Hr & _). exists rs. auto.
      * exists ss. split; [exact E1|]. split; [exact E2|]. now rewrite Hi, E.
    + unfold made, H', set_attr. cbn [comps with_comps specs]. rewrite dget_change, F1. destruct (str_eqb _ k); cbn [option_map];
      (do 5 eexists; split; [reflexivity|]; split; [exact F2|]; split; [exact F3|]; split; [exact F4|]).
      * intros a. cbn [own]. rewrite dget_dset. destruct (str_eqb INSTANCE_PATH a) eqn:Ea; [|apply F5]. intros _. apply str_eqb_eq in Ea as <-. left. now left.
      * exact F5.
  - intros qs Hq Cq Hh0. rewrite Hcl by assumption. now apply (i_layer _ I).
  - intros qs x Hq Cq. rewrite Hk. intros A B. destruct (i_proxy _ I _ _ Hq Cq A B) as (ss & E1 & E2 & E3 & E4 & E5). exists ss. split; [exact E1|]. split; [exact E2|].
    rewrite (Hcl _ Hq Cq). split; [|split; [exact E4|]].
    + rewrite Hcl; [exact E3|now apply names_snoc in Hq|now apply clear_up in Cq].
    + intros L. apply (copies_kept H); auto. apply I.
  - intros s t D. destruct (i_edges _ I s t D) as (ts & A & B & -> & C & E). exists ts. split; [exact A|]. split; [exact B|]. split; [reflexivity|]. rewrite Hk. split; [exact C|].
    intros Ct. rewrite Hcl by assumption. auto.
Qed.

(** Other attributes and the dirty map. *)
Lemma inv_quiet H H' : inv H -> good n H' -> kept H H' -> (forall q, here H' q = here H q) -> (forall q, inst_of H' q = inst_of H q) ->
  (forall s t, DirtySpec.depends (dirty H) s t -> DirtySpec.depends (dirty H') s t) ->
  (forall q c c' a, dget q (comps H) = Some c -> dget q (comps H') = Some c' -> dget a (own c') <> None -> dget a (own c) <> None \/ loose a) ->
  (forall s t, DirtySpec.depends (dirty H') s t -> DirtySpec.depends (dirty H) s t \/ edge H s t) -> inv H' /\ later H H'.
Proof.
  intros I G' K Hk Hi Hd Ho He.
  assert (Hm : forall q, instp H q -> instp H' q). { intros q (ss & A & B & C). exists ss. rewrite Hi. auto. }
  split; [|split; [exact K|split; [exact Hd|auto]]]. split.
  - exact G'.
  - apply (tree_kept H); try assumption; try apply I.
    + intros q s. rewrite Hi. now left.
    + rewrite Hi. apply I.
  - rewrite Hk. apply I.
  - intros p. rewrite Hk. apply I.
  - intros L qs x. rewrite !Hk. now apply (i_link _ I).
  - intros qs x Hq. rewrite !Hk. intros A B. destruct (i_born _ I _ _ Hq A B) as (C & D & (ss & E1 & E2 & E3) & c & i & cm & en & sl & F1 & F2 & F3 & F4 & F5).
    split; [exact C|]. split; [now apply Hm|]. split; [exists ss; rewrite Hi; auto|].
    destruct (k_nodes _ _ K _ _ F1) as (c' & Ec & Eb & _). destruct (k_specs _ _ K) as (m & Em). exists c', i, cm, en, sl. split; [exact Ec|]. split; [congruence|]. split; [exact F3|].
    split.
    + rewrite Em, nth_error_app1; [exact F4|]. apply nth_error_Some. congruence.
    + intros a Ha. destruct (Ho _ _ _ _ F1 Ec Ha) as [Hb|Hb]; [now apply F5|now left].
  - intros qs. rewrite Hi. apply I.
  - intros qs x Hq Cq. rewrite Hk. intros A B. destruct (i_proxy _ I _ _ Hq Cq A B) as (ss & E1 & E2 & E3 & E4 & E5). exists ss. rewrite !Hi. split; [exact E1|]. split; [exact E2|]. split; [exact E3|].
    split; [exact E4|]. intros L. apply (copies_kept H); auto. apply I.
  - intros s t D. assert (F : edge H s t) by (destruct (He _ _ D) as [F|F]; [now apply (i_edges _ I)|exact F]).
    destruct F as (ts & A & B & -> & C & E). exists ts. rewrite Hk, Hi. auto.
Qed.
Lemma inv_set H p a v : loose a -> a <> INSTANCE_PATH -> inv H -> inv (set_attr H p a v) /\ later H (set_attr H p a v).
Proof.
  intros La Na I. destruct (step_set_attr n H p a v La (i_good _ I)) as (G' & K). apply inv_quiet; auto.
  - intros q. apply here_set_attr.
  - intros q. unfold inst_of. now rewrite attr_set_other_attr.
  - intros q c c' b E E' Hb. cbn in E'. rewrite dget_change, E in E'. destruct (str_eqb q p); [|left; congruence]. injection E' as <-. cbn in Hb. rewrite dget_dset in Hb.
    destruct (str_eqb a b) eqn:Eb; [|now left]. apply str_eqb_eq in Eb as <-. now right.
Qed.
Lemma inv_order H p o : inv H -> inv (set_order H p o) /\ later H (set_order H p o).
Proof. apply inv_set; [right; now right|discriminate]. Qed.
Lemma inv_concern one H s t : inv H -> edge H s t -> inv (concern one H s t) /\ later H (concern one H s t).
Proof.
  intros I E. unfold concern. destruct (step_dirty n H (DirtyMap.extend_dirty_map (fun s => str_eqb s WORLD) (one && str_eqb s t) s t (dirty H)) (i_good _ I)) as (G' & K).
  assert (Case : forall a b, DirtySpec.depends (DirtyMap.extend_dirty_map (fun s => str_eqb s WORLD) (one && str_eqb s t) s t (dirty H)) a b <->
    DirtySpec.depends (dirty H) a b \/ (str_eqb s WORLD = false /\ str_eqb t WORLD = false /\ one && str_eqb s t = false /\ a = s /\ b = t)).
  { intros a b. destruct (str_eqb s WORLD) eqn:Es; [rewrite DirtyProofs.extend_world by (now left); intuition congruence|].
    destruct (str_eqb t WORLD) eqn:Et; [rewrite DirtyProofs.extend_world by (now right); intuition congruence|].
    rewrite DirtyProofs.extend_depends; [intuition congruence|exact Es|exact Et|]. intros F. apply andb_true_iff in F as (_ & F). now apply str_eqb_eq. }
  apply inv_quiet; auto.
  - intros a b D. apply Case. now left.
  - intros q c c' a Ec Ec'. cbn in Ec'. left. congruence.
  - intros a b D. apply Case in D as [D|(_ & _ & _ & -> & ->)]; [now left|now right].
Qed.

(** A new proxy. *)
Lemma attr_new_old H sp tgt c q a : good n H -> here H q = true ->
  attr {| specs := specs H ++ [sp]; comps := comps H ++ [(tgt, c)]; dirty := dirty H |} q a = attr H q a.
Proof.
  intros G Hq. unfold here, dmem in Hq. unfold attr. cbn [specs comps]. rewrite dget_app. destruct (dget q (comps H)) as [d|] eqn:E; [|discriminate].
  unfold node_attr. destruct (dget a (own d)); [reflexivity|]. destruct (g_bases _ _ G _ _ E) as ([|i is] & Eb & Hne & _ & L); [congruence|]. rewrite Eb. cbn [map].
  rewrite nth_error_app1; [reflexivity|]. apply L. now left.
Qed.
Lemma inv_new H ps nm rs cm en sl o : inv H -> names (ps ++ [nm]) -> ps <> [] -> here H (abs_path ps) = true -> instp H (abs_path ps) ->
  names (rs ++ [nm]) -> rs <> [] -> here H (abs_path (ps ++ [nm])) = false -> (clear ps -> inst_of H (abs_path ps) = Some (abs_path rs)) ->
  dget INSTANCE_PATH o = Some (VStr (abs_path (rs ++ [nm]))) -> (forall a, dget a o <> None -> loose a \/ a = SOURCE_LAYER) ->
  (linked H0 -> let s := abs_path (rs ++ [nm]) in here H s = true /\ en = attr H s ENABLED /\ cm = attr H s COMMENT /\ sl = attr H s SOURCE_LAYER /\ dget SOURCE_LAYER o = None) ->
  let H1 := {| specs := specs H ++ [proxy_spec nm cm en sl (abs_path ps)];
               comps := comps H ++ [(abs_path (ps ++ [nm]), {| own := o; cbases := [Sp (length (specs H))] |})]; dirty := dirty H |} in
  inv H1 /\ later H H1.
Proof.
  intros I Hn Hne Hp Hip Hr Hrne Ht Hc Eo Ko Hl H1. set (q := abs_path (ps ++ [nm])) in *. set (s := abs_path (rs ++ [nm])) in *.
  set (sp := proxy_spec nm cm en sl (abs_path ps)) in *. set (c := {| own := o; cbases := [Sp (length (specs H))] |}) in *.
  pose proof (proj1 (here_false _ _) Ht) as Ed.
  assert (G1 : good n H1).
  { apply good_new; [apply I|exact Ed| |].
    - intros a Ha. now apply (proxy_keys nm cm en sl (abs_path ps)).
    - intros a Ha. destruct (Ko a Ha) as [L| ->]; [now apply loose_own|]. apply str_in_In. reflexivity. }
  assert (K : kept H H1) by (now apply kept_new).
  assert (Hk : forall x, here H1 x = here H x || str_eqb x q).
  { intros x. unfold here, dmem, H1. cbn [comps]. rewrite dget_app. destruct (dget x (comps H)); [reflexivity|]. cbn [dget]. rewrite str_eqb_sym. now destruct (str_eqb x q). }
  assert (Hq1 : here H1 q = true) by (rewrite Hk, str_eqb_refl; apply orb_true_r).
  assert (Ao : forall x a, here H x = true -> attr H1 x a = attr H x a) by (intros x a Hx; apply attr_new_old; [apply I|exact Hx]).
  assert (Aq : forall a, attr H1 q a = match dget a o with Some v => v | None => attr_or_none sp a end).
  { intros a. unfold attr, H1. cbn [comps specs]. rewrite dget_app, Ed. cbn [dget]. rewrite str_eqb_refl. unfold node_attr, c. cbn [own cbases].
    rewrite nth_error_app2, Nat.sub_diag by lia. reflexivity. }
  assert (Ap : forall a, ~ loose a -> a <> SOURCE_LAYER -> attr H1 q a = value sp a).
  { intros a La Sa. rewrite Aq. destruct (dget a o) eqn:E; [|reflexivity]. destruct (Ko a); [congruence|contradiction|contradiction]. }
  destruct (proxy_values nm cm en sl (abs_path ps)) as (V1 & V2 & V3 & _ & _ & V6 & V7 & _). cbn zeta in V1, V2, V3, V6, V7. fold sp in V1, V2, V3, V6, V7.
  assert (Iq : inst_of H1 q = Some s). { unfold inst_of. rewrite Aq, Eo. reflexivity. }
  assert (Io : forall x, here H x = true -> inst_of H1 x = inst_of H x) by (intros x Hx; unfold inst_of; now rewrite Ao).
  assert (In_ : forall x, here H x = false -> x <> q -> inst_of H1 x = None).
  { intros x Hx Nx. unfold inst_of, attr, H1. cbn [comps]. apply here_false in Hx. rewrite dget_app, Hx. cbn [dget]. apply not_eq_sym in Nx. apply str_eqb_neq in Nx. now rewrite Nx. }
  assert (H0q : here H0 q = false). { destruct (here H0 q) eqn:E; [|reflexivity]. apply (i_old _ I) in E. congruence. }
  assert (Hqw : q <> WORLD). { intros E. apply (path_world _ Hn) in E. destruct ps; discriminate. }
  assert (Hcase : forall x, here H1 x = true -> here H x = true \/ (x = q /\ here H q = false)).
  { intros x. rewrite Hk. destruct (here H x) eqn:E; [now left|]. cbn. intros F. apply str_eqb_eq in F. right. auto. }
  assert (Hm : forall x, here H x = true -> instp H x -> instp H1 x). { intros x Hx (ss & A & B & C). exists ss. rewrite Io; auto. }
  assert (Lq : linked H0 -> copies H1 q s).
  { intros L. destruct (Hl L) as (A & B & C & D & E). split; [rewrite Hk, A; reflexivity|]. rewrite !Ap by (try nl; discriminate). rewrite !Ao by exact A.
    rewrite V3, V2, B, C. split; [reflexivity|]. split; [reflexivity|]. rewrite Aq, E. change (attr_or_none sp SOURCE_LAYER) with (value sp SOURCE_LAYER). rewrite V6, D. now rewrite Ao by exact A. }
  split; [|split; [exact K|split; [auto|exact Hm]]]. split.
  - exact G1.
  - split.
    + intros x Hx. destruct (Hcase _ Hx) as [Hx'|(-> & _)]; [now apply (t_path _ (i_tree _ I))|]. exists (ps ++ [nm]). auto.
    + intros qs x Hqs Hx. destruct (Hcase _ Hx) as [Hx'|(E & _)].
      * rewrite !Ao by exact Hx'. now apply (t_place _ (i_tree _ I)).
      * apply path_inj in E; [|exact Hqs|exact Hn]. apply app_inj_tail in E as (-> & ->). fold q. rewrite !Ap by (try nl; discriminate). rewrite V1, V7. now destruct (is_empty _).
    + intros Hx. destruct (Hcase _ Hx) as [Hx'|(E & _)]; [|congruence]. rewrite Ao by exact Hx'. now apply (t_root _ (i_tree _ I)).
    + intros x t E. destruct (here H1 x) eqn:Hx.
      * destruct (Hcase _ Hx) as [Hx'|(-> & _)]; [rewrite Io in E by exact Hx'; now apply (t_inst _ (i_tree _ I)) in E|]. rewrite Iq in E. injection E as <-. right. exists (rs ++ [nm]). auto.
      * rewrite Hk in Hx. apply orb_false_iff in Hx as (A & B). apply str_eqb_neq in B. rewrite In_ in E by assumption. discriminate.
    + destruct (here H WORLD) eqn:E; [rewrite Io by exact E; apply I|]. apply In_; auto.
  - intros Hx. destruct (Hcase _ Hx) as [Hx'|(E & _)]; [now apply (i_root _ I)|congruence].
  - intros x Hx. rewrite Hk, (i_old _ I x Hx). reflexivity.
  - intros L qs x Hqs Hx. rewrite Hk. destruct (Hcase _ Hx) as [Hx'|(E & _)].
    + destruct (i_link _ I L _ _ Hqs Hx') as [E|E]; [now left|right; now rewrite E].
    + apply path_inj in E; [|exact Hqs|exact Hn]. apply app_inj_tail in E as (-> & ->). right. now rewrite Hp.
  - intros qs x Hqs Hx Hx0. destruct (Hcase _ Hx) as [Hx'|(E & _)].
    + destruct (i_born _ I _ _ Hqs Hx' Hx0) as (C & D & (ss & E1 & E2 & E3) & d & i & cm' & en' & sl' & F1 & F2 & F3 & F4 & F5).
      split; [now rewrite Hk, C|]. split; [now apply Hm|]. split; [exists ss; rewrite Io; auto|].
      exists d, i, cm', en', sl'. unfold H1. cbn [comps specs]. rewrite dget_app, F1. split; [reflexivity|]. split; [exact F2|]. split; [exact F3|]. split; [|exact F5].
      rewrite nth_error_app1; [exact F4|]. apply nth_error_Some. congruence.
    + apply path_inj in E; [|exact Hqs|exact Hn]. apply app_inj_tail in E as (-> & ->). split; [now rewrite Hk, Hp|]. split; [now apply Hm|]. split.
      * exists rs. fold q. rewrite Iq. apply names_snoc in Hr as (Hr & _). auto.
      * exists c, (length (specs H)), cm, en, sl. fold q. unfold H1. cbn [comps specs]. rewrite dget_app, Ed. cbn [dget]. rewrite str_eqb_refl.
        split; [reflexivity|]. split; [reflexivity|]. split; [apply I|]. split; [now rewrite nth_error_app2, Nat.sub_diag by lia|exact Ko].
  - intros qs Hqs Cq Hx0. rewrite Io; [now apply (i_layer _ I)|now apply (i_old _ I)].
  - intros qs x Hqs Cq Hx Hx0. destruct (Hcase _ Hx) as [Hx'|(E & _)].
    + destruct (i_proxy _ I _ _ Hqs Cq Hx' Hx0) as (ss & E1 & E2 & E3 & E4 & E5). destruct (i_born _ I _ _ Hqs Hx' Hx0) as (C & _). exists ss. rewrite !Io by assumption.
      split; [exact E1|]. split; [exact E2|]. split; [exact E3|]. split; [exact E4|]. intros L. apply (copies_kept H); auto. apply I.
    + apply path_inj in E; [|exact Hqs|exact Hn]. apply app_inj_tail in E as (-> & ->). fold q. exists rs. rewrite Io by exact Hp. rewrite Iq.
      pose proof Hr as Hr'. apply names_snoc in Hr' as (Hr' & _). split; [exact Hr'|]. split; [exact Hrne|]. split; [apply Hc; now apply clear_up in Cq|]. split; [reflexivity|exact Lq].
  - intros a t D. destruct (i_edges _ I a t D) as (ts & A & B & -> & C & E). exists ts. split; [exact A|]. split; [exact B|]. split; [reflexivity|]. split; [now rewrite Hk, C|]. rewrite Io by exact C. exact E.
Qed.

(** *** The steps of the loop *)

Definition task (H : heap) (r : list pystr * pystr * pystr) : Prop :=
  exists ps rs nm, names (ps ++ [nm]) /\ ps <> [] /\ names (rs ++ [nm]) /\ rs <> [] /\ snd (fst r) = abs_path (rs ++ [nm]) /\ snd r = abs_path (ps ++ [nm]) /\
    here H (abs_path ps) = true /\ instp H (abs_path ps) /\ (clear ps -> inst_of H (abs_path ps) = Some (abs_path rs)) /\
    (linked H0 -> here H (abs_path (rs ++ [nm])) = true).
Lemma task_later A B r : inv A -> inv B -> later A B -> task A r -> task B r.
Proof.
  intros IA IB (K & _ & M) (ps & rs & nm & A1 & A2 & A3 & A4 & A5 & A6 & A7 & A8 & A9 & A10). exists ps, rs, nm. split; [exact A1|]. split; [exact A2|]. split; [exact A3|]. split; [exact A4|].
  split; [exact A5|]. split; [exact A6|]. split; [eapply kept_here; eauto|]. split; [now apply M|]. split; [|intros L; eapply kept_here; eauto].
  intros C. rewrite (stable A B IA IB K); auto. now apply names_snoc in A1.
Qed.
Lemma linked_known H ns : linked H -> names ns -> ns <> [] -> known H ns -> here H (abs_path ns) = true.
Proof.
  intros L Hn Hne (r & Hr & Hh). revert Hr Hh. induction r as [|x r IH] using rev_ind; intros Hr Hh; [now rewrite app_nil_r in Hh|].
  apply names_snoc in Hr as (Hr & Hx). rewrite app_assoc in Hh. destruct (L (ns ++ r) x) as [E|E].
  - apply names_snoc. split; [apply names_app; auto|exact Hx].
  - exact Hh.
  - destruct ns; [congruence|discriminate].
  - auto.
Qed.

(** The source of a child that is there already. *)
Lemma inv_child H ps rs nm : inv H -> names (ps ++ [nm]) -> names (rs ++ [nm]) -> rs <> [] -> here H (abs_path ps) = true -> instp H (abs_path ps) ->
  (clear ps -> inst_of H (abs_path ps) = Some (abs_path rs)) -> here H (abs_path (ps ++ [nm])) = true ->
  inv (set_attr H (abs_path (ps ++ [nm])) INSTANCE_PATH (VStr (abs_path (rs ++ [nm])))) /\
  later H (set_attr H (abs_path (ps ++ [nm])) INSTANCE_PATH (VStr (abs_path (rs ++ [nm])))).
Proof.
  intros I Hn Hr Hrn Hp Hip Hc Hh. apply inv_inst; auto. intros C. pose proof (no_layer_below H I ps nm Hn C Hp Hip) as E0.
  destruct (i_proxy _ I _ _ Hn C Hh E0) as (ss & A & _ & B & D & _). rewrite D. rewrite Hc in B by (now apply clear_up in C). injection B as E.
  apply path_inj in E as ->; [reflexivity|now apply names_snoc in Hr|exact A].
Qed.

Variables (top_real : pyval) (one : bool).

Lemma inv_name_missing H src : inv H -> inv (name_missing H src) /\ later H (name_missing H src).
Proof. intros I. unfold name_missing. destruct (_ && _); [now apply inv_order|]. split; [exact I|apply later_refl]. Qed.
Lemma create_inv H ns src tgt : inv H -> task H (ns, src, tgt) ->
  let r := create_instance top_real one H src tgt in inv (fst r) /\ later H (fst r) /\ (linked H0 -> snd r = false) /\ here (fst r) tgt = true.
Proof.
  intros I T. destruct T as (ps & rs & nm & A1 & A2 & A3 & A4 & A5 & A6 & A7 & A8 & A9 & A10). cbn [fst snd] in A5, A6. subst src tgt.
  pose proof (names_comp _ A1) as C1. pose proof (names_comp _ A3) as C3.
  unfold create_instance. cbn zeta. set (s := abs_path (rs ++ [nm])) in *. set (q := abs_path (ps ++ [nm])) in *. cbn [fst snd].
  set (H1 := if here H s then H else name_missing H s).
  assert (S1 : inv H1 /\ later H H1). { unfold H1. destruct (here H s); [split; [exact I|apply later_refl]|now apply inv_name_missing]. }
  destruct S1 as (I1 & L1). assert (Hk : forall x, here H1 x = here H x). { intros x. unfold H1. destruct (here H s); [reflexivity|apply here_name_missing]. }
  assert (Hp1 : here H1 (abs_path ps) = true) by now rewrite Hk. assert (Hi1 : instp H1 (abs_path ps)) by (now apply L1).
  assert (Hc1 : clear ps -> inst_of H1 (abs_path ps) = Some (abs_path rs)).
  { intros C. rewrite (stable H H1 I I1); auto; [apply L1|now apply names_snoc in A1]. }
  assert (Ename : (if here H s then name_of H s else node_name_from_node_path s) = nm).
  { destruct (here H s) eqn:Es; [|now apply node_name_abs]. unfold name_of. pose proof (proj2 (t_place _ (i_tree _ I) _ _ A3 Es)) as En. fold s in En. now rewrite En. }
  rewrite Ename. assert (Epp : get_parent_path q = abs_path ps) by now apply get_parent_path_abs.
  assert (S2 : forall force, (linked H0 -> force = false) -> exists H2, H2 = (if here H1 q
           then set_attr (set_attr H1 q INSTANCE_PATH (VStr s)) q (INSTANCE_PATH ++ META_SOURCE) (VTuple [if here H s then attr H s SOURCE_LAYER else top_real; VStr s])
           else add_proxy H1 (proxy_spec nm (if here H s then attr H s COMMENT else VNone) (if here H s then attr H s ENABLED else VNone)
                               (if here H s then attr H s SOURCE_LAYER else top_real) (get_parent_path q)) s q force) /\
           inv H2 /\ later H H2 /\ here H2 q = true /\ inst_of H2 q = Some s).
  { intros force Hforce. eexists. split; [reflexivity|]. destruct (here H1 q) eqn:Eq.
    - destruct (inv_child H1 ps rs nm I1 A1 A3 A4 Hp1 Hi1 Hc1 Eq) as (I2 & L2). fold q s in I2, L2. assert (La : loose (INSTANCE_PATH ++ META_SOURCE)) by (right; now left).
      destruct (inv_set (set_attr H1 q INSTANCE_PATH (VStr s)) q _ (VTuple [if here H s then attr H s SOURCE_LAYER else top_real; VStr s]) La ltac:(discriminate) I2) as (I3 & L3).
      split; [exact I3|]. split; [eapply later_trans; [exact L1|]; eapply later_trans; eauto|]. split; [now rewrite !here_set_attr|].
      unfold inst_of. rewrite attr_set_other_attr by discriminate. now rewrite attr_set_same.
    - unfold add_proxy. rewrite Epp.
      match goal with |- context [if force then ?a else ?b] => set (o := if force then a else b) end. cbn zeta.
      match goal with |- context [{| specs := specs H1 ++ [?x]; comps := ?c; dirty := dirty H1 |}] => set (sp := x); set (H2 := {| specs := specs H1 ++ [sp]; comps := c; dirty := dirty H1 |}) end.
      assert (Ei : dget INSTANCE_PATH o = Some (VStr s)) by (unfold o; destruct force; reflexivity).
      destruct (inv_new H1 ps nm rs (if here H s then attr H s COMMENT else VNone) (if here H s then attr H s ENABLED else VNone) (if here H s then attr H s SOURCE_LAYER else top_real) o I1 A1 A2 Hp1 Hi1 A3 A4 Eq Hc1) as (I2 & L2).
      + exact Ei.
      + intros a Ha. unfold o in Ha. destruct force.
        * rewrite dget_dset in Ha. destruct (str_eqb SOURCE_LAYER a) eqn:Ea; [apply str_eqb_eq in Ea as <-; now right|].
          cbn [dget] in Ha. destruct (str_eqb INSTANCE_PATH a) eqn:E1; [apply str_eqb_eq in E1 as <-; left; now left|].
          destruct (str_eqb (INSTANCE_PATH ++ META_SOURCE) a) eqn:E2; [apply str_eqb_eq in E2 as <-; left; right; now left|]. congruence.
        * cbn [dget] in Ha. destruct (str_eqb INSTANCE_PATH a) eqn:E1; [apply str_eqb_eq in E1 as <-; left; now left|].
          destruct (str_eqb (INSTANCE_PATH ++ META_SOURCE) a) eqn:E2; [apply str_eqb_eq in E2 as <-; left; right; now left|]. congruence.
      + intros L. cbn zeta. specialize (A10 L). fold s in A10 |- *. unfold H1, o. rewrite A10, (Hforce L). repeat (split; [try reflexivity; assumption|]). reflexivity.
      + fold q sp in I2, L2. change (inv H2) in I2. change (later H1 H2) in L2.
        assert (Hq2 : here H2 q = true). { unfold here, dmem, H2. cbn [comps]. rewrite dget_app. destruct (dget q (comps H1)); [reflexivity|]. cbn [dget]. now rewrite str_eqb_refl. }
        assert (Iq2 : inst_of H2 q = Some s). { unfold inst_of, attr, H2. cbn [comps specs]. apply here_false in Eq. rewrite dget_app, Eq. cbn [dget]. rewrite str_eqb_refl. unfold node_attr. cbn [own]. now rewrite Ei. }
        match goal with |- context [if ?x then set_order H2 ?a ?b else H2] => destruct x; [destruct (inv_order H2 a b I2) as (I3 & L3)|] end.
        * split; [exact I3|]. split; [eapply later_trans; [exact L1|]; eapply later_trans; eauto|]. unfold set_order in *. rewrite here_set_attr. split; [exact Hq2|].
          unfold inst_of. rewrite attr_set_other_attr by discriminate. exact Iq2.
        * split; [exact I2|]. split; [eapply later_trans; eauto|]. auto. }
  assert (Hf : linked H0 -> here H s = true) by exact A10.
  destruct (S2 (negb (here H s) && has_kid_named H (inst_of H (get_parent_path s)) (node_name_from_node_path s))) as (H2 & E2 & I2 & L2 & Q2 & R2).
  { intros L. now rewrite (Hf L). }
  rewrite <- E2. destruct (inv_concern one H2 s q I2) as (I3 & L3).
  { exists (ps ++ [nm]). split; [exact A1|]. split; [now destruct ps|]. split; [reflexivity|]. split; [exact Q2|]. intros _. exact R2. }
  split; [exact I3|]. split; [eapply later_trans; eauto|]. split; [intros L; now rewrite (Hf L)|]. exact (kept_here _ _ _ (proj1 L3) Q2).
Qed.

Lemma create_all_inv rs : forall H (imps : list pystr), inv H -> (forall r, In r rs -> task H r) ->
  let r := fold_left (fun acc r => let '(H, imps) := acc in let '(_, src, tgt) := r in
                          let '(H, i) := create_instance top_real one H src tgt in
                          (H, if i then imps ++ [tgt] else imps)) rs (H, imps) in
  inv (fst r) /\ later H (fst r) /\ (linked H0 -> snd r = imps).
Proof.
  induction rs as [|[[ns src] tgt] rs IH]; intros H imps I T; cbn [fold_left]; [cbn; split; [exact I|split; [apply later_refl|reflexivity]]|].
  destruct (create_inv H ns src tgt I (T _ (or_introl eq_refl))) as (I1 & L1 & F1 & _). cbn zeta in *. destruct (create_instance top_real one H src tgt) as [H1 i]. cbn [fst snd] in *.
  destruct (IH H1 (if i then imps ++ [tgt] else imps) I1) as (I2 & L2 & F2).
  { intros r Hr. apply (task_later H H1); auto. apply T. now right. }
  cbn zeta in *. split; [exact I2|]. split; [eapply later_trans; eauto|]. intros L. rewrite F2 by exact L. now rewrite F1.
Qed.

Lemma discover_child_inv ps rs H to_do nm : inv H -> names (ps ++ [nm]) -> ps <> [] -> names (rs ++ [nm]) -> rs <> [] -> here H (abs_path ps) = true -> instp H (abs_path ps) ->
  (clear ps -> inst_of H (abs_path ps) = Some (abs_path rs)) -> (linked H0 -> here H (abs_path (rs ++ [nm])) = true) -> (forall r, In r to_do -> task H r) ->
  let r := discover_child (abs_path ps) (H, to_do) (abs_path (rs ++ [nm])) in
  inv (fst r) /\ later H (fst r) /\ (forall x, here (fst r) x = here H x) /\ (forall t, In t (snd r) -> task (fst r) t) /\
  (snd r = [] -> to_do = [] /\ here H (abs_path (ps ++ [nm])) = true).
Proof.
  intros I Hn Hne Hr Hrn Hp Hip Hc Hl HT. unfold discover_child. pose proof Hn as Hn'. apply names_snoc in Hn' as (Hps & Hnm).
  assert (E1 : str_path_to_node_namespace (abs_path ps) = ps) by (now apply from_path).
  assert (E2 : List.last (str_path_to_node_namespace (abs_path (rs ++ [nm]))) [] = nm) by (rewrite from_path; [apply last_last|exact Hr|now destruct rs]).
  rewrite E1, E2. cbn zeta. rewrite to_path by (now destruct ps). destruct (here H (abs_path (ps ++ [nm]))) eqn:Eh.
  - assert (Case : (discover_child (abs_path ps) (H, to_do) (abs_path (rs ++ [nm])) = (H, to_do)) \/ True) by now right. clear Case.
    destruct (inv_child H ps rs nm I Hn Hr Hrn Hp Hip Hc Eh) as (I2 & L2).
    destruct (attr H (abs_path (ps ++ [nm])) INSTANCE_PATH) as [| | |[|c s]| | | |]; cbn [fst snd];
      try (split; [exact I2|]; split; [exact L2|]; split; [intros x; apply here_set_attr|]; split; [intros t Ht; apply (task_later H); auto|]; auto).
    split; [exact I|]. split; [apply later_refl|]. split; [reflexivity|]. split; [exact HT|]. auto.
  - cbn [fst snd]. split; [exact I|]. split; [apply later_refl|]. split; [reflexivity|]. split.
    + intros t Ht. apply in_app_or in Ht as [Ht|[<-|[]]]; [now apply HT|]. exists ps, rs, nm. cbn [fst snd]. auto 12.
    + intros E. now destruct to_do.
Qed.
Lemma discover_children_inv ps rs srcs : forall H to_do, inv H -> names ps -> ps <> [] -> names rs -> rs <> [] -> here H (abs_path ps) = true -> instp H (abs_path ps) ->
  (clear ps -> inst_of H (abs_path ps) = Some (abs_path rs)) ->
  (forall s, In s srcs -> exists nm, plain_name nm /\ s = abs_path (rs ++ [nm]) /\ (linked H0 -> here H s = true)) -> (forall r, In r to_do -> task H r) ->
  let r := fold_left (discover_child (abs_path ps)) srcs (H, to_do) in
  inv (fst r) /\ later H (fst r) /\ (forall x, here (fst r) x = here H x) /\ (forall t, In t (snd r) -> task (fst r) t) /\
  (snd r = [] -> to_do = [] /\ forall nm, plain_name nm -> In (abs_path (rs ++ [nm])) srcs -> here H (abs_path (ps ++ [nm])) = true).
Proof.
  induction srcs as [|src srcs IH]; intros H to_do I Hps Hne Hrs Hrn Hp Hip Hc Hs HT; cbn [fold_left].
  - cbn [fst snd]. split; [exact I|]. split; [apply later_refl|]. split; [reflexivity|]. split; [exact HT|]. intros E. split; [exact E|intros ? ? []].
  - destruct (Hs src (or_introl eq_refl)) as (nm & Hnm & -> & Hl).
    destruct (discover_child_inv ps rs H to_do nm I) as (I1 & L1 & K1 & T1 & F1); auto; try (apply names_snoc; auto).
    cbn zeta in *. destruct (discover_child (abs_path ps) (H, to_do) (abs_path (rs ++ [nm]))) as [H1 td1]. cbn [fst snd] in *.
    destruct (IH H1 td1 I1 Hps Hne Hrs Hrn) as (I2 & L2 & K2 & T2 & F2); auto.
    + now rewrite K1.
    + now apply L1.
    + intros C. rewrite (stable H H1); auto. apply L1.
    + intros s Hin. destruct (Hs s (or_intror Hin)) as (m & A & B & C). exists m. split; [exact A|]. split; [exact B|]. intros L. rewrite K1. auto.
    + cbn zeta in *. split; [exact I2|]. split; [eapply later_trans; eauto|]. split; [intros x; now rewrite K2, K1|]. split; [exact T2|].
      intros E. destruct (F2 E) as (E1 & E3). destruct (F1 E1) as (E4 & E5). split; [exact E4|]. intros m Hm [E6|Hin].
      * apply path_inj in E6; [|apply names_snoc; auto|apply names_snoc; auto]. apply app_inj_tail in E6 as (_ & <-). exact E5.
      * rewrite <- K1. now apply E3.
Qed.

Lemma sort_nil {A} (key : A -> nat) l : sort_multidimensional_list key l = [] -> l = [].
Proof. destruct (SortProofs.sort_rows_spec key l) as (P & _). intros E. rewrite E in P. apply Permutation_nil. exact P. Qed.
Lemma discover_inv H ps : inv H -> names ps -> here H (abs_path ps) = true ->
  let r := discover one H (abs_path ps) in
  inv (fst r) /\ later H (fst r) /\ (forall x, here (fst r) x = here H x) /\ (forall t, In t (snd r) -> task (fst r) t) /\
  (snd r = [] -> forall rs nm, names (rs ++ [nm]) -> rs <> [] -> possible H (abs_path ps) = Some (abs_path rs) -> known H (rs ++ [nm]) -> here H (abs_path (ps ++ [nm])) = true).
Proof.
  intros I Hps Hp. unfold discover. destruct (possible H (abs_path ps)) as [real|] eqn:Epos; [|cbn [fst snd]; split; [exact I|split; [apply later_refl|split; [reflexivity|split; [intros ? []|discriminate]]]]].
  destruct (possible_spec H ps real (i_tree _ I) Hps Epos) as (Ei & (rs & Hrs & Hrn & ->) & Hne & _). set (p := abs_path ps) in *. cbn zeta.
  set (H1 := set_attr H p INSTANCE_PATH (VStr (abs_path rs))).
  assert (Hi1 : forall q, inst_of H1 q = inst_of H q).
  { intros q. unfold inst_of at 1, H1. rewrite attr_set_attr, Hp, str_eqb_refl, andb_true_r. cbn [andb]. destruct (str_eqb q p) eqn:E; [|reflexivity]. apply str_eqb_eq in E as ->. now rewrite Ei. }
  assert (S1 : inv H1 /\ later H H1).
  { destruct (step_inst n H p (VStr (abs_path rs)) (i_good _ I)) as (G' & K). apply inv_quiet; auto.
    - intros q. apply here_set_attr.
    - intros q c c' b E E' Hb. unfold H1, set_attr in E'. cbn [comps with_comps] in E'. rewrite dget_change, E in E'. destruct (str_eqb q p); [|left; congruence]. injection E' as <-. cbn [own] in Hb. rewrite dget_dset in Hb.
      destruct (str_eqb INSTANCE_PATH b) eqn:Eb; [|now left]. apply str_eqb_eq in Eb as <-. right. now left. }
  destruct S1 as (I1 & L1). assert (K1 : forall x, here H1 x = here H x) by (intros x; apply here_set_attr).
  set (H2 := concern one H1 (abs_path rs) p). destruct (inv_concern one H1 (abs_path rs) p I1) as (I2 & L2).
  { exists ps. split; [exact Hps|]. split; [exact Hne|]. split; [reflexivity|]. rewrite K1. split; [exact Hp|]. intros _. now rewrite Hi1. }
  fold H2 in I2, L2. assert (K2 : forall x, here H2 x = here H x) by (intros x; apply K1).
  set (H3 := if here H2 (abs_path rs) then set_order H2 p (merged (order_of H2 p) (order_of H2 (abs_path rs))) else H2).
  assert (S3 : inv H3 /\ later H2 H3 /\ forall x, here H3 x = here H x).
  { unfold H3. destruct (here H2 (abs_path rs)); [|split; [exact I2|split; [apply later_refl|exact K2]]].
    destruct (inv_order H2 p (merged (order_of H2 p) (order_of H2 (abs_path rs))) I2) as (A & B). split; [exact A|]. split; [exact B|]. intros x. unfold set_order. rewrite here_set_attr. apply K2. }
  destruct S3 as (I3 & L3 & K3). assert (L03 : later H H3) by (eapply later_trans; [exact L1|]; eapply later_trans; eauto).
  assert (Hip : instp H p) by (exists rs; auto).
  destruct (discover_children_inv ps rs (kid_paths H3 (abs_path rs)) H3 [] I3 Hps Hne Hrs Hrn) as (I4 & L4 & K4 & T4 & F4).
  - rewrite K3. exact Hp.
  - now apply L03.
  - intros C. rewrite (stable H H3); auto. apply L03.
  - intros s Hs. apply kids_spec in Hs as (nm & Hnm & -> & Hk); auto; [|apply I3|apply I3]. exists nm. split; [exact Hnm|]. split; [reflexivity|]. intros L.
    apply linked_known; auto; [now apply (i_link _ I3)|apply names_snoc; auto|now destruct rs].
  - intros ? [].
  - cbn zeta in *. fold p in I4, L4, K4, T4, F4. destruct (fold_left (discover_child p) (kid_paths H3 (abs_path rs)) (H3, [])) as [H4 td]. cbn [fst snd] in *.
    split; [exact I4|]. split; [eapply later_trans; eauto|]. split; [intros x; now rewrite K4, K3|]. split; [intros t Ht; apply sort_in in Ht; auto|].
    intros E rs' nm Hn Hn' E' Hk. injection E' as E'. pose proof Hn as Hn2. apply names_snoc in Hn2 as (Hn2 & Hnm). apply path_inj in E'; [|exact Hrs|exact Hn2]. subst rs'.
    apply sort_nil in E. destruct (F4 E) as (_ & F). rewrite <- K3. apply F; [exact Hnm|]. apply kids_spec; auto; [apply I3|apply I3|]. exists nm. split; [exact Hnm|]. split; [reflexivity|].
    destruct Hk as (r & Hr & Hh). exists r. split; [exact Hr|]. now rewrite K3.
Qed.

Lemma dirties_spec H p x : In x (dirties H p) <-> clos_trans _ (DirtySpec.depends (dirty H)) p x.
Proof.
  unfold dirties. destruct (DirtyProofs.dirties_terminate (dirty H) p (S (list_sum (map (fun kv => length (snd kv)) (dirty H))))) as (l & E).
  - unfold DirtyProofs.targets. apply le_n_S. apply Nat.eq_le_incl. induction (dirty H) as [|kv m IH]; cbn; [reflexivity|]. now rewrite app_length, IH.
  - rewrite E. apply (DirtyProofs.dirties_exact _ _ _ _ E).
Qed.
Lemma dirties_later A B p x : later A B -> In x (dirties A p) -> In x (dirties B p).
Proof.
  intros (_ & D & _). rewrite !dirties_spec. induction 1 as [x y E|x y z _ IH1 _ IH2]; [apply t_step; auto|eapply t_trans; eauto].
Qed.

Lemma insert_in i x y l : In y (py_insert i x l) <-> y = x \/ In y l.
Proof. unfold py_insert. rewrite in_app_iff. cbn [In]. rewrite <- (firstn_skipn i l) at 3. rewrite in_app_iff. intuition. Qed.
Lemma remove_first_in x y l : In y (remove_first x l) \/ y = x <-> In y l \/ y = x.
Proof.
  unfold remove_first. induction l as [|z l IH]; cbn [py_remove]; [reflexivity|]. destruct (str_eqb z x) eqn:E.
  - apply str_eqb_eq in E as ->. cbn [In]. intuition.
  - destruct (py_remove x l) as [l'|]; cbn [In] in *; intuition.
Qed.
Lemma deep_sort_in H p : In p (deep_sort_instances H) <-> here H p = true.
Proof.
  unfold deep_sort_instances. assert (S : forall l, In p (sort_instances H) <-> In p l -> True) by auto. clear S.
  assert (Hs : forall x, In x (sort_instances H) <-> here H x = true). { intros x. unfold sort_instances. rewrite sort_in. symmetry. apply here_In. }
  rewrite <- Hs. assert (Gen : forall r l d, (forall x, In x r -> In x l) -> In p (fst (fold_left (deep_step H) r (l, d))) <-> In p l).
  { induction r as [|x r IH]; intros l d Hr; cbn [fold_left]; [reflexivity|]. cbn [deep_step]. destruct (possible H x) as [real|]; [|apply IH; intros; apply Hr; now right].
    destruct (here H real); [|apply IH; intros; apply Hr; now right]. cbn zeta.
    assert (Hx : In x l) by (apply Hr; now left).
    assert (P : forall y, In y (py_insert (index_of real l + dget_def real 1 d) x (remove_first x l)) <-> In y l).
    { intros y. rewrite insert_in. pose proof (remove_first_in x y l) as R. split; [|tauto]. intros [->|F]; [exact Hx|]. destruct (proj1 R (or_introl F)) as [?| ->]; auto. }
    rewrite IH; [apply P|]. intros y Hy. apply P, Hr. now right. }
  apply Gen. auto.
Qed.

(** Every child of the source has its proxy, unless the source depends on the node. *)
Definition closed_at (H : heap) (ps : list pystr) : Prop := forall rs nm, names (rs ++ [nm]) -> rs <> [] ->
  possible H (abs_path ps) = Some (abs_path rs) -> known H (rs ++ [nm]) -> here H (abs_path (ps ++ [nm])) = true.

Lemma discover_all_inv l : forall H to_do, inv H -> (forall p, In p l -> here H p = true) -> (forall r, In r to_do -> task H r) ->
  let r := fold_left (fun acc p => let '(H, to_do) := acc in let '(H, more) := discover one H p in (H, to_do ++ more)) l (H, to_do) in
  inv (fst r) /\ later H (fst r) /\ (forall x, here (fst r) x = here H x) /\ (forall t, In t (snd r) -> task (fst r) t) /\
  (snd r = [] -> to_do = [] /\ forall ps, names ps -> In (abs_path ps) l -> exists Ht, inv Ht /\ later Ht (fst r) /\ (forall x, here Ht x = here H x) /\ closed_at Ht ps).
Proof.
  induction l as [|p l IH]; intros H to_do I Hh HT; cbn [fold_left].
  - cbn [fst snd]. split; [exact I|]. split; [apply later_refl|]. split; [reflexivity|]. split; [exact HT|]. intros E. split; [exact E|intros ? ? []].
  - destruct (t_path _ (i_tree _ I) p (Hh p (or_introl eq_refl))) as (ps & Hps & ->).
    destruct (discover_inv H ps I Hps (Hh _ (or_introl eq_refl))) as (I1 & L1 & K1 & T1 & F1). cbn zeta in *. destruct (discover one H (abs_path ps)) as [H1 more]. cbn [fst snd] in *.
    destruct (IH H1 (to_do ++ more) I1) as (I2 & L2 & K2 & T2 & F2).
    + intros q Hq. rewrite K1. apply Hh. now right.
    + intros r Hr. apply in_app_or in Hr as [Hr|Hr]; [apply (task_later H); auto|auto].
    + cbn zeta in *. split; [exact I2|]. split; [eapply later_trans; eauto|]. split; [intros x; now rewrite K2, K1|]. split; [exact T2|].
      intros E. destruct (F2 E) as (E1 & E2). apply app_eq_nil in E1 as (-> & ->). split; [reflexivity|]. intros qs Hqs [Eq|Hin].
      * apply path_inj in Eq; [|exact Hps|exact Hqs]. subst qs. exists H. split; [exact I|]. split; [eapply later_trans; eauto|]. split; [reflexivity|]. intros rs nm. apply F1. reflexivity.
      * destruct (E2 qs Hqs Hin) as (Ht & A & B & C & D). exists Ht. split; [exact A|]. split; [exact B|]. split; [intros x; now rewrite C, K1|exact D].
Qed.

Theorem loop_inv fuel : forall H imps H' imps', inv H -> proxy_loop top_real one fuel H imps = Some (H', imps') ->
  inv H' /\ later H H' /\ (linked H0 -> imps' = imps) /\ forall ps, names ps -> clear ps -> here H' (abs_path ps) = true -> closed_at H' ps.
Proof.
  induction fuel as [|f IH]; intros H imps H' imps' I E; [discriminate|]. cbn [proxy_loop] in E.
  destruct (discover_all_inv (deep_sort_instances H) H [] I) as (I1 & L1 & K1 & T1 & F1); [intros p Hp; now apply deep_sort_in|intros ? []|]. cbn zeta in *.
  unfold discover_all in E. destruct (fold_left _ (deep_sort_instances H) (H, [])) as [H1 td]. cbn [fst snd] in *.
  destruct (create_all_inv td H1 [] I1 T1) as (I2 & L2 & F2). cbn zeta in *. unfold create_all in E.
  destruct td as [|r td].
  - cbn [fold_left fst snd] in *. injection E as <- <-. split; [exact I1|]. split; [exact L1|]. split; [intros _; apply app_nil_r|].
    intros ps Hps Hc Hh rs nm Hn Hrn Epos Hk. destruct (F1 eq_refl) as (_ & F). rewrite K1 in Hh. destruct (F ps Hps) as (Ht & It & Lt & Kt & Ct); [now apply deep_sort_in|].
    rewrite K1, <- Kt. apply (Ct rs nm Hn Hrn).
    + destruct (possible_spec H1 ps _ (i_tree _ I1) Hps Epos) as (Ei & _ & _ & Es & Ed). apply possible_intro; auto; [now apply names_snoc in Hn| |].
      * rewrite <- Ei. symmetry. apply stable; auto; [apply Lt|now rewrite Kt].
      * intros D. apply Ed. eapply dirties_later; eauto.
    + destruct Hk as (x & Hx & Hk). exists x. split; [exact Hx|]. rewrite Kt, <- K1. exact Hk.
  - set (tl := r :: td) in *. destruct (fold_left _ tl (H1, [])) as [H2 more]. cbn [fst snd] in *. unfold tl in E. destruct (IH _ _ _ _ I2 E) as (A & B & C & D).
    split; [exact A|]. split; [eapply later_trans; [exact L1|]; eapply later_trans; eauto|]. split; [|exact D]. intros L. rewrite (C L), (F2 L). apply app_nil_r.
Qed.
End Inv.
