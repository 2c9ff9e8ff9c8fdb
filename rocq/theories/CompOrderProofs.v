(** Child orders while the proxies are made. *)

From Coq Require Import String List NArith ZArith Bool Arith Lia Permutation.
From Verif Require Import PyStr PyStrFacts NxtPath PathSpec PathProofs Dict DictFacts ListMerger SortRows Layer PyVal NodeIO PyClass Comp CompSpec MergeProofs CompProofs CompProxyProofs CompTreeProofs.
From Verif Require SortProofs.
Import ListNotations.

Definition tidy (H : heap) : Prop := forall p, NoDup (order_of H p).
Record grown (A B : heap) : Prop := {
  o_old : forall p, here A p = true -> forall x, In x (order_of A p) -> In x (order_of B p);
  o_same : tidy A -> forall p, here A p = true -> filter (fun y => str_in y (order_of A p)) (order_of B p) = order_of A p;
  o_tidy : tidy A -> tidy B;
  o_new : forall q, here B q = true -> here A q = false -> In (name_of B q) (order_of B (parent_of B q))
}.

Lemma filter_in_self (l : list pystr) : filter (fun y => str_in y l) l = l.
Proof.
  assert (G : forall m, (forall x, In x m -> In x l) -> filter (fun y => str_in y l) m = m).
  { induction m as [|x m IH]; intros Hm; cbn; [reflexivity|]. assert (E : str_in x l = true) by (apply str_in_In; apply Hm; now left). rewrite E. f_equal. apply IH. intros y Hy. apply Hm. now right. }
  now apply G.
Qed.
Lemma filter_twice (a b c : list pystr) : (forall x, In x a -> In x b) -> filter (fun y => str_in y a) (filter (fun y => str_in y b) c) = filter (fun y => str_in y a) c.
Proof.
  intros Hab. induction c as [|x c IH]; cbn; [reflexivity|]. destruct (str_in x b) eqn:Eb; cbn; [now rewrite IH|]. rewrite IH.
  destruct (str_in x a) eqn:Ea; [|reflexivity]. apply str_in_In in Ea. apply Hab in Ea. apply str_in_In in Ea. congruence.
Qed.

Lemma grown_refl A : grown A A.
Proof. split; auto; [intros; apply filter_in_self|congruence]. Qed.

Definition gstep (n : nat) (H H' : heap) : Prop := good n H -> good n H' /\ kept H H' /\ grown H H'.
Lemma gstep_refl n H : gstep n H H. Proof. intros G. split; [exact G|]. split; [apply kept_refl|apply grown_refl]. Qed.
Lemma place_loose : ~ loose NAME /\ ~ loose PARENT_PATH.
Proof. split; intros [E|[E|E]]; discriminate. Qed.
Lemma gstep_trans n A B C : gstep n A B -> gstep n B C -> gstep n A C.
Proof.
  intros S1 S2 G. destruct (S1 G) as (G1 & K1 & W1). destruct (S2 G1) as (G2 & K2 & W2). split; [exact G2|]. split; [eapply kept_trans; eauto|]. split.
  - intros p Hp x Hx. apply (o_old _ _ W2); [now apply (kept_here A)|]. now apply (o_old _ _ W1).
  - intros T p Hp. rewrite <- (filter_twice _ (order_of B p)) by (intros x; now apply (o_old _ _ W1)). rewrite (o_same _ _ W2); [now apply (o_same _ _ W1)|now apply (o_tidy _ _ W1)|now apply (kept_here A)].
  - intros T. apply (o_tidy _ _ W2), (o_tidy _ _ W1), T.
  - intros q Hq Ha. destruct (here B q) eqn:Hb; [|now apply (o_new _ _ W2)].
    assert (E1 : name_of C q = name_of B q) by (unfold name_of; rewrite (kept_attr n B C q NAME G1 K2 Hb (proj1 place_loose)); reflexivity).
    assert (E2 : parent_of C q = parent_of B q) by (unfold parent_of; rewrite (kept_attr n B C q PARENT_PATH G1 K2 Hb (proj2 place_loose)); reflexivity).
    rewrite E1, E2. pose proof (o_new _ _ W1 q Hb Ha) as I. apply (o_old _ _ W2); [|exact I]. destruct (here B (parent_of B q)) eqn:Hp; [reflexivity|].
    apply here_false in Hp. unfold order_of, attr in I. rewrite Hp in I. destruct I.
Qed.

Lemma set_new H p a v : forall q, here (set_attr H p a v) q = true -> here H q = false -> False.
Proof. intros q A B. rewrite here_set_attr in A. congruence. Qed.
Lemma gstep_other n H p a v : loose a -> a <> CHILD_ORDER -> gstep n H (set_attr H p a v).
Proof.
  intros La Na G. destruct (step_set_attr n H p a v La G) as (G' & K). split; [exact G'|]. split; [exact K|].
  assert (E : forall q, order_of (set_attr H p a v) q = order_of H q) by (intros q; unfold order_of; now rewrite attr_set_other_attr).
  split.
  - intros q _ x. now rewrite E.
  - intros _ q _. rewrite E. apply filter_in_self.
  - intros T q. rewrite E. apply T.
  - intros q A B. destruct (set_new _ _ _ _ _ A B).
Qed.
Lemma gstep_inst n H p v : gstep n H (set_attr H p INSTANCE_PATH v).
Proof. apply gstep_other; [now left|discriminate]. Qed.
Lemma gstep_inst_source n H p v : gstep n H (set_attr H p (INSTANCE_PATH ++ META_SOURCE) v).
Proof. apply gstep_other; [right; now left|discriminate]. Qed.
Lemma order_set H p l q : order_of (set_order H p l) q = if here H p && str_eqb q p then l else order_of H q.
Proof.
  unfold order_of, set_order. rewrite attr_set_attr, str_eqb_refl, andb_true_r. destruct (here H p && str_eqb q p); [apply as_strs_VStrs|reflexivity].
Qed.
Lemma gstep_merge n H p l : (tidy H -> NoDup l) -> gstep n H (set_order H p (merged (order_of H p) l)).
Proof.
  intros Hl G. destruct (step_order n H p (merged (order_of H p) l) G) as (G' & K). split; [exact G'|]. split; [exact K|]. split.
  - intros q _ x Hx. rewrite order_set. destruct (here H p && str_eqb q p) eqn:E; [|exact Hx]. apply andb_true_iff in E as (_ & E). apply str_eqb_eq in E as ->. apply merged_in. now left.
  - intros T q _. rewrite order_set. destruct (here H p && str_eqb q p) eqn:E; [|apply filter_in_self]. apply andb_true_iff in E as (_ & E). apply str_eqb_eq in E as ->. apply merged_base; auto.
  - intros T q. rewrite order_set. destruct (here H p && str_eqb q p); [|apply T]. apply merged_nodup; auto.
  - intros q A B. destruct (set_new _ _ _ _ _ A B).
Qed.
Lemma gstep_dirty n H d : gstep n H (with_dirty H d).
Proof. intros G. destruct (step_dirty n H d G) as (G' & K). split; [exact G'|]. split; [exact K|]. split; auto; [intros; apply filter_in_self|]. intros q A B. change (here H q = true) in A. congruence. Qed.

Lemma gstep_add_proxy n H name cm en sl src ps tgt force : here H tgt = false -> here H (abs_path ps) = true ->
  gstep n H (add_proxy H (proxy_spec name cm en sl (abs_path ps)) src tgt force).
Proof.
  intros E Hp G. destruct (step_add_proxy n H (proxy_spec name cm en sl (abs_path ps)) src tgt force E (fun a Ha => proj1 (proxy_keys name cm en sl (abs_path ps) a) Ha) G) as (G' & K).
  split; [exact G'|]. split; [exact K|]. clear G' K. unfold add_proxy.
  destruct (proxy_values name cm en sl (abs_path ps)) as (V1 & _ & _ & _ & _ & _ & V2 & V3 & _). change (value (proxy_spec name cm en sl (abs_path ps)) NAME) with (attr_or_none (proxy_spec name cm en sl (abs_path ps)) NAME) in V1.
  assert (V2' : value (proxy_spec name cm en sl (abs_path ps)) PARENT_PATH = VStr (abs_path ps)) by (rewrite V2; now destruct (is_empty _)).
  set (sp := proxy_spec name cm en sl (abs_path ps)) in *. change (value sp PARENT_PATH) with (attr_or_none sp PARENT_PATH) in V2'. rewrite V1, V2'. clear V2.
  match goal with |- context [if force then ?a else ?b] => set (o := if force then a else b) end. cbn zeta.
  assert (Ho : dget CHILD_ORDER o = None /\ dget NAME o = None /\ dget PARENT_PATH o = None).
  { unfold o. destruct force; rewrite ?dget_dset; cbn [dget]; repeat split; reflexivity. }
  match goal with |- context [{| specs := specs H ++ [sp]; comps := ?c; dirty := dirty H |}] => set (H1 := {| specs := specs H ++ [sp]; comps := c; dirty := dirty H |}) end.
  assert (Old : forall q a, here H q = true -> attr H1 q a = attr H q a).
  { intros q a Hq. unfold here, dmem in Hq. unfold attr, H1. cbn [comps specs]. rewrite dget_app. destruct (dget q (comps H)) as [c|] eqn:Ec; [|discriminate].
    unfold node_attr. destruct (dget a (own c)); [reflexivity|]. destruct (g_bases _ _ G _ _ Ec) as (is & Eb & _ & _ & L). rewrite Eb. destruct is as [|i is]; [reflexivity|]. cbn [map].
    rewrite nth_error_app1; [reflexivity|]. apply L. now left. }
  assert (New : forall a, dget a o = None -> attr H1 tgt a = value sp a).
  { intros a Ea. unfold attr, H1. cbn [comps specs]. rewrite dget_app. apply here_false in E. rewrite E. cbn [dget]. rewrite str_eqb_refl. unfold node_attr. cbn [own cbases]. rewrite Ea.
    rewrite nth_error_app2, Nat.sub_diag by lia. reflexivity. }
  assert (Keys : forall q, here H1 q = true -> here H q = true \/ q = tgt).
  { intros q Hq. unfold here, dmem, H1 in Hq. cbn [comps] in Hq. rewrite dget_app in Hq. unfold here, dmem. destruct (dget q (comps H)); [now left|]. cbn [dget] in Hq.
    destruct (str_eqb tgt q) eqn:Q; [|discriminate]. apply str_eqb_eq in Q. now right. }
  assert (Hp1 : here H1 (abs_path ps) = true). { unfold here, dmem, H1 in *. cbn [comps]. rewrite dget_app. now destruct (dget (abs_path ps) (comps H)). }
  assert (Ord : forall q, here H1 q = true -> order_of H1 q = if str_eqb q tgt then [] else order_of H q).
  { intros q Hq. unfold order_of. destruct (str_eqb q tgt) eqn:Q.
    - apply str_eqb_eq in Q as ->. rewrite New by apply Ho. rewrite V3. reflexivity.
    - destruct (Keys q Hq) as [Hk| ->]; [now rewrite Old|]. rewrite str_eqb_refl in Q. discriminate. }
  assert (None' : forall X q, here X q = false -> order_of X q = []). { intros X q Hq. apply here_false in Hq. unfold order_of, attr. now rewrite Hq. }
  assert (W1 : (forall p, here H p = true -> order_of H1 p = order_of H p) /\ (tidy H -> tidy H1)).
  { split.
    - intros q Hq. unfold order_of. now rewrite Old.
    - intros T q. destruct (here H1 q) eqn:Hq; [|rewrite None' by exact Hq; constructor]. rewrite Ord by exact Hq. destruct (str_eqb q tgt); [constructor|apply T]. }
  destruct W1 as (W1 & W2).
  assert (Nm : forall X, X = H1 \/ (exists l, X = set_order H1 (abs_path ps) l) -> name_of X tgt = name /\ parent_of X tgt = abs_path ps).
  { intros X HX. assert (A : attr X tgt NAME = VStr name /\ attr X tgt PARENT_PATH = VStr (abs_path ps)).
    { destruct HX as [->|(l & ->)]; [|unfold set_order; rewrite !attr_set_other_attr by discriminate]; rewrite !New by apply Ho; split; [exact V1|exact V2'|exact V1|exact V2']. }
    unfold name_of, parent_of. destruct A as (-> & ->). auto. }
  rewrite Hp1. cbn [andb]. destruct (str_in name (order_of H1 (abs_path ps))) eqn:Ei; cbn [negb].
  - split.
    + intros p Hq x. now rewrite W1.
    + intros T p Hq. rewrite W1 by exact Hq. apply filter_in_self.
    + exact W2.
    + intros q A B. destruct (Keys q A) as [F| ->]; [congruence|]. destruct (Nm H1 (or_introl eq_refl)) as (-> & ->). now apply str_in_In.
  - set (H2 := set_order H1 (abs_path ps) (merged (order_of H1 (abs_path ps)) [name])). split.
    + intros p Hq x Hx. unfold H2. rewrite order_set. rewrite <- W1 in Hx by exact Hq. destruct (here H1 (abs_path ps) && str_eqb p (abs_path ps)) eqn:Q; [|exact Hx]. apply andb_true_iff in Q as (_ & Q).
      apply str_eqb_eq in Q as ->. apply merged_in. now left.
    + intros T p Hq. unfold H2. rewrite order_set. rewrite <- W1 by exact Hq. destruct (here H1 (abs_path ps) && str_eqb p (abs_path ps)) eqn:Q; [|apply filter_in_self]. apply andb_true_iff in Q as (_ & Q).
      apply str_eqb_eq in Q as ->. apply merged_base; [now apply W2|]. repeat constructor. intros [].
    + intros T q. unfold H2. rewrite order_set. destruct (_ && _); [|now apply W2]. apply merged_nodup; [now apply W2|]. repeat constructor. intros [].
    + intros q A B. unfold H2, set_order in A. rewrite here_set_attr in A. destruct (Keys q A) as [F| ->]; [congruence|].
      match goal with |- In (name_of ?X _) _ => destruct (Nm X (or_intror (ex_intro _ _ eq_refl))) as (-> & ->) end. rewrite order_set, Hp1, str_eqb_refl. cbn [andb]. apply merged_in. right. now left.
Qed.

Section Loop.
Variables (top_real : pyval) (one : bool) (n : nat) (H0 : heap).

Lemma discover_child_grows p H to_do src : gstep n H (fst (discover_child p (H, to_do) src)).
Proof.
  unfold discover_child. set (tgt := node_namespace_to_str_path _). destruct (here H tgt); [|apply gstep_refl].
  destruct (attr H tgt INSTANCE_PATH) as [| | |[|c s]| | | |]; cbn [fst]; try apply gstep_inst. apply gstep_refl.
Qed.
Lemma discover_children_grows p srcs : forall H to_do, gstep n H (fst (fold_left (discover_child p) srcs (H, to_do))).
Proof.
  induction srcs as [|src srcs IH]; intros H to_do; cbn [fold_left]; [apply gstep_refl|]. pose proof (discover_child_grows p H to_do src) as S1.
  destruct (discover_child p (H, to_do) src) as [H1 td1]. cbn [fst] in *. eapply gstep_trans; [exact S1|apply IH].
Qed.
Lemma discover_grows H p : gstep n H (fst (discover one H p)).
Proof.
  unfold discover. destruct (possible H p) as [real|]; [|apply gstep_refl].
  set (H1 := set_attr H p INSTANCE_PATH (VStr real)). set (H2 := concern one H1 real p).
  set (H3 := if here H2 real then set_order H2 p (merged (order_of H2 p) (order_of H2 real)) else H2).
  assert (S2 : gstep n H H2) by (eapply gstep_trans; [apply gstep_inst|apply gstep_dirty]).
  assert (S3 : gstep n H H3). { unfold H3. destruct (here H2 real); [|exact S2]. eapply gstep_trans; [exact S2|]. apply gstep_merge. auto. }
  cbn zeta. fold H1. fold H2. fold H3. pose proof (discover_children_grows p (kid_paths H3 real) H3 []) as S4.
  destruct (fold_left (discover_child p) (kid_paths H3 real) (H3, [])) as [H4 td]. cbn [fst] in *. eapply gstep_trans; eauto.
Qed.
Lemma discover_all_grows ps : forall H to_do,
  gstep n H (fst (fold_left (fun acc p => let '(H, to_do) := acc in let '(H, more) := discover one H p in (H, to_do ++ more)) ps (H, to_do))).
Proof.
  induction ps as [|p ps IH]; intros H to_do; cbn [fold_left]; [apply gstep_refl|]. pose proof (discover_grows H p) as S1. destruct (discover one H p) as [H1 more]. cbn [fst] in *.
  eapply gstep_trans; [exact S1|apply IH].
Qed.
Lemma name_missing_grows H src : gstep n H (name_missing H src).
Proof. unfold name_missing. destruct (_ && _); [|apply gstep_refl]. apply gstep_merge. intros _. repeat constructor. intros []. Qed.
Lemma create_grows H ns src tgt : task H0 H (ns, src, tgt) -> gstep n H (fst (create_instance top_real one H src tgt)).
Proof.
  intros (ps & rs & nm & A1 & _ & _ & _ & _ & A6 & A7 & _). cbn [snd] in A6. unfold create_instance. cbn zeta. cbn [fst].
  match goal with |- gstep n H (concern _ ?X _ _) => assert (S : gstep n H X) end; [|eapply gstep_trans; [exact S|apply gstep_dirty]].
  set (H1 := if here H src then H else name_missing H src).
  assert (S1 : gstep n H H1) by (unfold H1; destruct (here H src); [apply gstep_refl|apply name_missing_grows]).
  assert (Hp : here H1 (abs_path ps) = true) by (unfold H1; destruct (here H src); [exact A7|now rewrite here_name_missing]).
  fold H1. destruct (here H1 tgt) eqn:E; [eapply gstep_trans; [exact S1|]; eapply gstep_trans; [apply gstep_inst|apply gstep_inst_source]|].
  assert (Ep : get_parent_path tgt = abs_path ps) by (rewrite A6; apply get_parent_path_abs; now apply names_comp). rewrite Ep. eapply gstep_trans; [exact S1|]. now apply gstep_add_proxy.
Qed.
Lemma create_all_grows rs : forall H (imps : list pystr), inv n H0 H -> (forall r, In r rs -> task H0 H r) ->
  gstep n H (fst (fold_left (fun acc r => let '(H, imps) := acc in let '(_, src, tgt) := r in
                          let '(H, i) := create_instance top_real one H src tgt in
                          (H, if i then imps ++ [tgt] else imps)) rs (H, imps))).
Proof.
  induction rs as [|[[ns src] tgt] rs IH]; intros H imps I T; cbn [fold_left]; [apply gstep_refl|]. pose proof (create_grows H ns src tgt (T _ (or_introl eq_refl))) as S1.
  destruct (create_inv n H0 top_real one H ns src tgt I (T _ (or_introl eq_refl))) as (I1 & L1 & _). cbn zeta in *. destruct (create_instance top_real one H src tgt) as [H1 i]. cbn [fst] in *.
  eapply gstep_trans; [exact S1|]. apply IH; [exact I1|]. intros r Hr. apply (task_later n H0 H H1); auto. apply T. now right.
Qed.
Theorem loop_grows fuel : forall H imps H' imps', inv n H0 H -> proxy_loop top_real one fuel H imps = Some (H', imps') -> gstep n H H'.
Proof.
  induction fuel as [|f IH]; intros H imps H' imps' I E; [discriminate|]. cbn [proxy_loop] in E.
  destruct (discover_all_inv n H0 one (deep_sort_instances H) H [] I) as (I1 & L1 & K1 & T1 & _); [intros p Hp; now apply deep_sort_in|intros ? []|]. cbn zeta in *.
  pose proof (discover_all_grows (deep_sort_instances H) H []) as S1. unfold discover_all in E. destruct (fold_left _ (deep_sort_instances H) (H, [])) as [H1 td]. cbn [fst snd] in *.
  destruct (create_all_inv n H0 top_real one td H1 [] I1 T1) as (I2 & _). cbn zeta in *. pose proof (create_all_grows td H1 [] I1 T1) as S2. unfold create_all in E.
  destruct td as [|r td].
  - cbn [fold_left fst snd] in *. injection E as <- <-. exact S1.
  - set (tl := r :: td) in *. destruct (fold_left _ tl (H1, [])) as [H2 more]. cbn [fst snd] in *. unfold tl in E. eapply gstep_trans; [exact S1|]. eapply gstep_trans; [exact S2|]. exact (IH _ _ _ _ I2 E).
Qed.
End Loop.
