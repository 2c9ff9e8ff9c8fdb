(** C52: setting a node's child order updates the composed stage. *)

From Coq Require Import String List NArith ZArith Bool Arith Lia.
From Verif Require LayerSpec LayerProofs HierarchyProofs Props_Hierarchy.
From Verif Require Import PyStr PyStrFacts NxtPath PathSpec PathProofs Dict DictFacts ListMerger SortRows Layer PyVal NodeIO PyClass
  NodeEdit Comp CompSpec MergeProofs CompProofs CompPostProofs CompTreeProofs CompStageProofs CompTotalProofs StageView StageViewProofs Props_CompCases Props_Enabled
  LiveSpec Live LiveBase Arcs ArcsProofs LiveOrderSpec LiveOrder LiveOrderProofs.
From Verif Require DirtyStageProofs.
Import ListNotations.
Local Ltac name_ok := repeat (constructor; [split; [split; [discriminate|vm_compute; intuition discriminate]|vm_compute; intuition discriminate]|]); constructor.

(** The child order a layer's node lists. *)
Definition lists (m : node) : list pystr := listed (dget CHILD_ORDER m).
Lemma lists_order m : lists m = order_in m.
Proof. unfold lists, listed, order_in, attr_or_none. now destruct (dget CHILD_ORDER m). Qed.

(** What all the theorems about layers without instances start from: the node
    edited is number [length A], at [cs], and gets the order [o]. *)
Record setting (layers : list (list layer_row)) (H : heap) (fuel : nat) (top : pyval) (one : bool) (cs : list pystr)
       (A : list layer_row) (n : node) (B : list layer_row) : Prop := {
  s_fits : well_formed layers;
  s_plain : no_instances layers;
  s_built : build_stage fuel top one layers = Built H;
  s_names : names cs;
  s_below : cs <> [];
  s_number : numbered layers = A ++ (ns_of cs, n) :: B;
  s_world : forall m, In ([[]], m) (numbered layers) -> value m NAME = VStr (lit "/") }.
(** The layers after the edit, and the stage that a new composition gives. *)
Definition recomposed (fuel : nat) (top : pyval) (one : bool) (cs : list pystr) (A : list layer_row) (n : node) (B : list layer_row)
           (o : list pystr) (layers' : list (list layer_row)) (H' : heap) : Prop :=
  numbered layers' = A ++ (ns_of cs, dset CHILD_ORDER (VStrs o) n) :: B /\ build_stage fuel top one layers' = Built H'.

(** A new composition of the edited layers succeeds. *)
Theorem C52_builds :
  forall layers H fuel top one cs A n B o layers', setting layers H fuel top one cs A n B ->
  numbered layers' = A ++ (ns_of cs, dset CHILD_ORDER (VStrs o) n) :: B ->
  exists H', recomposed fuel top one cs A n B o layers' H'.
Proof.
  intros layers H fuel top one cs A n B o layers' S E'. destruct (order_builds layers layers' fuel top one H cs A B n o (s_fits _ _ _ _ _ _ _ _ _ S) (s_plain _ _ _ _ _ _ _ _ _ S) (s_built _ _ _ _ _ _ _ _ _ S) (s_names _ _ _ _ _ _ _ _ _ S) (s_below _ _ _ _ _ _ _ _ _ S) (s_number _ _ _ _ _ _ _ _ _ S) E') as (H' & B' & _). exists H'. split; assumption.
Qed.
Print Assumptions C52_builds.

Lemma opinions_at cs layers A x B : numbered layers = A ++ (ns_of cs, x) :: B -> opinions cs layers = opinions cs [A] ++ x :: opinions cs [B].
Proof.
  intros E. rewrite <- (opinions_numbered cs layers), E. unfold opinions. cbn [concat]. rewrite !app_nil_r, filter_app, map_app. cbn [filter fst].
  destruct (list_eq_dec (list_eq_dec N.eq_dec) (ns_of cs) (ns_of cs)); [reflexivity|congruence].
Qed.
Lemma composed_else H p old new lower : incl old new -> composed_order H p old new lower = merged (fold_left merged lower new) (order_of H p).
Proof. intros I. unfold composed_order. destruct old as [|x old]; [reflexivity|]. destruct new as [|y new]; [destruct (I x (or_introl eq_refl))|reflexivity]. Qed.
Lemma stacked_skip X L : (forall x, In x X -> x = []) -> L <> [] -> stacked (X ++ L) = stacked L.
Proof.
  intros HX HL. induction X as [|x X IH]; [reflexivity|]. rewrite (HX x (or_introl eq_refl)). cbn [app]. destruct (stacked_cons [] (X ++ L)) as [->|(Q & _)]; [|destruct X; [now destruct HL|discriminate]].
  rewrite merged_nil. apply IH. intros; apply HX; now right.
Qed.
Lemma fold_skip X l : (forall x, In x X -> x = []) -> fold_left merged X l = l.
Proof. intros HX. apply fold_merged_absorb. intros x Hx. rewrite (HX x Hx). intros y []. Qed.
Lemma lists_map l : map lists l = map order_in l.
Proof. apply map_ext. intros m. apply lists_order. Qed.

Section Plain.
Variables (layers : list (list layer_row)) (H : heap) (fuel : nat) (top : pyval) (one : bool) (cs : list pystr) (A : list layer_row) (n : node) (B : list layer_row) (o : list pystr) (lower : list (list pystr)).
Hypothesis S : setting layers H fuel top one cs A n B.
Let wf := s_fits _ _ _ _ _ _ _ _ _ S. Let Ni := s_plain _ _ _ _ _ _ _ _ _ S. Let Bu := s_built _ _ _ _ _ _ _ _ _ S.
Let Hc := s_names _ _ _ _ _ _ _ _ _ S. Let Hne := s_below _ _ _ _ _ _ _ _ _ S. Let E := s_number _ _ _ _ _ _ _ _ _ S. Let W := s_world _ _ _ _ _ _ _ _ _ S.
Let Hw := with_spec H (length A) (ordered n o).
Let co := composed_order Hw (abs_path cs) (order_in n) o lower.
Let Hs := set_order Hw (abs_path cs) co.
Lemma plain_set : set_node_child_order H (length A) o lower = Some (Hs, Ok []) /\
  reads Hs cs CHILD_ORDER = Some (VStrs co) /\ nth_error (specs Hs) (length A) = Some (ordered n o) /\
  order_of Hw (abs_path cs) = stacked (map order_in (opinions cs layers)) /\
  forall layers' H', recomposed fuel top one cs A n B o layers' H' ->
    edited layers layers' H H' [CHILD_ORDER] cs A n (ordered n o) /\
    (forall es, names es -> in_stage Hs es <-> in_stage H' es) /\
    (forall es a, names es -> (es, a) <> (cs, CHILD_ORDER) -> reads Hs es a = reads H' es a) /\
    reads H' cs CHILD_ORDER = Some (VStrs (stacked (map order_in (opinions cs layers')))).
Proof.
  destruct (ones_numbered (A ++ (ns_of cs, ordered n o) :: B)) as (layers1 & E1).
  destruct (order_builds layers layers1 fuel top one H cs A B n o wf Ni Bu Hc Hne E E1) as (H1 & B1 & Ed1).
  split; [exact (set_order_live layers layers1 fuel top one H cs A B n o lower wf Ni Bu Hc E W H1 Ed1)|].
  split; [exact (proj1 (order_others layers layers1 H cs A n o lower H1 Ed1))|]. split.
  { unfold Hs, set_order, set_attr. cbn [specs with_comps]. unfold Hw. rewrite (e_specs _ _ _ _ _ _ _ _ _ Ed1).
    destruct (plain_comps layers1 fuel top one H1 (e_fits _ _ _ _ _ _ _ _ _ Ed1) (e_plain _ _ _ _ _ _ _ _ _ Ed1) B1) as (S1 & _). rewrite S1. change (nth_error (map snd (numbered layers1)) (length A) = Some (ordered n o)). rewrite E1, map_app.
    rewrite nth_error_app2 by (rewrite map_length; lia). rewrite map_length, Nat.sub_diag. reflexivity. }
  split; [exact (order_before layers layers1 fuel top one H cs A n o wf Ni Bu Hc Hne H1 Ed1)|].
  intros layers' H' (E' & B'). destruct (order_builds layers layers' fuel top one H cs A B n o wf Ni Bu Hc Hne E E') as (H2 & B2 & Ed). rewrite B' in B2. injection B2 as <-.
  split; [exact Ed|]. split; [|split].
  - intros es He. unfold in_stage. rewrite (e_here _ _ _ _ _ _ _ _ _ Ed). unfold Hs, set_order. rewrite here_set_attr. reflexivity.
  - exact (proj2 (order_others layers layers' H cs A n o lower H' Ed)).
  - exact (rebuilt_order layers layers' fuel top one H cs A n o Hc Hne H' B' Ed).
Qed.
End Plain.

(** No stronger layer lists children of the node, and the order lists every
    child that some layer lists.  Then the stage updated in place shows that
    order, and every attribute of every node reads as it does in the stage that
    a new composition gives. *)
Theorem C52_no_rebuild :
  forall layers H fuel top one cs A n B o lower, setting layers H fuel top one cs A n B ->
  (forall m, In m (opinions cs [A]) -> lists m = []) ->
  (forall m, In m (n :: opinions cs [B]) -> incl (lists m) o) -> (forall l, In l lower -> incl l o) ->
  exists Hs, set_node_child_order H (length A) o lower = Some (Hs, Ok []) /\ reads Hs cs CHILD_ORDER = Some (VStrs o) /\
    forall layers' H', recomposed fuel top one cs A n B o layers' H' ->
    forall es, names es -> (in_stage Hs es <-> in_stage H' es) /\ forall a, reads Hs es a = reads H' es a.
Proof.
  intros layers H fuel top one cs A n B o lower S Strong Weak Low. destruct (plain_set layers H fuel top one cs A n B o lower S) as (Call & Rd & _ & Ob & Re).
  assert (Eo := opinions_at cs layers A n B (s_number _ _ _ _ _ _ _ _ _ S)).
  assert (Ec : composed_order (with_spec H (length A) (ordered n o)) (abs_path cs) (order_in n) o lower = o).
  { rewrite composed_else by (rewrite <- lists_order; apply Weak; now left). rewrite Ob, (fold_merged_absorb lower o Low). apply merged_absorb. intros x Hx. apply stacked_in in Hx as (l & Hl & Hx). rewrite <- lists_map in Hl. apply in_map_iff in Hl as (m & <- & Hm).
    rewrite Eo in Hm. apply in_app_or in Hm as [Hm|Hm]; [rewrite (Strong m Hm) in Hx; destruct Hx|exact (Weak m Hm x Hx)]. }
  eexists. split; [exact Call|]. rewrite Ec in *. split; [exact Rd|]. intros layers' H' R es He. destruct (Re layers' H' R) as (Ed & Hh & Oth & Reb). split; [now apply Hh|]. intros a.
  destruct R as (E' & _). pose proof (opinions_at cs layers' A _ B E') as Eo'. rewrite Eo' in Reb. rewrite map_app in Reb. cbn [map] in Reb.
  change (dset CHILD_ORDER (VStrs o) n) with (ordered n o) in Reb. rewrite order_ordered in Reb. rewrite stacked_top in Reb.
  - destruct (list_eq_dec N.eq_dec a CHILD_ORDER) as [->|Ha]; [|apply Oth; [exact He|intros [= _ Q]; now apply Ha]].
    destruct (list_eq_dec (list_eq_dec N.eq_dec) es cs) as [->|Hes]; [now rewrite Rd, Reb|]. apply Oth; [exact He|intros [= Q]; now apply Hes].
  - intros l Hl. rewrite <- lists_map in Hl. apply in_map_iff in Hl as (m & <- & Hm). now apply Strong.
  - intros l Hl. rewrite <- lists_map in Hl. apply in_map_iff in Hl as (m & <- & Hm). apply Weak. now right.
Qed.
Print Assumptions C52_no_rebuild.

(** As before, but one weaker layer may list children that the order does not
    list, as long as every child that the node itself listed stays.  [lower] is
    what the call gathers from the layer of the node and the layers below. *)
Theorem C52_one_below :
  forall layers H fuel top one cs A n B o X m Y, setting layers H fuel top one cs A n B ->
  (forall m, In m (opinions cs [A]) -> lists m = []) -> incl (lists n) o ->
  opinions cs [B] = X ++ m :: Y -> (forall k, In k (X ++ Y) -> lists k = []) ->
  exists Hs, set_node_child_order H (length A) o (o :: map lists (opinions cs [B])) = Some (Hs, Ok []) /\
    forall layers' H', recomposed fuel top one cs A n B o layers' H' ->
    forall es, names es -> (in_stage Hs es <-> in_stage H' es) /\ forall a, reads Hs es a = reads H' es a.
Proof.
  intros layers H fuel top one cs A n B o X m Y S Strong Keep Eb Empty. set (lower := o :: map lists (opinions cs [B])). destruct (plain_set layers H fuel top one cs A n B o lower S) as (Call & Rd & _ & Ob & Re).
  assert (Eo := opinions_at cs layers A n B (s_number _ _ _ _ _ _ _ _ _ S)). rewrite lists_order in Keep.
  assert (SA : forall x, In x (map order_in (opinions cs [A])) -> x = []) by (intros x Hx; rewrite <- lists_map in Hx; apply in_map_iff in Hx as (k & <- & Hk); now apply Strong).
  assert (SX : forall x, In x (map order_in X) -> x = []) by (intros x Hx; rewrite <- lists_map in Hx; apply in_map_iff in Hx as (k & <- & Hk); apply Empty, in_or_app; now left).
  assert (SY : forall x, In x (map order_in Y) -> x = []) by (intros x Hx; rewrite <- lists_map in Hx; apply in_map_iff in Hx as (k & <- & Hk); apply Empty, in_or_app; now right).
  assert (Tail : forall a, stacked (a :: map order_in (opinions cs [B])) = merged a (order_in m)).
  { intros a. rewrite Eb, map_app. cbn [map]. destruct (stacked_cons a (map order_in X ++ order_in m :: map order_in Y)) as [Q|(Q & _)]; [|destruct (map order_in X); discriminate]. refine (eq_trans Q _). f_equal.
    refine (eq_trans (stacked_skip _ (order_in m :: map order_in Y) SX _) _); [discriminate|]. change (order_in m :: map order_in Y) with ([] ++ order_in m :: map order_in Y). apply stacked_top; [intros x []|]. intros y Hy. rewrite (SY y Hy). intros z []. }
  assert (Ec : composed_order (with_spec H (length A) (ordered n o)) (abs_path cs) (order_in n) o lower = merged o (order_in m)).
  { rewrite composed_else by exact Keep. rewrite Ob, Eo, map_app. cbn [map]. rewrite stacked_skip by (auto; discriminate). rewrite Tail. unfold lower. cbn [fold_left]. rewrite (merged_absorb o o) by apply incl_refl.
    rewrite lists_map, Eb, map_app. cbn [map]. rewrite fold_left_app. cbn [fold_left]. rewrite (fold_skip (map order_in X)) by exact SX. rewrite (fold_skip (map order_in Y)) by exact SY.
    apply merged_absorb. intros x Hx. apply merged_in in Hx as [Hx|Hx]; apply merged_in; [left; now apply Keep|now right]. }
  eexists. split; [exact Call|]. rewrite Ec in *. intros layers' H' R es He. destruct (Re layers' H' R) as (Ed & Hh & Oth & Reb). split; [now apply Hh|]. intros a.
  destruct R as (E' & _). pose proof (opinions_at cs layers' A _ B E') as Eo'. rewrite Eo' in Reb. rewrite map_app in Reb. cbn [map] in Reb.
  change (dset CHILD_ORDER (VStrs o) n) with (ordered n o) in Reb. rewrite order_ordered in Reb. rewrite stacked_skip, Tail in Reb by (auto; discriminate).
  destruct (list_eq_dec N.eq_dec a CHILD_ORDER) as [->|Ha]; [|apply Oth; [exact He|intros [= _ Q]; now apply Ha]].
  destruct (list_eq_dec (list_eq_dec N.eq_dec) es cs) as [->|Hes]; [now rewrite Rd, Reb|]. apply Oth; [exact He|intros [= Q]; now apply Hes].
Qed.
Print Assumptions C52_one_below.

(** Any number of layers that list children.  The stage updated in place lists
    the same children as a new composition, each once, those of the new order in
    its order, and everything else reads the same. *)
Theorem C52_same_names :
  forall layers H fuel top one cs A n B o lower, setting layers H fuel top one cs A n B -> plain_child_orders layers -> NoDup o ->
  incl (lists n) o -> (forall l, In l lower -> l = o \/ exists m, In m (opinions cs layers) /\ lists m = l) ->
  exists Hs l, set_node_child_order H (length A) o lower = Some (Hs, Ok []) /\ reads Hs cs CHILD_ORDER = Some (VStrs l) /\ NoDup l /\ in_the_order_of o l /\
    forall layers' H', recomposed fuel top one cs A n B o layers' H' ->
    same_names l (listed (reads H' cs CHILD_ORDER)) /\
    forall es, names es -> (in_stage Hs es <-> in_stage H' es) /\ forall a, (es, a) <> (cs, CHILD_ORDER) -> reads Hs es a = reads H' es a.
Proof.
  intros layers H fuel top one cs A n B o lower S Pl No Keep Low. destruct (plain_set layers H fuel top one cs A n B o lower S) as (Call & Rd & _ & Ob & Re).
  assert (Eo := opinions_at cs layers A n B (s_number _ _ _ _ _ _ _ _ _ S)). rewrite lists_order in Keep. rewrite composed_else in * by exact Keep. rewrite Ob in *.
  assert (Nd : forall m, In m (opinions cs layers) -> NoDup (order_in m)).
  { intros m Hm. destruct (opinion_of _ _ _ Hm) as (r & Hr & _ & <-). apply in_concat in Hr as (l & Hl & Hr). rewrite <- lists_order. exact (Pl l r Hl Hr). }
  assert (Nl : forall l, In l lower -> NoDup l). { intros l Hl. destruct (Low l Hl) as [->|(m & Hm & <-)]; [exact No|]. rewrite lists_order. now apply Nd. }
  destruct (fold_merged_keeps o lower o No Nl (order_self o)) as (N1 & K1).
  assert (N2 : NoDup (stacked (map order_in (opinions cs layers)))). { apply stacked_nodup. intros l Hl. apply in_map_iff in Hl as (m & <- & Hm). now apply Nd. }
  eexists _, _. split; [exact Call|]. split; [exact Rd|]. split; [now apply merged_nodup|]. split; [now apply merged_keeps|].
  intros layers' H' R. destruct (Re layers' H' R) as (Ed & Hh & Oth & Reb). split.
  - destruct R as (E' & _). pose proof (opinions_at cs layers' A _ B E') as Eo'. rewrite Reb. cbn [listed]. rewrite as_strs_VStrs, Eo', map_app. cbn [map]. change (dset CHILD_ORDER (VStrs o) n) with (ordered n o). rewrite order_ordered.
    assert (In' : forall x m, In m (opinions cs layers) -> In x (order_in m) -> In x (stacked (map order_in (opinions cs [A]) ++ o :: map order_in (opinions cs [B])))).
    { intros x m Hm Hx. apply stacked_in. rewrite Eo in Hm. apply in_app_or in Hm as [Hm|[<-|Hm]].
      - exists (order_in m). split; [apply in_or_app; left; now apply in_map|exact Hx].
      - exists o. split; [apply in_or_app; right; now left|now apply Keep].
      - exists (order_in m). split; [apply in_or_app; right; right; now apply in_map|exact Hx]. }
    intros x. rewrite merged_in, fold_merged_in. split.
    + intros [[Hx|(l & Hl & Hx)]|Hx].
      * apply stacked_in. exists o. split; [apply in_or_app; right; now left|exact Hx].
      * destruct (Low l Hl) as [->|(m & Hm & <-)]; [apply stacked_in; exists o; split; [apply in_or_app; right; now left|exact Hx]|]. rewrite lists_order in Hx. exact (In' x m Hm Hx).
      * apply stacked_in in Hx as (l & Hl & Hx). apply in_map_iff in Hl as (m & <- & Hm). exact (In' x m Hm Hx).
    + intros Hx. apply stacked_in in Hx as (l & Hl & Hx). apply in_app_or in Hl as [Hl|[<-|Hl]].
      * right. apply stacked_in. exists l. split; [rewrite Eo, map_app; apply in_or_app; now left|exact Hx].
      * left. now left.
      * right. apply stacked_in. exists l. split; [rewrite Eo, map_app; apply in_or_app; right; now right|exact Hx].
  - intros es He. split; [now apply Hh|]. intros a Ha. now apply Oth.
Qed.
Print Assumptions C52_same_names.

(** Taking an order away, of a node at the top or below a node of the stage:
    the stage lists the same children as a new composition.  When at most one
    layer still lists children, everything reads as after a new composition. *)
Theorem C52_taken_away :
  forall layers H fuel top one ps nm A n B lower, let cs := ps ++ [nm] in setting layers H fuel top one cs A n B -> in_stage H ps \/ ps = [] -> lists n <> [] ->
  exists Hs l, set_node_child_order H (length A) [] lower = Some (Hs, Ok []) /\ reads Hs cs CHILD_ORDER = Some (VStrs l) /\ (plain_child_orders layers -> NoDup l) /\
    forall layers' H', recomposed fuel top one cs A n B [] layers' H' ->
    same_names l (listed (reads H' cs CHILD_ORDER)) /\
    (forall es, names es -> (in_stage Hs es <-> in_stage H' es) /\ forall a, (es, a) <> (cs, CHILD_ORDER) -> reads Hs es a = reads H' es a) /\
    forall X m Y, opinions cs layers' = X ++ m :: Y -> (forall k, In k (X ++ Y) -> lists k = []) -> reads Hs cs CHILD_ORDER = reads H' cs CHILD_ORDER.
Proof.
  intros layers H fuel top one ps nm A n B lower cs S Hp Hl. destruct (plain_set layers H fuel top one cs A n B [] lower S) as (Call & Rd & _ & Ob & Re).
  rewrite lists_order in Hl.
  assert (Ec : composed_order (with_spec H (length A) (ordered n [])) (abs_path cs) (order_in n) [] lower = fold_left merged (map order_in (opinions cs [A] ++ ordered n [] :: opinions cs [B])) []).
  { destruct (ones_numbered (A ++ (ns_of cs, ordered n []) :: B)) as (layers1 & E1). destruct (C52_builds layers H fuel top one cs A n B [] layers1 S E1) as (H1 & R1). destruct (Re layers1 H1 R1) as (Ed1 & _).
    refine (eq_trans (taken_order layers layers1 fuel top one H ps nm A n lower (s_names _ _ _ _ _ _ _ _ _ S) (s_world _ _ _ _ _ _ _ _ _ S) H1 (proj2 R1) Ed1 Hp Hl) _).
    exact (f_equal (fun l => fold_left merged (map order_in l) []) (opinions_at cs layers1 A _ B E1)). }
  remember (composed_order (with_spec H (length A) (ordered n [])) (abs_path cs) (order_in n) [] lower) as co eqn:Q0. clear Q0. rename Ec into El. exists (set_order (with_spec H (length A) (ordered n [])) (abs_path cs) co), co. split; [exact Call|]. split; [exact Rd|].
  split.
  { intros Pl. rewrite El. refine (proj1 (fold_merged_keeps [] _ [] (NoDup_nil _) _ _)); [|reflexivity]. intros l Hx. apply in_map_iff in Hx as (m & <- & Hm).
    assert (Q : m = ordered n [] \/ In m (opinions cs layers)). { rewrite (opinions_at cs layers A n B (s_number _ _ _ _ _ _ _ _ _ S)). apply in_app_or in Hm as [Hm|[<-|Hm]]; [right; apply in_or_app; now left|now left|right; apply in_or_app; right; now right]. }
    destruct Q as [->|Q]; [rewrite order_ordered; constructor|]. destruct (opinion_of _ _ _ Q) as (r & Hr & _ & <-). apply in_concat in Hr as (l' & Hl' & Hr). rewrite <- lists_order. exact (Pl l' r Hl' Hr). }
  intros layers' H' R. destruct (Re layers' H' R) as (Ed & Hh & Oth & Reb). pose proof (opinions_at cs layers' A _ B (proj1 R)) as Eo'. change (dset CHILD_ORDER (VStrs []) n) with (ordered n []) in Eo'.
  pose proof (f_equal (fun l => fold_left merged (map order_in l) []) Eo') as Ef. cbv beta in Ef. pose proof (eq_trans El (eq_sym Ef)) as El'. split; [|split].
  - rewrite Reb. cbn [listed]. rewrite as_strs_VStrs. intros x. rewrite El', fold_merged_in, stacked_in. split; [intros [[]|Q]; exact Q|intros Q; now right].
  - intros es He. split; [now apply Hh|]. intros a Ha. now apply Oth.
  - intros X m Y Q Empty. rewrite Rd, Reb. do 2 f_equal. refine (eq_trans El' _). rewrite Q, map_app. cbn [map].
    assert (SX : forall x, In x (map order_in X) -> x = []) by (intros x Hx; rewrite <- lists_map in Hx; apply in_map_iff in Hx as (k & <- & Hk); apply Empty, in_or_app; now left).
    assert (SY : forall x, In x (map order_in Y) -> x = []) by (intros x Hx; rewrite <- lists_map in Hx; apply in_map_iff in Hx as (k & <- & Hk); apply Empty, in_or_app; now right).
    rewrite fold_left_app. cbn [fold_left]. rewrite (fold_skip (map order_in X)) by exact SX. rewrite merged_nil, (fold_skip (map order_in Y)) by exact SY. symmetry. apply stacked_top; [exact SX|]. intros y Hy. rewrite (SY y Hy). intros z [].
Qed.
Print Assumptions C52_taken_away.

(** Any stage, with instances or without.  The nodes whose order changes are the
    edited node's composed node and the nodes reported; all else reads as it did
    once the layer's node was set. *)
Theorem C52_reported :
  forall layers H i n o lower Hs ds, well_formed layers -> stage_of layers H -> nth_error (specs H) i = Some n ->
  set_node_child_order H i o lower = Some (Hs, Ok ds) ->
  (forall p, In p (path_of H (Sp i) :: ds) -> here H p = true) /\
  forall es a, in_stage H es -> a <> CHILD_ORDER \/ ~ In (abs_path es) (path_of H (Sp i) :: ds) ->
    reads Hs es a = reads (with_spec H i (dset CHILD_ORDER (VStrs o) n)) es a.
Proof. intros layers H i n o lower Hs ds wf St Hn Call. exact (order_reach layers H i n o lower wf St Hn Hs ds Call). Qed.
Print Assumptions C52_reported.

(** What the nodes reported get: where the old order stands in one piece among
    the node's children, the node's new composed order [co] takes its place;
    where it shares no name with them it is put behind them; where it shares
    some names only, nothing changes. *)
Theorem C52_instances :
  forall layers H i n o lower Hs ds, well_formed layers -> stage_of layers H -> nth_error (specs H) i = Some n ->
  set_node_child_order H i o lower = Some (Hs, Ok ds) ->
  exists co, (~ In (path_of H (Sp i)) ds -> forall es, abs_path es = path_of H (Sp i) -> reads Hs es CHILD_ORDER = Some (VStrs co)) /\
  forall es, In (abs_path es) ds -> abs_path es <> path_of H (Sp i) ->
  exists l v, names_below (with_spec H i (dset CHILD_ORDER (VStrs o) n)) (abs_path es) = Some l /\ reads Hs es CHILD_ORDER = Some (VStrs v) /\
    (forall b a, l = b ++ lists n ++ a -> NoDup l -> lists n <> [] -> v = b ++ co ++ a) /\
    ((forall x, In x (lists n) -> ~ In x l) -> v = l ++ co) /\
    (forall x y, In x (lists n) -> In x l -> In y (lists n) -> ~ In y l -> v = l).
Proof.
  intros layers H i n o lower Hs ds wf St Hn Call.
  assert (Nd : NoDup ds).
  { pose proof Call as C2. unfold set_node_child_order in C2. rewrite Hn in C2. cbv zeta in C2. destruct (negb _); [discriminate|]. match type of C2 with context [propagate ?x ?y ?z ?d] => destruct (propagate x y z d) as [H2 [r|e]] end; [|discriminate].
    cbn [bind] in C2. injection C2 as _ <-. destruct St as (fuel & top & one & B). exact (DirtyStageProofs.stage_nodup fuel top one layers H (path_of H (Sp i)) B). }
  destruct (order_instances layers H i n o lower wf St Hn Hs ds Call Nd) as (co & At & Rest). exists co. split; [exact At|].
  intros es He Hx. destruct (Rest es He Hx) as (l & El & Rd). exists l, (updated_order (order_in n) co l). split; [exact El|]. split; [exact Rd|]. rewrite lists_order. split; [|split].
  - intros b a -> N Ho. now apply updated_block.
  - apply updated_apart.
  - intros x y. apply updated_part.
Qed.
Print Assumptions C52_instances.

(** ** Reverting *)

Lemma missing_behind e : forall l, exists rest, Layer.add_missing l e = l ++ rest.
Proof.
  unfold Layer.add_missing. induction e as [|x e IH]; intros l; cbn [fold_left]; [exists []; now rewrite app_nil_r|]. destruct (str_in x l); [apply IH|]. destruct (IH (l ++ [x])) as (rest & ->). exists (x :: rest). now rewrite <- app_assoc.
Qed.
(** The order to go back to has each child the layer has, once, and keeps the
    composed order for those it lists. *)
Theorem C52_reverted :
  forall order target ns, LayerSpec.wf_nodes (nodes target) -> LayerSpec.all_ready same_string target -> Forall component ns -> NoDup order -> Forall component order ->
  let r := reverted_order order target (abs_path ns) in
  NoDup r /\ (forall nm, In nm r <-> component nm /\ LayerSpec.has (nodes target) (ns ++ [nm])) /\
  exists rest, r = filter (fun nm => dmem (abs_path (ns ++ [nm])) (nodes target)) order ++ rest.
Proof.
  intros order target ns wf Rdy Hns No Ho r.
  destruct (HierarchyProofs.children_dict same_string same_string target ns [] [] wf Rdy Hns) as (dct & Ed & _).
  assert (Mem : forall nm, In nm (dkeys dct) <-> component nm /\ LayerSpec.has (nodes target) (ns ++ [nm])).
  { intros nm. split.
    - intros Hk. apply dget_some_key in Hk as (c & Hc). destruct (HierarchyProofs.children_dict same_string same_string target ns nm c wf Rdy Hns) as (dct' & Ed' & X). rewrite Ed in Ed'. injection Ed' as <-. apply X in Hc as (A & _ & B). auto.
    - intros (A & B). destruct (HierarchyProofs.children_dict same_string same_string target ns nm (LayerSpec.child ns nm) wf Rdy Hns) as (dct' & Ed' & X). rewrite Ed in Ed'. injection Ed' as <-. apply dget_some_key. exists (LayerSpec.child ns nm). apply X. auto. }
  assert (Ef : filter (fun nm => dmem (join_node_paths (abs_path ns) nm) (nodes target)) order = filter (fun nm => dmem (abs_path (ns ++ [nm])) (nodes target)) order).
  { clear - Ho Hns. induction Ho as [|x l Hx Hl IH]; [reflexivity|]. cbn [filter]. rewrite IH. assert (join_node_paths (abs_path ns) x = abs_path (ns ++ [x])) as ->; [|reflexivity]. apply join_node_paths_abs. apply Forall_app. split; [exact Hns|]. now constructor. }
  assert (Er : r = Layer.add_missing (filter (fun nm => dmem (abs_path (ns ++ [nm])) (nodes target)) order) (dkeys dct)).
  { unfold r, reverted_order. rewrite Ed, Ef. reflexivity. }
  split; [|split].
  - rewrite Er. apply LayerProofs.add_missing_nodup. now apply NoDup_filter.
  - intros nm. rewrite Er, LayerProofs.add_missing_in, Mem, filter_In. unfold LayerSpec.has. rewrite Forall_forall in Ho. split; [intros [(A & B)|Q]|intros Q; now right]; [|exact Q]. split; [now apply Ho|]. now apply dmem_In.
  - rewrite Er. apply missing_behind.
Qed.
Print Assumptions C52_reverted.
Definition kid_table : layer :=
  {| nodes := [(lit "/", {| n_name := lit "/"; n_parent := []; n_order := []; n_enabled := None; n_exec_in := None |});
               (lit "/p", {| n_name := lit "p"; n_parent := lit "/"; n_order := []; n_enabled := None; n_exec_in := None |});
               (lit "/p/x", {| n_name := lit "x"; n_parent := lit "/p"; n_order := []; n_enabled := None; n_exec_in := None |});
               (lit "/p/y", {| n_name := lit "y"; n_parent := lit "/p"; n_order := []; n_enabled := None; n_exec_in := None |})]; kids := []; implied := [] |}.
(** z is a child in another layer only; x is not listed. *)
Example C52_reverted_ex : LayerSpec.wf_nodes (nodes kid_table) /\ LayerSpec.all_ready same_string kid_table /\
  reverted_order [lit "z"; lit "y"] kid_table (lit "/p") = [lit "y"; lit "x"].
Proof.
  split; [|split; [|vm_compute; reflexivity]].
  - split; [vm_compute; repeat (constructor; [intros Q; repeat destruct Q as [Q|Q]; try discriminate Q; destruct Q|]); constructor|].
    intros k m Hk. destruct Hk as [Hk|[Hk|[Hk|[Hk|[]]]]]; injection Hk as <- <-; [left; split; reflexivity|right; exists [], (lit "p")|right; exists [lit "p"], (lit "x")|right; exists [lit "p"], (lit "y")]; (split; [repeat (constructor; [split; [discriminate|vm_compute; intuition discriminate]|]); constructor|repeat split; reflexivity]).
  - exact (Props_Hierarchy.C18_fresh_layers_ready kid_table).
Qed.

(** ** Stages *)

Local Open Scope string_scope.
Local Open Scope list_scope.

Definition co (l : list string) : dict pyval := [(lit "child_order", VStrs (map lit l))].
Definition reordered (r : layer_row) (o : list string) : layer_row := (fst r, dset CHILD_ORDER (VStrs (map lit o)) (snd r)).
(** An edit: the row [r] of the layers, with [A] before and [B] behind it in the
    order of the numbers, gets the order [o]; [lower] is what the call gathers
    from the layers that are not muted; [Hs] is the stage updated in place and
    [ds] what the call returns. *)
Definition lower_of (r : layer_row) (o : list string) (B : list layer_row) : list (list pystr) :=
  map lit o :: map (fun x => lists (snd x)) (filter (fun x => if list_eq_dec (list_eq_dec N.eq_dec) (fst x) (fst r) then true else false) B).
Definition edit (layers layers' : list (list layer_row)) (A : list layer_row) (r : layer_row) (B : list layer_row)
           (o : list string) (Hs : heap) (ds : list pystr) : Prop :=
  well_formed layers /\ stage_of layers (built layers) /\ stage_of layers' (built layers') /\
  numbered layers = A ++ r :: B /\ numbered layers' = A ++ reordered r o :: B /\
  set_node_child_order (built layers) (length A) (map lit o) (lower_of r o B) = Some (Hs, Ok ds).
Definition after (layers : list (list layer_row)) (i : nat) (o : list string) (lower : list (list pystr)) : heap :=
  match set_node_child_order (built layers) i (map lit o) lower with Some (H, _) => H | None => built layers end.
Definition shown (H : heap) (cs : list pystr) : list pystr := listed (reads H cs CHILD_ORDER).
Local Ltac stages := split; [exists 9, (VStr (lit "top")), false; vm_compute; reflexivity|]; split; [exists 9, (VStr (lit "top")), false; vm_compute; reflexivity|];
  split; [vm_compute; reflexivity|]; split; [vm_compute; reflexivity|]; vm_compute; reflexivity.
Local Ltac fit := repeat match goal with H : In _ [] |- _ => destruct H | H : In _ (_ :: _) |- _ => destruct H as [<-|H] end;
  first [apply world_fits|apply row_fits; [name_ok|left; reflexivity|reflexivity]].

(** Two layers; s has c in the upper one and d in the lower one. *)
Definition up_s := row "top" [] "s" (co ["c"]).
Definition ordered_two (r : layer_row) : list (list layer_row) :=
  [[world_row "top"; r; row "top" [s_] "c" []]; [world_row "low"; row "low" [] "s" (co ["d"]); row "low" [s_] "d" []]].
Definition two_before := [world_row "top"].
Definition two_behind := [row "top" [s_] "c" []; world_row "low"; row "low" [] "s" (co ["d"]); row "low" [s_] "d" []].
Lemma no_instances_rows layers : forallb (fun l => forallb (fun r => match value (snd r) INSTANCE_PATH with VNone => true | _ => false end) l) layers = true -> no_instances layers.
Proof.
  intros F cs rs _ _ _ (n & (st & wk & E & _) & V). assert (Hn : In n (opinions cs layers)) by (rewrite E; apply in_or_app; right; now left).
  destruct (opinion_of _ _ _ Hn) as (r & Hr & _ & <-). apply in_concat in Hr as (l & Hl & Hr). rewrite forallb_forall in F. specialize (F l Hl). rewrite forallb_forall in F. specialize (F r Hr).
  pose proof (eq_ind _ (fun v => match v with VNone => true | _ => false end = true) F _ V) as Q. discriminate Q.
Qed.
Lemma two_setting : setting (ordered_two up_s) (built (ordered_two up_s)) 9 (VStr (lit "top")) false [s_] two_before (snd up_s) two_behind.
Proof.
  split.
  - intros l r Hl Hr. destruct Hl as [<-|[<-|[]]]; fit.
  - apply no_instances_rows. vm_compute. reflexivity.
  - vm_compute. reflexivity.
  - name_ok.
  - discriminate.
  - vm_compute. reflexivity.
  - intros m Hm. apply numbered_in in Hm as (l & Hl & Hm). destruct Hl as [<-|[<-|[]]]; repeat (destruct Hm as [Hm|Hm]; [first [discriminate Hm|injection Hm as <-; vm_compute; reflexivity]|]); destruct Hm.
Qed.
Example C52_no_rebuild_ex : setting (ordered_two up_s) (built (ordered_two up_s)) 9 (VStr (lit "top")) false [s_] two_before (snd up_s) two_behind /\
  (forall m, In m (opinions [s_] [two_before]) -> lists m = []) /\
  (forall m, In m (snd up_s :: opinions [s_] [two_behind]) -> incl (lists m) [d_; c_]) /\
  shown (built (ordered_two up_s)) [s_] = [c_; d_] /\
  shown (after (ordered_two up_s) 1 ["d"; "c"] (lower_of up_s ["d"; "c"] two_behind)) [s_] = [d_; c_] /\
  shown (built (ordered_two (reordered up_s ["d"; "c"]))) [s_] = [d_; c_].
Proof.
  split; [exact two_setting|]. split; [intros m []|]. split; [|repeat split; vm_compute; reflexivity].
  intros m [<-|[<-|[]]] x Hx; vm_compute in Hx; destruct Hx as [<-|[]]; [right; now left|now left].
Qed.
(** b is not listed by the lower layer, and goes before d. *)
Example C52_one_below_ex : incl (lists (snd up_s)) [lit "b"; c_] /\ map lists (opinions [s_] [two_behind]) = [[d_]] /\
  lower_of up_s ["b"; "c"] two_behind = [lit "b"; c_] :: map lists (opinions [s_] [two_behind]) /\
  shown (after (ordered_two up_s) 1 ["b"; "c"] (lower_of up_s ["b"; "c"] two_behind)) [s_] = [lit "b"; c_; d_].
Proof. split; [intros x Hx; vm_compute in Hx; destruct Hx as [<-|[]]; right; now left|]. repeat split; vm_compute; reflexivity. Qed.
Example C52_same_names_ex : plain_child_orders (ordered_two up_s) /\ NoDup [lit "b"; c_] /\
  (forall l, In l (lower_of up_s ["b"; "c"] two_behind) -> l = [lit "b"; c_] \/ exists m, In m (opinions [s_] (ordered_two up_s)) /\ lists m = l).
Proof.
  split; [|split].
  - intros l r Hl Hr. destruct Hl as [<-|[<-|[]]]; repeat (destruct Hr as [<-|Hr]; [vm_compute; repeat (constructor; [intros Q; repeat destruct Q as [Q|Q]; try discriminate Q; destruct Q|]); constructor|]); destruct Hr.
  - repeat (constructor; [intros Q; repeat destruct Q as [Q|Q]; try discriminate Q; destruct Q|]); constructor.
  - intros l [<-|[<-|[]]]; [now left|right]. exists (snd (row "low" [] "s" (co ["d"]))). split; [right; now left|vm_compute; reflexivity].
Qed.
(** Taken away, the lower layer's order is left. *)
Example C52_taken_away_ex : lists (snd up_s) <> [] /\
  shown (after (ordered_two up_s) 1 [] (lower_of up_s [] two_behind)) [s_] = [d_] /\ shown (built (ordered_two (reordered up_s []))) [s_] = [d_].
Proof. split; [vm_compute; discriminate|]. split; vm_compute; reflexivity. Qed.

(** An instance t of s, which adds a child of its own behind those of s. *)
Definition src_s := row "top" [] "s" (co ["c"; "d"]).
Definition with_instance (r : layer_row) : list (list layer_row) :=
  [[world_row "top"; r; row "top" [] "t" (instance "/s" ++ co ["c"; "d"; "e"]); row "top" [s_] "c" []; row "top" [s_] "d" []; row "top" [t_] "e" []]].
Example C52_instances_ex : well_formed (with_instance src_s) /\ stage_of (with_instance src_s) (built (with_instance src_s)) /\
  nth_error (specs (built (with_instance src_s))) 1 = Some (snd src_s) /\
  (exists Hs, set_node_child_order (built (with_instance src_s)) 1 [d_; c_] [[d_; c_]] = Some (Hs, Ok [lit "/t"]) /\
     shown Hs [s_] = [d_; c_] /\ shown Hs [t_] = [d_; c_; lit "e"]).
Proof.
  split; [|split; [exists 9, (VStr (lit "top")), false; vm_compute; reflexivity|split; [vm_compute; reflexivity|]]].
  - intros l r [<-|[]] Hr. repeat (destruct Hr as [<-|Hr]; [first [apply world_fits|apply row_fits; [name_ok|left; reflexivity|reflexivity]|apply row_fits; [name_ok|right; exists [s_]; split; [name_ok|reflexivity]|reflexivity]]|]). destruct Hr.
  - exists (after (with_instance src_s) 1 ["d"; "c"] [[d_; c_]]). split; [vm_compute; reflexivity|split; vm_compute; reflexivity].
Qed.

(** ** Where more would be false *)

(** Three layers that list children: merging from the strongest down is not
    merging from the weakest up.  The order shown changes even when the order
    set is the one the layer had. *)
Definition top_a := row "top" [] "s" (co ["a"]).
Definition mid_b := row "mid" [] "s" (co ["b"]).
Definition low_a := row "low" [] "s" (co ["a"]).
Theorem C52_three_layers_refuted : exists Hs,
  edit [[top_a]; [mid_b]; [low_a]] [[reordered top_a ["a"]]; [mid_b]; [low_a]] [] top_a [mid_b; low_a] ["a"] Hs [] /\
  lists (snd top_a) = map lit ["a"] /\
  shown (built [[top_a]; [mid_b]; [low_a]]) [s_] <> shown Hs [s_] /\
  shown (built [[reordered top_a ["a"]]; [mid_b]; [low_a]]) [s_] <> shown Hs [s_].
Proof.
  exists (after [[top_a]; [mid_b]; [low_a]] 0 ["a"] (lower_of top_a ["a"] [mid_b; low_a])). split; [split; [|stages]|split; [vm_compute; reflexivity|split; vm_compute; discriminate]].
  intros l r Hl Hr. destruct Hl as [<-|[<-|[<-|[]]]]; fit.
Qed.
Print Assumptions C52_three_layers_refuted.

(** A name taken out of an order is shown until the next composition. *)
Definition one_ab := row "top" [] "s" (co ["a"; "b"]).
Theorem C52_name_removed_refuted : exists Hs,
  edit [[one_ab]] [[reordered one_ab ["a"]]] [] one_ab [] ["a"] Hs [] /\
  shown Hs [s_] = [lit "a"; lit "b"] /\ shown (built [[reordered one_ab ["a"]]]) [s_] = [lit "a"].
Proof.
  exists (after [[one_ab]] 0 ["a"] (lower_of one_ab ["a"] [])). split; [split; [|stages]|split; vm_compute; reflexivity].
  intros l r Hl Hr. destruct Hl as [<-|[]]; fit.
Qed.
Print Assumptions C52_name_removed_refuted.

(** The order set on a weaker layer is shown although a stronger layer has
    another. *)
Definition low_ba := row "low" [] "s" [].
Theorem C52_stronger_layer_refuted : exists Hs,
  edit [[one_ab]; [low_ba]] [[one_ab]; [reordered low_ba ["b"; "a"]]] [one_ab] low_ba [] ["b"; "a"] Hs [] /\
  shown Hs [s_] = [lit "b"; lit "a"] /\ shown (built [[one_ab]; [reordered low_ba ["b"; "a"]]]) [s_] = [lit "a"; lit "b"].
Proof.
  exists (after [[one_ab]; [low_ba]] 1 ["b"; "a"] (lower_of low_ba ["b"; "a"] [])). split; [split; [|stages]|split; vm_compute; reflexivity].
  intros l r Hl Hr. destruct Hl as [<-|[<-|[]]]; fit.
Qed.
Print Assumptions C52_stronger_layer_refuted.

(** The call gathers the orders of muted layers too: a muted layer below that
    lists z brings z into the order shown. *)
Theorem C52_muted_layer_refuted : exists Hs,
  well_formed [[one_ab]] /\ stage_of [[one_ab]] (built [[one_ab]]) /\
  set_node_child_order (built [[one_ab]]) 0 (map lit ["b"; "a"]) (map lit ["b"; "a"] :: [[lit "z"]]) = Some (Hs, Ok []) /\
  shown Hs [s_] = [lit "b"; lit "a"; lit "z"] /\ shown (built [[reordered one_ab ["b"; "a"]]]) [s_] = [lit "b"; lit "a"].
Proof.
  exists (after [[one_ab]] 0 ["b"; "a"] (map lit ["b"; "a"] :: [[lit "z"]])). split; [intros l r Hl Hr; destruct Hl as [<-|[]]; fit|].
  split; [exists 9, (VStr (lit "top")), false; vm_compute; reflexivity|]. split; [vm_compute; reflexivity|split; vm_compute; reflexivity].
Qed.
Print Assumptions C52_muted_layer_refuted.

(** An instance that lists the source's children in an order of its own: what
    is added to the source is listed twice; and a child between those of the
    source loses its place. *)
Definition src_row (o : list string) : layer_row := row "top" [] "s" (co o).
Definition inst_row (o : list string) : layer_row := row "top" [] "t" (instance "/s" ++ co o).
Definition kid (p nm : string) : layer_row := row "top" [lit p] nm [].
Definition family (o i : list string) (extra : list layer_row) : list (list layer_row) := [[src_row o; inst_row i; kid "s" "a"; kid "s" "b"] ++ extra].
Local Ltac fit_inst := repeat match goal with H : In _ [] |- _ => destruct H | H : In _ (_ :: _) |- _ => destruct H as [<-|H] end;
  first [apply row_fits; [name_ok|left; reflexivity|reflexivity]|apply row_fits; [name_ok|right; exists [s_]; split; [name_ok|reflexivity]|reflexivity]].
Theorem C52_instance_twice_refuted : exists Hs,
  edit (family ["a"; "b"] ["a"; "b"; "c"] [kid "s" "c"]) [[reordered (src_row ["a"; "b"]) ["a"; "b"; "c"]; inst_row ["a"; "b"; "c"]; kid "s" "a"; kid "s" "b"; kid "s" "c"]]
    [] (src_row ["a"; "b"]) [inst_row ["a"; "b"; "c"]; kid "s" "a"; kid "s" "b"; kid "s" "c"] ["a"; "b"; "c"] Hs [lit "/t"] /\
  shown Hs [t_] = map lit ["a"; "b"; "c"; "c"].
Proof.
  exists (after (family ["a"; "b"] ["a"; "b"; "c"] [kid "s" "c"]) 0 ["a"; "b"; "c"] (lower_of (src_row ["a"; "b"]) ["a"; "b"; "c"] [inst_row ["a"; "b"; "c"]; kid "s" "a"; kid "s" "b"; kid "s" "c"])).
  split; [split; [|stages]|vm_compute; reflexivity]. intros l r Hl Hr. destruct Hl as [<-|[]]. unfold family in Hr. cbn [app] in Hr. fit_inst.
Qed.
Print Assumptions C52_instance_twice_refuted.
Theorem C52_instance_own_child_refuted : exists Hs,
  edit (family ["a"; "b"] ["a"; "x"; "b"] [kid "t" "x"]) [[reordered (src_row ["a"; "b"]) ["b"; "a"]; inst_row ["a"; "x"; "b"]; kid "s" "a"; kid "s" "b"; kid "t" "x"]]
    [] (src_row ["a"; "b"]) [inst_row ["a"; "x"; "b"]; kid "s" "a"; kid "s" "b"; kid "t" "x"] ["b"; "a"] Hs [lit "/t"] /\
  shown Hs [t_] = map lit ["b"; "a"] /\ in_stage Hs [t_; lit "x"] /\
  In (lit "x") (shown (built [[reordered (src_row ["a"; "b"]) ["b"; "a"]; inst_row ["a"; "x"; "b"]; kid "s" "a"; kid "s" "b"; kid "t" "x"]]) [t_]).
Proof.
  exists (after (family ["a"; "b"] ["a"; "x"; "b"] [kid "t" "x"]) 0 ["b"; "a"] (lower_of (src_row ["a"; "b"]) ["b"; "a"] [inst_row ["a"; "x"; "b"]; kid "s" "a"; kid "s" "b"; kid "t" "x"])).
  split; [split; [|stages]|split; [vm_compute; reflexivity|split; [vm_compute; reflexivity|]]]; [|vm_compute; tauto]. intros l r Hl Hr. destruct Hl as [<-|[]]. unfold family in Hr. cbn [app] in Hr. fit_inst.
Qed.
Print Assumptions C52_instance_own_child_refuted.

(** Below a gap: taking the order of a/b/c away shows the children that its
    ancestor a lists. *)
Definition gap_a := row "top" [] "a" (co ["x"]).
Definition gap_c := row "top" [lit "a"; lit "b"] "c" (co ["d"]).
Theorem C52_gap_refuted : exists Hs,
  edit [[world_row "top"; gap_a; gap_c]] [[world_row "top"; gap_a; reordered gap_c []]] [world_row "top"; gap_a] gap_c [] [] Hs [] /\
  shown Hs [lit "a"; lit "b"; lit "c"] = [lit "x"] /\ shown (built [[world_row "top"; gap_a; reordered gap_c []]]) [lit "a"; lit "b"; lit "c"] = [].
Proof.
  exists (after [[world_row "top"; gap_a; gap_c]] 2 [] (lower_of gap_c [] [])). split; [split; [|stages]|split; vm_compute; reflexivity].
  intros l r Hl Hr. destruct Hl as [<-|[]]; fit.
Qed.
Print Assumptions C52_gap_refuted.
