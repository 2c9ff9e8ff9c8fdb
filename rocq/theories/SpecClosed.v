(** Stage.parent_nodes on lists of nodes, in layers without gaps. *)

From Coq Require Import String List NArith Bool Arith Lia Permutation.
From Verif Require Import PyStr PyStrFacts NxtPath PathSpec PathProofs Dict DictFacts ListMerger
  MergeProofs Layer LayerSpec LayerProofs DescProofs ChildCacheProofs HierarchyProofs SortRows SortProofs PyVal
  Names NamesSpec NamesProofs SpecOps SpecOpsSpec SpecBase SpecMove SpecParent.
Import ListNotations.

(** *** Closed layers *)

Lemma closed_vacant L w : closed L -> Forall plain w -> w <> [] -> ~ holds L w -> vacant L w.
Proof.
  intros Hc Hw Hne Hn r. induction r as [|x r IH] using rev_ind; intros Hr.
  - rewrite app_nil_r. destruct (lookup L (abs_path w)) as [k|] eqn:E; [|reflexivity].
    exfalso. apply Hn. now exists k.
  - destruct (lookup L (abs_path (w ++ r ++ [x]))) as [k|] eqn:E; [|reflexivity]. exfalso.
    rewrite app_assoc in E. destruct (Hc (w ++ r) x) as [H|(j & Ej)].
    + rewrite <- app_assoc. apply Forall_app. auto.
    + now exists k.
    + apply app_eq_nil in H. tauto.
    + rewrite IH in Ej; [discriminate|]. exact (Forall_app_l _ _ _ Hr).
Qed.

(** A move to under a node that stays keeps the layer closed. *)
Lemma moved_closed L L' o par nm :
  moved o (par ++ [nm]) L L' -> closed L -> Forall plain o -> o <> [] -> Forall plain (par ++ [nm]) ->
  vacant L (par ++ [nm]) -> par = [] \/ holds L par -> ~ (exists r, par = o ++ r) ->
  closed L' /\ (par = [] \/ holds L' par) /\ lookup L' (abs_path par) = lookup L (abs_path par).
Proof.
  intros HM Hc Ho Hone Hw Hv Hpar Hno.
  assert (Hp : Forall plain par) by exact (Forall_app_l _ _ _ Hw).
  assert (Hnw : ~ exists r, par = (par ++ [nm]) ++ r).
  { intros (r & E). rewrite <- app_assoc in E. rewrite <- (app_nil_r par) in E at 1.
    apply app_inv_head in E. discriminate. }
  assert (Ep : lookup L' (abs_path par) = lookup L (abs_path par)) by (apply (m_rest _ _ _ _ HM); assumption).
  split; [|split; [|exact Ep]].
  2:{ destruct Hpar as [->|(k & E)]; [now left|right]. exists k. congruence. }
  intros ms x Hms (k & Ek).
  assert (Hms' : Forall plain ms) by exact (Forall_app_l _ _ _ Hms).
  destruct (prefix_dec (par ++ [nm]) (ms ++ [x])) as [(r & Er)|Hr].
  - destruct r as [|y r _] using rev_ind.
    + rewrite app_nil_r in Er. apply app_inj_tail in Er as [-> ->].
      destruct Hpar as [->|(j & E)]; [now left|right]. exists j. congruence.
    + rewrite app_assoc in Er. apply app_inj_tail in Er as [-> ->]. right.
      rewrite <- app_assoc in Hms, Ek.
      assert (Hr : Forall plain (r ++ [y])) by exact (Forall_app_r _ _ _ Hms).
      rewrite (m_there _ _ _ _ HM _ Hr) in Ek. rewrite app_assoc in Ek.
      destruct (Hc (o ++ r) y) as [H|(j & Ej)].
      * rewrite <- app_assoc. apply Forall_app. auto.
      * now exists k.
      * apply app_eq_nil in H. tauto.
      * exists j. rewrite (m_there _ _ _ _ HM) by exact (Forall_app_l _ _ _ Hr). exact Ej.
  - destruct (prefix_dec o (ms ++ [x])) as [(s & Es)|Hs].
    + exfalso. rewrite Es in Ek, Hr. rewrite (m_gone _ _ _ _ HM) in Ek; [discriminate| |exact Hr].
      rewrite Es in Hms. exact (Forall_app_r _ _ _ Hms).
    + rewrite (m_rest _ _ _ _ HM) in Ek by assumption.
      destruct (Hc ms x Hms) as [->|(j & Ej)]; [now exists k|now left|right]. exists j.
      rewrite (m_rest _ _ _ _ HM); [exact Ej|exact Hms'| |].
      * intros (r & ->). apply Hr. exists (r ++ [x]). now rewrite app_assoc.
      * intros (r & ->). apply Hs. exists (r ++ [x]). now rewrite app_assoc.
Qed.

(** *** Where the nodes are after a move *)

Lemma moved_path L L' o w k p :
  books L -> books L' -> moved o w L L' -> Forall plain o -> Forall plain w -> vacant L w ->
  path_of L k = Some p ->
  (exists r, Forall plain r /\ p = abs_path (o ++ r) /\ path_of L' k = Some (abs_path (w ++ r))) \/
  (exists ms, Forall plain ms /\ p = abs_path ms /\ ~ (exists r, ms = o ++ r) /\ ~ (exists r, ms = w ++ r) /\
              path_of L' k = Some p).
Proof.
  intros HB HB' HM Ho Hw Hv Ek. apply (b_inverse L HB) in Ek.
  destruct (books_proper L p k HB Ek) as (ms & Hms & ->).
  destruct (prefix_dec o ms) as [(r & ->)|Hn].
  - left. exists r. assert (Hr : Forall plain r) by exact (Forall_app_r _ _ _ Hms).
    split; [exact Hr|]. split; [reflexivity|]. apply (b_inverse L' HB').
    now rewrite (m_there _ _ _ _ HM).
  - right. exists ms. split; [exact Hms|]. split; [reflexivity|]. split; [exact Hn|].
    assert (Hnw : ~ exists r, ms = w ++ r).
    { intros (r & ->). rewrite (Hv r) in Ek by exact (Forall_app_r _ _ _ Hms). discriminate. }
    split; [exact Hnw|]. apply (b_inverse L' HB'). now rewrite (m_rest _ _ _ _ HM).
Qed.

(** *** The unique name *)

Section Closed.
Variables (ud uw : N -> bool) (extra : slayer -> list pystr).

Lemma unique_name_free L name par :
  name <> Some [] -> Forall plain par -> composed L ->
  exists nm, unique_name ud uw extra L name (abs_path par) = Some (Ok nm) /\
    legal (isdigit ud) (is_word uw) nm /\ Forall plain (par ++ [nm]) /\ ~ holds L (par ++ [nm]) /\
    ~ In (abs_path (par ++ [nm])) (extra L) /\
    (~ holds L (par ++ [preferred (isdigit ud) (is_word uw) name]) ->
     ~ In (abs_path (par ++ [preferred (isdigit ud) (is_word uw) name])) (extra L) ->
     nm = preferred (isdigit ud) (is_word uw) name).
Proof.
  intros Hn Hp [Hm Hh].
  destruct (unique_node_name ud uw (stage_paths extra L) (S (length (stage_paths extra L))) name par)
    as (nm & E & Hl & _ & Hfree & Hpref & _); [exact Hn|now apply plain_component|lia|].
  assert (H : forall x, holds L (par ++ [x]) -> In (abs_path (par ++ [x])) (dkeys (by_path L))).
  { intros x (k & Ek). apply dget_some_key. now exists k. }
  assert (H' : forall x, In (abs_path (par ++ [x])) (dkeys (by_path L)) -> holds L (par ++ [x])).
  { intros x Hx. apply dget_some_key in Hx as (k & Ek). now exists k. }
  unfold stage_paths in Hfree, Hpref. rewrite Hm, Hh in Hfree, Hpref. cbn [orb] in Hfree, Hpref.
  rewrite in_app_iff in Hfree, Hpref.
  exists nm. split; [exact E|]. split; [exact Hl|]. split.
  { apply Forall_app. split; [exact Hp|]. constructor; [|constructor]. exact (legal_plain ud uw nm Hl). }
  split; [intros Hx; apply Hfree; left; now apply H|].
  split; [tauto|]. intros H1 H2. apply Hpref. intros [Hx|Hx]; auto.
Qed.

(** *** Lists of nodes *)

Lemma reordered_composed L L' : reordered L L' -> composed L -> composed L'.
Proof. intros R [H1 H2]. split; [rewrite (r_muted _ _ R)|rewrite (r_hidden _ _ R)]; assumption. Qed.

Lemma reordered_holds L L' ns : reordered L L' -> (holds L' ns <-> holds L ns).
Proof. intros R. unfold holds. now setoid_rewrite (reordered_lookup L L' _ R). Qed.

Definition data_kept (L L' : slayer) : Prop :=
  forall k, match obj L k with
            | None => obj L' k = None
            | Some m => exists m', obj L' k = Some m' /\ kept m m'
            end.

Lemma data_kept_trans A B C : data_kept A B -> data_kept B C -> data_kept A C.
Proof.
  intros H K k. specialize (H k). specialize (K k). destruct (obj A k) as [m|].
  - destruct H as (m1 & E1 & H1a & H1b). rewrite E1 in K. destruct K as (m2 & E2 & H2a & H2b).
    exists m2. split; [exact E2|]. split; congruence.
  - rewrite H in K. exact K.
Qed.

Lemma moved_objs_kept i nm h L L' : moved_objs i nm h L L' -> data_kept L L'.
Proof.
  intros H k. specialize (H k). destruct (obj L k) as [m|]; [|exact H].
  destruct H as (p & E). eexists. split; [exact E|]. destruct (Nat.eqb k i); split; reflexivity.
Qed.

(** One node, uniquely named. *)
Lemma parent_one_closed L i o par :
  books L -> closed L -> composed L -> par = [] \/ holds L par -> Forall plain par ->
  path_of L i = Some (abs_path o) -> Forall plain o -> o <> [] -> ~ (exists r, par = o ++ r) ->
  exists L' h n nm,
    obj L i = Some n /\ legal (isdigit ud) (is_word uw) nm /\ Forall plain (par ++ [nm]) /\
    vacant L (par ++ [nm]) /\ chosen ud uw extra true L n o par nm /\
    parent_one ud uw extra true (abs_path par) L i = (L', Done (abs_path o)) /\
    books L' /\ moved o (par ++ [nm]) L L' /\ moved_objs i nm h L L' /\
    (forall k l, exists l1, leaves L o k l l1 /\ joins L par nm k l1 (h k l)) /\
    same_flags L L' /\ moved_keys (abs_path o) (abs_path (par ++ [nm])) L L' /\
    closed L' /\ (par = [] \/ holds L' par) /\ lookup L' (abs_path par) = lookup L (abs_path par).
Proof.
  intros HB Hc Hcomp Hpar Hp Hpo Ho Hone Hno.
  assert (Hl : lookup L (abs_path o) = Some i) by now apply (b_inverse L HB).
  destruct (b_spells L HB _ _ Hl) as (n & En & Hs).
  destruct (exists_last Hone) as (po & nm0 & Eo).
  rewrite Eo in Hs. apply spells_snoc in Hs as [Hspar Hsnm]; [|now rewrite <- Eo].
  assert (Ho' : Forall plain (po ++ [nm0])) by now rewrite <- Eo.
  destruct (leave_parent_reorders L po nm0 Ho') as (g & [Rg _] & _).
  set (L1 := leave_parent L (abs_path (po ++ [nm0])) (abs_path po) nm0) in *.
  destruct (unique_name_free L1 (Some nm0) par) as (nm & EU & Hleg & Hw & Hfree & _).
  { intros E. injection E as ->. apply Forall_app_r in Ho'. inversion Ho' as [|? ? [[H _] _] _]. congruence. }
  { exact Hp. }
  { exact (reordered_composed L L1 Rg Hcomp). }
  assert (Hnh : ~ holds L (par ++ [nm])).
  { intros H. apply Hfree. now apply (reordered_holds L L1 _ Rg). }
  assert (Hv : vacant L (par ++ [nm])).
  { apply closed_vacant; [exact Hc|exact Hw|now destruct par|exact Hnh]. }
  assert (Hch : chosen ud uw extra true L n o par nm).
  { unfold chosen. rewrite Hspar, Hsnm, Eo. exact EU. }
  destruct (parent_one_spec ud uw extra L i o n par nm true HB Hpo Ho Hone En Hw Hch Hv)
    as (L' & h & E & HB' & HM & HO & Hh & Hf & Hk).
  destruct (moved_closed L L' o par nm HM Hc Ho Hone Hw Hv Hpar Hno) as (Hc' & Hpar' & Ep).
  exists L', h, n, nm. repeat (split; [assumption|]). assumption.
Qed.

Lemma keeps_place_trans A B C k : keeps_place A B k -> keeps_place B C k -> keeps_place A C k.
Proof.
  intros H K ns nm Hp E. destruct (H ns nm Hp E) as (ns1 & Hp1 & E1 & R1 & P1).
  destruct (K ns1 nm Hp1 E1) as (ns2 & Hp2 & E2 & R2 & P2).
  exists ns2. split; [exact Hp2|]. split; [exact E2|]. split; [tauto|].
  intros Hne. destruct (P1 Hne) as (j & Ej & Ej1). destruct P2 as (j' & Ej' & Ej2); [tauto|].
  exists j. split; [exact Ej|]. congruence.
Qed.

Lemma moved_keeps_place L L' o w i k :
  books L -> books L' -> closed L -> moved o w L L' -> Forall plain o -> Forall plain w -> w <> [] -> o <> [] ->
  vacant L w -> path_of L i = Some (abs_path o) -> k <> i -> keeps_place L L' k.
Proof.
  intros HB HB' Hc HM Ho Hw Hwne Hone Hv Hpi Hki ns nm Hp Ek.
  destruct (moved_path L L' o w k _ HB HB' HM Ho Hw Hv Ek)
    as [(r & Hr & E & E')|(ms & Hms & E & Hno & Hnw & E')].
  - apply abs_inj in E; [|exact Hp|apply Forall_app; auto].
    destruct r as [|y r _] using rev_ind.
    { exfalso. rewrite app_nil_r in E. rewrite E in Ek. apply Hki.
      apply (b_inverse L HB) in Ek, Hpi. congruence. }
    rewrite app_assoc in E. apply app_inj_tail in E as [-> ->].
    exists (w ++ r). rewrite <- app_assoc. split; [apply Forall_app; auto|]. split; [exact E'|].
    split; [split; intros H; apply app_eq_nil in H; tauto|]. intros _.
    apply (b_inverse L HB) in Ek.
    destruct (Hc (o ++ r) y Hp) as [H|(j & Ej)]; [now exists k|apply app_eq_nil in H; tauto|].
    exists j. split; [exact Ej|]. rewrite (m_there _ _ _ _ HM); [exact Ej|].
    exact (Forall_app_l _ _ _ Hr).
  - apply abs_inj in E; [|exact Hp|exact Hms]. subst ms.
    exists ns. split; [exact Hp|]. split; [exact E'|]. split; [reflexivity|]. intros Hne.
    apply (b_inverse L HB) in Ek.
    destruct (Hc ns nm Hp) as [H|(j & Ej)]; [now exists k|contradiction|].
    exists j. split; [exact Ej|]. rewrite (m_rest _ _ _ _ HM); [exact Ej| | |].
    + exact (Forall_app_l _ _ _ Hp).
    + intros (r & ->). apply Hnw. exists (r ++ [nm]). now rewrite app_assoc.
    + intros (r & ->). apply Hno. exists (r ++ [nm]). now rewrite app_assoc.
Qed.

Lemma moved_world L L' o w : moved o w L L' -> o <> [] -> w <> [] ->
  lookup L' (abs_path []) = lookup L (abs_path []).
Proof.
  intros HM Ho Hw. apply (m_rest _ _ _ _ HM); [constructor| |];
    intros (r & E); symmetry in E; apply app_eq_nil in E; tauto.
Qed.

Lemma moved_none L L' o w k : books L -> books L' -> moved o w L L' -> Forall plain o -> Forall plain w ->
  path_of L k = None -> path_of L' k = None.
Proof.
  intros HB HB' HM Ho Hw E. destruct (path_of L' k) as [p|] eqn:E'; [|reflexivity]. exfalso.
  apply (b_inverse L' HB') in E'. destruct (books_proper L' p k HB' E') as (ms & Hms & ->).
  assert (G : forall q, lookup L q <> Some k).
  { intros q Eq. apply (b_inverse L HB) in Eq. congruence. }
  destruct (prefix_dec w ms) as [(r & ->)|Hnw].
  - rewrite (m_there _ _ _ _ HM) in E' by exact (Forall_app_r _ _ _ Hms). exact (G _ E').
  - destruct (prefix_dec o ms) as [(r & ->)|Hno].
    + rewrite (m_gone _ _ _ _ HM) in E'; [discriminate|exact (Forall_app_r _ _ _ Hms)|exact Hnw].
    + rewrite (m_rest _ _ _ _ HM) in E' by assumption. exact (G _ E').
Qed.

Lemma parent_each_closed par : Forall plain par -> forall ids L,
  books L -> closed L -> composed L -> par = [] \/ holds L par -> NoDup ids ->
  (forall i, In i ids -> exists o, path_of L i = Some (abs_path o) /\ Forall plain o /\ o <> [] /\
                                   ~ (exists r, par = o ++ r)) ->
  exists L' olds,
    parent_each ud uw extra true (abs_path par) L ids = (L', Done olds) /\
    books L' /\ closed L' /\ same_flags L L' /\ data_kept L L' /\
    lookup L' (abs_path par) = lookup L (abs_path par) /\
    (forall i, In i ids -> exists nm, legal (isdigit ud) (is_word uw) nm /\
       Forall plain (par ++ [nm]) /\ path_of L' i = Some (abs_path (par ++ [nm]))) /\
    Forall2 (fun i old => path_of L' i <> Some old) ids olds /\
    (forall k, ~ In k ids -> keeps_place L L' k) /\
    lookup L' (abs_path []) = lookup L (abs_path []) /\
    (forall k, path_of L k = None -> path_of L' k = None).
Proof.
  intros Hp. induction ids as [|i ids IH]; intros L HB Hc Hcomp Hpar Hnd Hids.
  { exists L, []. split; [reflexivity|]. split; [exact HB|]. split; [exact Hc|].
    split; [repeat split|]. split.
    { intros k. destruct (obj L k) as [m|]; [exists m; repeat split|reflexivity]. }
    split; [reflexivity|]. split; [intros ? []|]. split; [constructor|].
    split; [|split; [reflexivity|auto]]. intros k _ ns nm Hn E. exists ns. split; [exact Hn|].
    split; [exact E|]. split; [reflexivity|]. intros Hne. apply (b_inverse L HB) in E.
    destruct (Hc ns nm Hn) as [H|(j & Ej)]; [now exists k|contradiction|]. now exists j. }
  inversion Hnd as [|? ? Hi Hnd']; subst.
  destruct (Hids i (or_introl eq_refl)) as (o & Hpo & Ho & Hone & Hno).
  destruct (parent_one_closed L i o par HB Hc Hcomp Hpar Hp Hpo Ho Hone Hno)
    as (L1 & h & n & nm & En & Hleg & Hw & Hv & _ & E & HB1 & HM & HO & _ & Hf1 & _ & Hc1 & Hpar1 & Ep1).
  assert (Hwne : par ++ [nm] <> []) by now destruct par.
  assert (Hcomp1 : composed L1).
  { destruct Hf1 as (F1 & F2 & _). destruct Hcomp as [C1 C2]. split; congruence. }
  destruct (IH L1 HB1 Hc1 Hcomp1 Hpar1 Hnd') as
    (L' & olds & E' & HB' & Hc' & Hf' & Hd' & Ep' & Hpl & Hold & Hkp & Hworld & Hnone).
  { intros j Hj. destruct (Hids j (or_intror Hj)) as (oj & Hpj & Hoj & Hjne & Hjno).
    destruct (moved_path L L1 o (par ++ [nm]) j _ HB HB1 HM Ho Hw Hv Hpj)
      as [(r & Hr & Ej & Ej')|(ms & Hms & Ej & Hmo & Hmw & Ej')].
    - exists ((par ++ [nm]) ++ r). split; [exact Ej'|]. split; [apply Forall_app; auto|].
      split; [intros H; apply app_eq_nil in H; tauto|]. intros (r' & Er).
      rewrite <- !app_assoc in Er. rewrite <- (app_nil_r par) in Er at 1.
      apply app_inv_head in Er. discriminate.
    - exists oj. rewrite Ej'. auto. }
  assert (Ei1 : path_of L1 i = Some (abs_path (par ++ [nm]))).
  { apply (b_inverse L1 HB1). rewrite <- (app_nil_r (par ++ [nm])).
    rewrite (m_there _ _ _ _ HM) by constructor. rewrite app_nil_r. now apply (b_inverse L HB). }
  assert (Ei' : path_of L' i = Some (abs_path (par ++ [nm]))).
  { destruct (Hkp i Hi par nm Hw Ei1) as (ns' & Hn' & En' & R & P). rewrite En'. do 3 f_equal.
    destruct par as [|p0 par0] eqn:Epar; [now apply R|]. rewrite <- Epar in *.
    destruct P as (j & Ej & Ej'); [congruence|]. rewrite <- Ep' in Ej.
    apply abs_inj; [exact (Forall_app_l _ _ _ Hn')|exact Hp|].
    exact (books_inj L' _ _ j HB' Ej' Ej). }
  exists L', (abs_path o :: olds). cbn [parent_each]. rewrite E, E'.
  split; [reflexivity|]. split; [exact HB'|]. split; [exact Hc'|].
  split.
  { destruct Hf1 as (A1 & A2 & A3), Hf' as (B1 & B2 & B3). repeat split; congruence. }
  split; [exact (data_kept_trans L L1 L' (moved_objs_kept i nm h L L1 HO) Hd')|].
  split; [congruence|]. split.
  { intros j [<-|Hj]; [|now apply Hpl]. exists nm. auto. }
  split.
  { constructor; [|exact Hold]. rewrite Ei'. intros Eq. injection Eq as Eq.
    apply (b_inverse L HB) in Hpo. rewrite <- Eq in Hpo.
    specialize (Hv [] (Forall_nil _)). rewrite app_nil_r in Hv. congruence. }
  split.
  { intros k Hk. cbn [In] in Hk. apply (keeps_place_trans L L1 L'); [|apply Hkp; tauto].
    apply (moved_keeps_place L L1 o (par ++ [nm]) i k); auto. }
  split.
  { rewrite Hworld. exact (moved_world L L1 o (par ++ [nm]) HM Hone Hwne). }
  intros k Ek. apply Hnone. exact (moved_none L L1 o (par ++ [nm]) k HB HB1 HM Ho Hw Ek).
Qed.

(** The final check. *)
Lemma spelled_is_path L i p : consistent L -> path_of L i = Some p -> spelled_path L i = p.
Proof.
  intros H E. apply (c_inverse L H) in E. destruct (c_spells L H _ _ E) as (n & En & Hs).
  unfold spelled_path. rewrite En. now apply spells_join.
Qed.

Lemma parent_result_done L : consistent L -> forall ids olds acc,
  (forall i, In i ids -> exists p, path_of L i = Some p) ->
  Forall2 (fun i old => path_of L i <> Some old) ids olds ->
  exists res, parent_result L ids olds acc = Done res.
Proof.
  intros H. induction ids as [|i ids IH]; intros olds acc Hi HF; inversion HF as [|? old ? olds' Ho HF']; subst.
  - now exists acc.
  - cbn [parent_result]. destruct (Hi i (or_introl eq_refl)) as (p & Ep).
    rewrite (spelled_is_path L i p H Ep), Ep, str_eqb_refl. cbn [negb]. rewrite orb_false_r.
    destruct (str_eqb old p) eqn:E; [apply str_eqb_eq in E; congruence|].
    apply IH; [|exact HF']. intros j Hj. apply Hi. now right.
Qed.
End Closed.
