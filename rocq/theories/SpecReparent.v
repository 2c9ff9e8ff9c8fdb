(** Stage.parent_nodes: the theorems. *)

From Coq Require Import String List NArith Bool Arith Lia Permutation.
From Verif Require Import PyStr PyStrFacts NxtPath PathSpec PathProofs Dict DictFacts ListMerger
  MergeProofs Layer LayerSpec LayerProofs DescProofs ChildCacheProofs HierarchyProofs SortRows SortProofs PyVal
  Names NamesSpec NamesProofs SpecOps SpecOpsSpec SpecBase SpecMove SpecParent SpecClosed.
Import ListNotations.

(** *** refresh and the nodes *)

Lemma set_sources_data p n : same_data n (set_sources p n).
Proof.
  split; [|reflexivity]. cbn [s_attrs set_sources]. rewrite map_map. reflexivity.
Qed.

Lemma set_sources_sourced p n : sourced (set_sources p n) p.
Proof.
  unfold sourced. cbn [s_attrs set_sources]. apply Forall_map, Forall_forall. intros x _. reflexivity.
Qed.

Lemma kept_data n m : kept n m -> same_data n m.
Proof. intros [H1 H2]. unfold same_data. rewrite H1, H2. auto. Qed.

Lemma same_data_trans a b c : same_data a b -> same_data b c -> same_data a c.
Proof. intros [H1 H2] [H3 H4]. split; congruence. Qed.

Lemma same_data_refl a : same_data a a.
Proof. split; reflexivity. Qed.

Lemma refresh_same_nodes L L1 : books L1 -> data_kept L L1 -> same_nodes L (refresh L1).
Proof.
  intros HB H k. specialize (H k). rewrite (obj_refresh L1 k HB). destruct (obj L k) as [m|].
  - destruct H as (m' & E & K). rewrite E. apply kept_data in K. destruct (muted L1); [now exists m'|].
    destruct (path_of L1 k) as [p|]; [|now exists m']. cbn [option_map].
    eexists. split; [reflexivity|]. exact (same_data_trans _ _ _ K (set_sources_data p m')).
  - rewrite H. destruct (muted L1), (path_of L1 k); reflexivity.
Qed.

(** After a refresh of a layer that is not muted, user attributes say where
    they are. *)
Lemma refresh_sourced L1 k p n : books L1 -> muted L1 = false -> path_of L1 k = Some p ->
  obj (refresh L1) k = Some n -> sourced n p.
Proof.
  intros HB Hm Ep E. rewrite (obj_refresh L1 k HB), Hm, Ep in E.
  destruct (obj L1 k) as [m|]; [|discriminate]. injection E as <-. apply set_sources_sourced.
Qed.

Lemma refresh_order L1 k n n1 : books L1 -> obj L1 k = Some n1 -> obj (refresh L1) k = Some n ->
  s_order n = s_order n1.
Proof.
  intros HB E1 E. rewrite (obj_refresh L1 k HB), E1 in E.
  destruct (muted L1), (path_of L1 k); cbn [option_map] in E; injection E as <-; reflexivity.
Qed.

Section Reparent.
Variables (ud uw : N -> bool) (extra : slayer -> list pystr).

(** *** One node *)

Lemma parent_nodes_one L i o n par nm cn :
  consistent L -> path_of L i = Some (abs_path o) -> Forall plain o -> o <> [] -> obj L i = Some n ->
  Forall plain (par ++ [nm]) -> chosen ud uw extra cn L n o par nm -> vacant L (par ++ [nm]) ->
  exists L',
    parent_nodes ud uw extra L [i] (abs_path par) cn
    = (L', Done [(abs_path o, abs_path (par ++ [nm]))]) /\
    consistent L' /\ moved o (par ++ [nm]) L L' /\
    same_nodes L L' /\
    (muted L = false -> forall k p m, lookup L' p = Some k -> obj L' k = Some m -> sourced m p) /\
    (forall k m m', obj L k = Some m -> obj L' k = Some m' ->
       exists l1, leaves L o k (s_order m) l1 /\ joins L par nm k l1 (s_order m')) /\
    same_flags L L' /\ moved_keys (abs_path o) (abs_path (par ++ [nm])) L L'.
Proof.
  intros HC Hpo Ho Hone En Hw Hch Hv.
  destruct (parent_one_spec ud uw extra L i o n par nm cn (consistent_books L HC) Hpo Ho Hone En Hw Hch Hv)
    as (L1 & h & E & HB1 & HM & HO & Hh & Hf & Hk).
  pose proof (refresh_consistent L1 HB1) as HC1.
  assert (Ei : path_of (refresh L1) i = Some (abs_path (par ++ [nm]))).
  { rewrite path_of_refresh. apply (b_inverse L1 HB1). rewrite <- (app_nil_r (par ++ [nm])).
    rewrite (m_there _ _ _ _ HM) by constructor. rewrite app_nil_r. now apply (c_inverse L HC). }
  exists (refresh L1). unfold parent_nodes. cbn [parent_each]. rewrite E. cbn [parent_result].
  rewrite (spelled_is_path _ _ _ HC1 Ei), Ei, str_eqb_refl. cbn [negb]. rewrite orb_false_r.
  assert (Hne : str_eqb (abs_path o) (abs_path (par ++ [nm])) = false).
  { apply str_eqb_neq. intros Eq. apply (c_inverse L HC) in Hpo. rewrite Eq in Hpo.
    specialize (Hv [] (Forall_nil _)). rewrite app_nil_r in Hv. congruence. }
  rewrite Hne. split; [reflexivity|]. split; [exact HC1|]. split.
  { destruct HM. constructor; assumption. }
  split; [exact (refresh_same_nodes L L1 HB1 (moved_objs_kept i nm h L L1 HO))|]. split.
  { intros Hm k p m Ek Em. apply (refresh_sourced L1 k p m HB1); [|now apply (b_inverse L1 HB1)|exact Em].
    destruct Hf as (F & _). congruence. }
  split; [|split; [exact Hf|exact Hk]].
  intros k m m' Em Em'. destruct (Hh k (s_order m)) as (l1 & H1 & H2). exists l1. split; [exact H1|].
  specialize (HO k). rewrite Em in HO. destruct HO as (p & EO).
  rewrite (refresh_order L1 k m' _ HB1 EO Em'). exact H2.
Qed.

(** *** Any nodes of a layer without gaps *)

Lemma parent_nodes_closed L ids par :
  consistent L -> closed L -> composed L -> Forall plain par -> par = [] \/ holds L par ->
  NoDup ids -> ids <> [] ->
  (forall i, In i ids -> exists o, path_of L i = Some (abs_path o) /\ Forall plain o /\ o <> [] /\
                                   ~ (exists r, par = o ++ r)) ->
  exists L' res,
    parent_nodes ud uw extra L ids (abs_path par) true = (L', Done res) /\
    consistent L' /\ closed L' /\ composed L' /\ same_nodes L L' /\
    lookup L' (abs_path par) = lookup L (abs_path par) /\
    lookup L' (abs_path []) = lookup L (abs_path []) /\
    (forall i, In i ids -> exists nm, legal (isdigit ud) (is_word uw) nm /\
       path_of L' i = Some (abs_path (par ++ [nm]))) /\
    (forall k, ~ In k ids -> keeps_place L L' k) /\
    (forall k, path_of L k = None -> path_of L' k = None).
Proof.
  intros HC Hc Hcomp Hp Hpar Hnd Hne Hids.
  destruct (parent_each_closed ud uw extra par Hp ids L (consistent_books L HC) Hc Hcomp Hpar Hnd Hids)
    as (L1 & olds & E & HB1 & Hc1 & Hf & Hd & Ep & Hpl & Hold & Hkp & Hworld & Hnone).
  pose proof (refresh_consistent L1 HB1) as HC1.
  destruct (parent_result_done (refresh L1) HC1 ids olds []) as (res & ER).
  { intros i Hi. destruct (Hpl i Hi) as (nm & _ & _ & Ei). eexists. exact Ei. }
  { exact Hold. }
  exists (refresh L1), res. unfold parent_nodes. destruct ids as [|i0 t]; [congruence|].
  rewrite E. rewrite ER. split; [reflexivity|]. split; [exact HC1|]. split; [exact Hc1|].
  split; [destruct Hf as (F1 & F2 & _), Hcomp as [C1 C2]; split; cbn; congruence|].
  split; [exact (refresh_same_nodes L L1 HB1 Hd)|].
  split; [exact Ep|]. split; [exact Hworld|].
  split; [|split; [exact Hkp|exact Hnone]].
  intros i Hi. destruct (Hpl i Hi) as (nm & Hl & _ & Ei). exists nm. auto.
Qed.
End Reparent.
