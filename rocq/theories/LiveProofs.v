(** Setting a node's enabled state. *)

From Coq Require Import String List NArith ZArith Bool Arith Lia Permutation Relations.
From Verif Require Import PyStr PyStrFacts NxtPath PathSpec PathProofs Dict DictFacts ListMerger SortRows Layer PyVal NodeIO NodeIOProofs PyClass PyClassSpec PyClassProofs
  NodeEdit Comp CompSpec MergeProofs CompProofs CompProxyProofs CompPostProofs CompLookProofs CompTreeProofs CompOrderProofs CompStageProofs CompTotalProofs StageView StageViewProofs LiveSpec Live LiveBase.
From Verif Require DirtyMap SortProofs.
Import ListNotations.

(** *** Setting the state *)

Definition switched (pl : place) (n : node) (state : pyval) : node :=
  dset (ENABLED ++ META_SOURCE) (source_here pl) (dset (ENABLED ++ META_TYPE) (VStr (lit "raw")) (dset ENABLED state n)).

Lemma switched_subs ud uw bi le pl n b local :
  set_subs ud uw bi le pl ENABLED false [(META_VALUE, VBool b)] local [(META_VALUE, VBool b)] n = Some (switched pl n (VBool b), Ok tt).
Proof.
  cbn [set_subs clean_value]. change (str_eqb META_VALUE META_VALUE) with true. cbv zeta. cbn [negb andb].
  assert (E : str_in ENABLED (local ++ ALL_INTERNAL) = true) by (apply str_in_In; apply in_or_app; right; apply str_in_In; reflexivity).
  rewrite E. change (str_in ENABLED TRACKED) with true. rewrite orb_true_r. reflexivity.
Qed.
Lemma switched_near pl n v : near (tracked_all ENABLED) n (switched pl n v).
Proof.
  intros a Ha. unfold switched. rewrite !dget_dset. assert (N : forall k, In k (tracked_all ENABLED) -> str_eqb k a = false) by (intros k Hk; apply str_eqb_neq; intros ->; contradiction).
  rewrite !N by (cbn [tracked_all In]; tauto). reflexivity.
Qed.
Lemma switched_enabled pl n v : dget ENABLED (switched pl n v) = Some v.
Proof. unfold switched. rewrite !dget_dset. reflexivity. Qed.
Lemma switched_source pl n v : dget (ENABLED ++ META_SOURCE) (switched pl n v) = Some (source_here pl).
Proof. unfold switched. rewrite dget_dset, str_eqb_refl. reflexivity. Qed.

Section Enabled.
Variables (layers layers' : list (list layer_row)) (fuel : nat) (top : pyval) (one : bool) (H : heap).
Variables (cs : list pystr) (A B : list layer_row) (n n' : node) (b : bool).
Hypothesis wf : well_formed layers.
Hypothesis Ni : no_instances layers.
Hypothesis Bu : build_stage fuel top one layers = Built H.
Hypothesis Hc : names cs.
Hypothesis Hne : cs <> [].
Hypothesis E : numbered layers = A ++ (ns_of cs, n) :: B.
Hypothesis E' : numbered layers' = A ++ (ns_of cs, n') :: B.
Hypothesis World : forall m, In ([[]], m) (numbered layers) -> value m NAME = VStr (lit "/").
Variable H' : heap.
Hypothesis Bu' : build_stage fuel top one layers' = Built H'.
Let Hw := with_spec H (length A) n'.
Let Hs := set_attr Hw (abs_path cs) ENABLED (VBool b).

Hypothesis Ed : edited layers layers' H H' (tracked_keys ENABLED) cs A n n'.

Theorem live_switch : set_node_enabled Hw (length A) (VBool b) = (Hs, Ok []).
Proof.
  unfold set_node_enabled. cbv zeta. pose proof (e_fits _ _ _ _ _ _ _ _ _ Ed) as fits'. pose proof (e_plain _ _ _ _ _ _ _ _ _ Ed) as plain'. pose proof (e_world _ _ _ _ _ _ _ _ _ Ed World) as world'.
  assert (Ep : path_of Hw (Sp (length A)) = abs_path cs).
  { unfold Hw. rewrite (e_live_path _ _ _ _ _ _ _ _ _ Ed). apply (spec_path layers' fuel top one H' fits' plain' Bu' world' cs _ Hc). apply Ed. }
  rewrite Ep. change (here Hw (abs_path cs)) with (here H (abs_path cs)). rewrite (e_there _ _ _ _ _ _ _ _ _ Ed). cbn [negb].
  assert (Free : existsb (stops Hw (length A) (abs_path cs) (VBool b)) (tl match mro_of Hw (Co (abs_path cs)) with Some l => l | None => [] end) = false).
  { destruct (mro_of Hw (Co (abs_path cs))) as [l|] eqn:El; [|reflexivity]. unfold Hw in El. rewrite (e_live_mro _ _ _ _ _ _ _ _ _ Ed), <- (e_mro _ _ _ _ _ _ _ _ _ Ed) in El.
    assert (G : forall r, In r l -> stops Hw (length A) (abs_path cs) (VBool b) r = false).
    { intros r Hr. unfold stops. unfold Hw. rewrite (e_live_path _ _ _ _ _ _ _ _ _ Ed). rewrite (mro_inside layers' fuel top one H' fits' plain' Bu' world' cs l r Hc Hne); auto; [now rewrite orb_true_r|]. rewrite (e_here _ _ _ _ _ _ _ _ _ Ed). apply Ed. }
    destruct (existsb _ (tl l)) eqn:Ex; [|reflexivity]. apply existsb_exists in Ex as (r & Hr & Q). rewrite G in Q; [discriminate|]. destruct l; [destruct Hr|now right]. }
  rewrite Free. assert (Edd : dirties Hw (abs_path cs) = []).
  { unfold dirties. change (dirty Hw) with (dirty H). destruct (plain_comps layers fuel top one H wf Ni Bu) as (_ & -> & _). reflexivity. }
  rewrite Edd. reflexivity.
Qed.

End Enabled.

(** *** Whom the update reaches, in any stage *)

Lemma set_all_spec st ps : forall H H', set_all H ps st = (H', Ok tt) ->
  (forall r, mro_of H' r = mro_of H r) /\ (forall q, here H' q = here H q) /\ (forall p, In p ps -> here H p = true) /\
  (forall a r, (a <> ENABLED \/ forall p, In p ps -> r <> Co p) -> own_attr H' a r = own_attr H a r) /\
  (forall p, In p ps -> own_attr H' ENABLED (Co p) = Some st) /\
  (forall p, own_attr H ENABLED (Co p) = Some st -> own_attr H' ENABLED (Co p) = Some st).
Proof.
  induction ps as [|p ps IH]; intros H H' E; cbn [set_all] in E.
  - injection E as <-. repeat split; auto; intros p [].
  - destruct (here H p) eqn:Hp; [|discriminate E]. destruct (IH _ _ E) as (M & K & I & O & V & W).
    split; [intros r; now rewrite M, mro_set_attr|]. split; [intros q; now rewrite K, here_set_attr|].
    split; [intros q [<-|Hq]; [exact Hp|]; rewrite <- (here_set_attr H p ENABLED st); auto|].
    split.
    { intros a r Hx. rewrite O, own_set_attr.
      - rewrite Hp, andb_true_r. destruct (ref_eqb r (Co p) && str_eqb ENABLED a) eqn:Ex; [|reflexivity]. apply andb_true_iff in Ex as (E1 & E2). apply ref_eqb_eq in E1. apply str_eqb_eq in E2. destruct Hx as [Hx|Hx]; [congruence|]. destruct (Hx p (or_introl eq_refl) E1).
      - destruct Hx as [Hx|Hx]; [now left|right]. intros q Hq. apply Hx. now right. }
    assert (Self : own_attr (set_attr H p ENABLED st) ENABLED (Co p) = Some st) by (rewrite own_set_attr, Hp; cbn [ref_eqb]; rewrite str_eqb_refl; reflexivity).
    split; [intros q [<-|Hq]; [now apply W|now apply V]|]. intros q Hq. apply W. rewrite own_set_attr. destruct (_ && _); [reflexivity|exact Hq].
Qed.

Section Reach.
Variables (layers : list (list layer_row)) (H : heap) (i : nat) (n' : node).
Hypothesis wf : well_formed layers.
Hypothesis St : stage_of layers H.
Hypothesis Key : dget ENABLED n' <> None.
Hypothesis Hi : i < length (specs H).
Let Hw := with_spec H i n'.

Theorem reach st Hs ds : set_node_enabled Hw i st = (Hs, Ok ds) ->
  let path := path_of Hw (Sp i) in
  (ds = [] /\ Hs = Hw) \/
  ((forall p, In p (path :: ds) -> here H p = true /\ forall es, abs_path es = p -> reads Hs es ENABLED = Some st) /\
   forall es a, in_stage H es -> a <> ENABLED \/ ~ In (abs_path es) (path :: ds) -> reads Hs es a = reads Hw es a).
Proof.
  assert (En : In ENABLED internal_keys) by (apply str_in_In; reflexivity).
  intros E. cbv zeta. unfold set_node_enabled in E. cbv zeta in E. destruct (here Hw (path_of Hw (Sp i))) eqn:Hp; cbn [negb] in E; [|left; injection E as <- <-; auto].
  destruct (existsb _ _); [left; injection E as <- <-; auto|]. right. destruct (set_all _ _ _) as (H2 & r) eqn:Es. destruct r as [[]|]; cbn [bind] in E; [|discriminate E]. injection E as <- <-.
  destruct (set_all_spec st _ _ _ Es) as (M & K & I & O & V & W). set (path := path_of Hw (Sp i)) in *.
  assert (M' : forall r, mro_of H2 r = mro_of H r) by (intros r; now rewrite M, mro_set_attr, (with_spec_mro H i n' Hi)).
  assert (All : forall p, In p (path :: dirties Hw path) -> here H p = true /\ own_attr H2 ENABLED (Co p) = Some st).
  { intros p [<-|Hq]; [split; [exact Hp|]; apply W; rewrite own_set_attr, Hp; cbn [ref_eqb]; rewrite str_eqb_refl; reflexivity|]. split; [|now apply V].
    specialize (I p Hq). rewrite here_set_attr in I. exact I. }
  split.
  - intros p Hq. destruct (All p Hq) as (A1 & A2). split; [exact A1|]. intros es <-. destruct (reach_begin ENABLED En layers H i n' wf St Key Hi _ A1) as (is & m & Em & _). unfold reads, getattr. rewrite M', Em. cbn [lookup_in]. rewrite A2. reflexivity.
  - intros es a Hh Hx. unfold reads, getattr. rewrite M', (with_spec_mro H i n' Hi).
    assert (Same : forall r, a <> ENABLED \/ (forall p, In p (path :: dirties Hw path) -> r <> Co p) -> own_attr H2 a r = own_attr Hw a r).
    { intros r Hr. rewrite O, own_set_attr.
      - destruct (ref_eqb r (Co path) && here Hw path && str_eqb ENABLED a) eqn:Ex; [|reflexivity]. apply andb_true_iff in Ex as (Ex & E2). apply andb_true_iff in Ex as (E1 & _). apply ref_eqb_eq in E1. apply str_eqb_eq in E2.
        destruct Hr as [Hr|Hr]; [congruence|]. destruct (Hr path (or_introl eq_refl) E1).
      - destruct Hr as [Hr|Hr]; [now left|right]. intros p Hq. apply Hr. now right. }
    destruct (reach_begin ENABLED En layers H i n' wf St Key Hi (abs_path es) Hh) as (is & m & Em & Hit). fold Hw in Hit. rewrite Em. destruct (list_eq_dec N.eq_dec a ENABLED) as [->|Ha].
    + destruct Hx as [Hx|Hx]; [congruence|]. change (Co (abs_path es) :: map Sp is ++ m) with ((Co (abs_path es) :: map Sp is) ++ m).
      assert (Eq : lookup_in (own_attr H2 ENABLED) (Co (abs_path es) :: map Sp is) = lookup_in (own_attr Hw ENABLED) (Co (abs_path es) :: map Sp is)).
      { apply lookup_ext. intros r Hr. apply Same. right. intros p Hq ->. destruct Hr as [Hr|Hr]; [injection Hr as <-; contradiction|]. apply in_map_iff in Hr as (j & [=] & _). }
      rewrite (lookup_first _ _ m Hit). rewrite lookup_first by (rewrite Eq; exact Hit). now rewrite Eq.
    + f_equal. apply lookup_ext. intros r _. apply Same. now left.
Qed.
End Reach.
