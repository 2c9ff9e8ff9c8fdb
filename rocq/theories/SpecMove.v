(** Moving entries of the tables: dict folds and the move of a sub-tree, as
    done by Stage.parent_nodes. *)

From Coq Require Import String List NArith Bool Arith Lia Permutation.
From Verif Require Import PyStr PyStrFacts NxtPath PathSpec PathProofs Dict DictFacts ListMerger
  MergeProofs Layer LayerSpec LayerProofs DescProofs ChildCacheProofs HierarchyProofs SortRows SortProofs PyVal
  Names NamesSpec NamesProofs SpecOps SpecOpsSpec SpecBase.
Import ListNotations.

(** Entries [M] of a dict are moved, one after the other, from key [p] to
    [f p]. *)
Definition moves {V} (f : pystr -> pystr) (M : list (pystr * V)) (d : dict V) : dict V :=
  fold_left (fun d pi => dset (f (fst pi)) (snd pi) (ddel (fst pi) d)) M d.

Lemma moves_spec {V} (f : pystr -> pystr) : forall (M : list (pystr * V)) (d : dict V),
  NoDup (map fst M) -> NoDup (dkeys d) ->
  (forall p i, In (p, i) M -> dget p d = Some i) ->
  (forall p q, In p (map fst M) -> In q (map fst M) -> f p = f q -> p = q) ->
  (forall p, In p (map fst M) -> dget (f p) d = None) ->
  NoDup (dkeys (moves f M d)) /\
  (forall p i, In (p, i) M -> dget (f p) (moves f M d) = Some i) /\
  (forall p, In p (map fst M) -> dget p (moves f M d) = None) /\
  (forall q, ~ In q (map fst M) -> ~ In q (map f (map fst M)) -> dget q (moves f M d) = dget q d).
Proof.
  induction M as [|[p i] M IH]; intros d HM Hd Hin Hf Ht.
  - split; [exact Hd|]. split; [intros ? ? []|]. split; [intros ? []|reflexivity].
  - cbn [map fst] in *. inversion HM as [|? ? Hp HM']; subst.
    change (moves f ((p, i) :: M) d) with (moves f M (dset (f p) i (ddel p d))).
    set (d1 := dset (f p) i (ddel p d)).
    assert (Hd1 : NoDup (dkeys d1)) by (apply NoDup_dset, NoDup_ddel; exact Hd).
    assert (Ep : dget p d = Some i) by (apply Hin; now left).
    assert (G : forall q, dget q d1 = if str_eqb (f p) q then Some i
                                      else if str_eqb p q then None else dget q d).
    { intros q. unfold d1. rewrite dget_dset, dget_ddel by exact Hd. reflexivity. }
    assert (Hk : forall q j, In (q, j) M -> In q (map fst M)).
    { intros q j H. apply in_map_iff. exists (q, j). auto. }
    destruct (IH d1) as (I1 & I2 & I3 & I4).
    + exact HM'.
    + exact Hd1.
    + intros q j Hq. rewrite G. assert (Eq : dget q d = Some j) by (apply Hin; now right).
      destruct (str_eqb (f p) q) eqn:E1.
      { apply str_eqb_eq in E1. specialize (Ht p (or_introl eq_refl)). rewrite E1 in Ht. congruence. }
      destruct (str_eqb p q) eqn:E2; [|exact Eq].
      apply str_eqb_eq in E2. subst q. exfalso. apply Hp. exact (Hk _ _ Hq).
    + intros a b Ha Hb. apply Hf; now right.
    + intros q Hq. rewrite G. destruct (str_eqb (f p) (f q)) eqn:E1.
      { apply str_eqb_eq in E1. exfalso. apply Hp. rewrite (Hf p q); [exact Hq|now left|now right|exact E1]. }
      destruct (str_eqb p (f q)); [reflexivity|]. apply Ht. now right.
    + split; [exact I1|]. split; [|split].
      * intros q j [E|Hq]; [|now apply I2]. injection E as <- <-.
        rewrite I4.
        -- rewrite G, str_eqb_refl. reflexivity.
        -- intros H. apply in_map_iff in H as ([q j] & Eq & Hq). cbn [fst] in Eq. subst q.
           assert (Eq : dget (f p) d = Some j) by (apply Hin; now right).
           rewrite (Ht p (or_introl eq_refl)) in Eq. discriminate.
        -- intros H. apply in_map_iff in H as (q & Eq & Hq). apply Hp.
           rewrite <- (Hf q p); [exact Hq|now right|now left|exact Eq].
      * intros q [<-|Hq]; [|now apply I3].
        rewrite I4.
        -- rewrite G. destruct (str_eqb (f p) p) eqn:E1.
           { apply str_eqb_eq in E1. specialize (Ht p (or_introl eq_refl)). rewrite E1 in Ht. congruence. }
           now rewrite str_eqb_refl.
        -- exact Hp.
        -- intros H. apply in_map_iff in H as (q & Eq & Hq).
           assert (E : dget (f q) d = None) by (apply Ht; now right). rewrite Eq in E. congruence.
      * intros q H1 H2. cbn [In map] in H1, H2.
        rewrite I4 by tauto. rewrite G. destruct (str_eqb (f p) q) eqn:E1.
        { apply str_eqb_eq in E1. tauto. }
        destruct (str_eqb p q) eqn:E2; [|reflexivity]. apply str_eqb_eq in E2. tauto.
Qed.

(** The same for the paths of the nodes. *)
Lemma nmoves_spec (f : pystr -> pystr) : forall (M : list (pystr * nat)) (d : list (nat * pystr)),
  NoDup (map snd M) -> NoDup (map fst d) ->
  let d' := fold_left (fun d pi => nset (snd pi) (f (fst pi)) d) M d in
  NoDup (map fst d') /\
  (forall p i, In (p, i) M -> nget i d' = Some (f p)) /\
  (forall i, ~ In i (map snd M) -> nget i d' = nget i d).
Proof.
  induction M as [|[p i] M IH]; intros d HM Hd; cbn [fold_left map fst snd] in *.
  - split; [exact Hd|]. split; [intros ? ? []|reflexivity].
  - inversion HM as [|? ? Hi HM']; subst.
    destruct (IH (nset i (f p) d) HM' (NoDup_nset i (f p) d Hd)) as (I1 & I2 & I3).
    split; [exact I1|]. split.
    + intros q j [E|Hq]; [|now apply I2]. injection E as <- <-.
      rewrite I3 by exact Hi. rewrite nget_nset, Nat.eqb_refl. reflexivity.
    + intros j H. cbn [In] in H. rewrite I3 by tauto. rewrite nget_nset.
      destruct (Nat.eqb i j) eqn:E; [|reflexivity]. apply Nat.eqb_eq in E. tauto.
Qed.

(** *** The loop over the other entries *)

Definition mover (old new : pystr) (fresh : bool) (pi : pystr * nat) : bool :=
  negb (str_eqb (fst pi) new && fresh) && is_ancestor (fst pi) old.

Definition reparent_node (old new : pystr) (n : snode) : snode :=
  set_parent (replace_ancestor (s_parent n) old new) n.

Lemma fold_move_entry old new fresh : forall S L,
  fold_left (move_entry old new fresh) S L =
  with_objs (with_by_node (with_by_path L
      (moves (fun p => replace_ancestor p old new) (filter (mover old new fresh) S) (by_path L)))
      (fold_left (fun d pi => nset (snd pi) (replace_ancestor (fst pi) old new) d)
                 (filter (mover old new fresh) S) (by_node L)))
      (fold_left (fun os pi => update (snd pi) (reparent_node old new) os)
                 (filter (mover old new fresh) S) (objs L)).
Proof.
  induction S as [|[p j] S IH]; intros L; [destruct L; reflexivity|].
  cbn [fold_left filter]. rewrite IH.
  assert (EM : mover old new fresh (p, j) = negb (str_eqb p new && fresh) && is_ancestor p old) by reflexivity.
  rewrite EM. unfold move_entry.
  destruct (str_eqb p new && fresh); cbn [negb andb]; [reflexivity|].
  destruct (is_ancestor p old); reflexivity.
Qed.

(** *** Prefixes *)

Lemma prefix_dec (a ms : list pystr) : (exists r, ms = a ++ r) \/ ~ (exists r, ms = a ++ r).
Proof.
  revert ms. induction a as [|x a IH]; intros ms; [left; exists ms; reflexivity|].
  destruct ms as [|y ms]; [right; intros (r & E); discriminate|].
  destruct (pystr_eq_dec x y) as [<-|Hne].
  - destruct (IH ms) as [(r & ->)|H]; [left; exists r; reflexivity|].
    right. intros (r & E). injection E as E. apply H. now exists r.
  - right. intros (r & E). injection E as E _. congruence.
Qed.

Lemma Forall_app_l {A} (P : A -> Prop) a b : Forall P (a ++ b) -> Forall P a.
Proof. intros H. apply Forall_app in H. tauto. Qed.
Lemma Forall_app_r {A} (P : A -> Prop) a b : Forall P (a ++ b) -> Forall P b.
Proof. intros H. apply Forall_app in H. tauto. Qed.

(** *** The move of a sub-tree *)

Definition entered (LD : slayer) (i : nat) (old new : pystr) : slayer :=
  with_by_node (with_by_path LD (dset new i (ddel old (by_path LD)))) (nset i new (by_node LD)).

Section Subtree.
Variables (L LD : slayer) (i : nat) (o par : list pystr) (nm : pystr).
Let w := par ++ [nm].
Let old := abs_path o.
Let new := abs_path w.
Hypothesis HB : books L.
Hypothesis Ho : Forall plain o.
Hypothesis Hw : Forall plain w.
Hypothesis Hone : o <> [].
Hypothesis Hi : lookup L old = Some i.
Hypothesis Hv : vacant L w.
Hypothesis D_path : by_path LD = by_path L.
Hypothesis D_node : by_node LD = by_node L.
Hypothesis D_list : spec_list LD = spec_list L.
Hypothesis D_objs : forall k, match obj L k with
  | None => obj LD k = None
  | Some m => exists s, obj LD k = Some (set_order s (if Nat.eqb k i then set_parent (abs_path par) (set_name nm m) else m))
  end.

Let fresh := negb (dmem new (ddel old (by_path LD))).
Let LE := entered LD i old new.
Let M := filter (mover old new fresh) (by_path LE).
Let f := fun p => replace_ancestor p old new.
Let L' := fold_left (move_entry old new fresh) (by_path LE) LE.

Lemma st_f r : Forall plain r -> f (abs_path (o ++ r)) = abs_path (w ++ r).
Proof.
  intros H. apply replace_ancestor_abs; try exact Hone; now apply plain_component.
Qed.

Lemma st_new_old : new <> old.
Proof.
  intros E. assert (H : lookup L (abs_path (w ++ [])) = None) by (apply Hv; constructor).
  rewrite app_nil_r in H. fold new in H. rewrite E in H. rewrite Hi in H. discriminate.
Qed.

Lemma st_new_free : lookup L new = None.
Proof. specialize (Hv [] (Forall_nil _)). now rewrite app_nil_r in Hv. Qed.

Lemma st_fresh : fresh = true.
Proof.
  unfold fresh. rewrite D_path. apply negb_true_iff, dmem_false. intros H.
  apply dkeys_ddel_incl in H. apply dget_some_key in H as (v & E).
  pose proof st_new_free as F. unfold lookup in F. congruence.
Qed.

Lemma st_LE q : dget q (by_path LE) =
  if str_eqb new q then Some i else if str_eqb old q then None else lookup L q.
Proof.
  unfold LE, entered. cbn [by_path with_by_node with_by_path]. rewrite D_path.
  rewrite dget_dset, dget_ddel by apply (b_paths L HB). reflexivity.
Qed.

Lemma st_LE_nodup : NoDup (dkeys (by_path LE)).
Proof.
  unfold LE, entered. cbn [by_path with_by_node with_by_path]. rewrite D_path.
  apply NoDup_dset, NoDup_ddel, (b_paths L HB).
Qed.

Lemma st_M p k : In (p, k) M <->
  lookup L p = Some k /\ exists r, r <> [] /\ Forall plain r /\ p = abs_path (o ++ r).
Proof.
  unfold M. rewrite filter_In. unfold mover. cbn [fst]. rewrite st_fresh, andb_true_r, andb_true_iff, negb_true_iff.
  split.
  - intros (Hin & Hne & Ha). apply (In_dget _ _ _ st_LE_nodup) in Hin. rewrite st_LE in Hin.
    rewrite str_eqb_sym in Hne. rewrite Hne in Hin.
    destruct (str_eqb old p) eqn:E; [discriminate|]. split; [exact Hin|].
    destruct (books_proper L p k HB Hin) as (ms & Hms & ->).
    apply is_ancestor_abs in Ha; [|now apply plain_component..].
    destruct Ha as [->|(r & Hr & ->)]; [congruence|]. exists r.
    split; [exact Hr|]. split; [|reflexivity]. exact (Forall_app_r _ _ _ Hms).
  - intros (Hl & r & Hr & Hpr & ->). split; [|split].
    + apply dget_In. rewrite st_LE. destruct (str_eqb new _) eqn:E1.
      { apply str_eqb_eq in E1. rewrite <- E1 in Hl. rewrite st_new_free in Hl. discriminate. }
      destruct (str_eqb old _) eqn:E2; [|exact Hl].
      apply str_eqb_eq in E2. apply abs_inj in E2; [|exact Ho|apply Forall_app; auto].
      rewrite <- (app_nil_r o) in E2 at 1. apply app_inv_head in E2. congruence.
    + apply str_eqb_neq. intros E1. rewrite E1 in Hl. rewrite st_new_free in Hl. discriminate.
    + apply is_ancestor_abs; [apply plain_component, Forall_app; auto|now apply plain_component|].
      right. exists r. auto.
Qed.

Let M' := (old, i) :: M.

Lemma st_M' p k : In (p, k) M' <->
  lookup L p = Some k /\ exists r, Forall plain r /\ p = abs_path (o ++ r).
Proof.
  unfold M'. cbn [In]. rewrite st_M. split.
  - intros [E|(Hl & r & _ & Hr & E)].
    + injection E as <- <-. split; [exact Hi|]. exists []. rewrite app_nil_r. split; [constructor|reflexivity].
    + split; [exact Hl|]. exists r. auto.
  - intros (Hl & r & Hr & ->). destruct r as [|x r].
    + left. rewrite app_nil_r in Hl |- *. assert (k = i) by (unfold old in Hi; congruence). subst k. reflexivity.
    + right. split; [exact Hl|]. exists (x :: r). split; [discriminate|]. auto.
Qed.

Lemma st_M'_keys : NoDup (map fst M').
Proof.
  unfold M'. cbn [map fst]. constructor.
  - intros H. apply in_map_iff in H as ([p k] & E & Hin). cbn [fst] in E.
    apply st_M in Hin as (_ & r & Hr & Hpr & E2). rewrite E2 in E.
    apply abs_inj in E; [|apply Forall_app; auto|exact Ho].
    rewrite <- (app_nil_r o) in E at 2. apply app_inv_head in E. congruence.
  - unfold M. pose proof st_LE_nodup as H. unfold dkeys in H. revert H.
    generalize (by_path LE) as d. induction d as [|a d IH]; intros H; [constructor|].
    cbn [map] in H. inversion H as [|? ? Ha Hd]; subst. cbn [filter].
    destruct (mover old new fresh a); [|auto]. cbn [map]. constructor; [|auto].
    intros Hx. apply Ha. apply in_map_iff in Hx as (b & E & Hb). apply filter_In in Hb as [Hb _].
    rewrite <- E. now apply in_map.
Qed.

Lemma st_M'_ids : NoDup (map snd M').
Proof.
  pose proof st_M'_keys as H.
  assert (J : forall p q k, In (p, k) M' -> In (q, k) M' -> p = q).
  { intros p q k Hp Hq. apply st_M' in Hp as [Hp _]. apply st_M' in Hq as [Hq _].
    exact (books_inj L p q k HB Hp Hq). }
  revert H J. generalize M' as d. induction d as [|[p k] d IH]; intros K J; [constructor|].
  cbn [map fst snd] in *. inversion K as [|? ? Hp Hd]; subst. constructor.
  - intros Hk. apply in_map_iff in Hk as ([q j] & Ej & Hq). cbn in Ej. subst j.
    apply Hp. rewrite (J p q k); [|now left|now right]. apply in_map_iff. exists (q, k). auto.
  - apply IH; [exact Hd|]. intros a b c Ha Hb. apply (J a b c); now right.
Qed.

Lemma st_f_old : f old = new.
Proof.
  pose proof (st_f [] (Forall_nil _)) as H. rewrite !app_nil_r in H. exact H.
Qed.

Lemma st_by_path : by_path L' = moves f M' (by_path L).
Proof.
  unfold L'. rewrite fold_move_entry. cbn [by_path with_objs with_by_node with_by_path].
  fold f. fold M. unfold M', moves at 2. cbn [fold_left fst snd]. rewrite st_f_old.
  unfold LE, entered. cbn [by_path with_by_node with_by_path]. rewrite D_path. reflexivity.
Qed.

Lemma st_by_node : by_node L' = fold_left (fun d pi => nset (snd pi) (f (fst pi)) d) M' (by_node L).
Proof.
  unfold L'. rewrite fold_move_entry. cbn [by_node with_objs with_by_node with_by_path].
  fold M. unfold M'. cbn [fold_left fst snd]. rewrite st_f_old.
  unfold LE, entered. cbn [by_node with_by_node with_by_path]. rewrite D_node. reflexivity.
Qed.

Lemma st_in_key p : In p (map fst M') -> exists k r, In (p, k) M' /\ lookup L p = Some k /\ Forall plain r /\ p = abs_path (o ++ r).
Proof.
  intros H. apply in_map_iff in H as ([q k] & E & Hin). cbn [fst] in E. subst q.
  pose proof Hin as Hin'. apply st_M' in Hin' as (Hl & r & Hr & E). eauto 6.
Qed.

Lemma st_moves :
  NoDup (dkeys (by_path L')) /\
  (forall p k, In (p, k) M' -> lookup L' (f p) = Some k) /\
  (forall p, In p (map fst M') -> lookup L' p = None) /\
  (forall q, ~ In q (map fst M') -> ~ In q (map f (map fst M')) -> lookup L' q = lookup L q).
Proof.
  unfold lookup. rewrite st_by_path. apply moves_spec.
  - exact st_M'_keys.
  - apply (b_paths L HB).
  - intros p k H. now apply st_M' in H.
  - intros p q Hp Hq E. apply st_in_key in Hp as (k1 & r1 & _ & _ & H1 & ->).
    apply st_in_key in Hq as (k2 & r2 & _ & _ & H2 & ->).
    rewrite !st_f in E by assumption. apply abs_inj in E; [|apply Forall_app; auto..].
    apply app_inv_head in E. now subst.
  - intros p Hp. apply st_in_key in Hp as (k1 & r1 & _ & _ & H1 & ->).
    rewrite st_f by exact H1. apply Hv. exact H1.
Qed.

Lemma st_nmoves :
  NoDup (map fst (by_node L')) /\
  (forall p k, In (p, k) M' -> path_of L' k = Some (f p)) /\
  (forall k, ~ In k (map snd M') -> path_of L' k = path_of L k).
Proof.
  unfold path_of. rewrite st_by_node. apply nmoves_spec; [exact st_M'_ids|apply (b_nodes L HB)].
Qed.

Lemma st_lookup_inv q k : lookup L' q = Some k ->
  (exists p, In (p, k) M' /\ q = f p) \/
  (lookup L q = Some k /\ ~ In q (map fst M') /\ ~ In k (map snd M')).
Proof.
  intros E. destruct st_moves as (_ & S2 & S3 & S4).
  destruct (in_dec pystr_eq_dec q (map fst M')) as [Hq|Hq].
  { rewrite (S3 q Hq) in E. discriminate. }
  destruct (in_dec pystr_eq_dec q (map f (map fst M'))) as [Hq'|Hq'].
  - left. apply in_map_iff in Hq' as (p & Ep & Hp). apply st_in_key in Hp as (j & r & Hin & _).
    pose proof (S2 p j Hin) as E2. rewrite Ep in E2. exists p. split; [|now symmetry].
    assert (j = k) by congruence. now subst.
  - right. rewrite (S4 q Hq Hq') in E. split; [exact E|]. split; [exact Hq|].
    intros Hk. apply in_map_iff in Hk as ([p j] & Ej & Hin). cbn [snd] in Ej. subst j.
    apply Hq. apply in_map_iff. exists (p, k). split; [|exact Hin]. cbn [fst].
    apply st_M' in Hin as [Hl _]. exact (books_inj L p q k HB Hl E).
Qed.

Lemma st_inverse q k : lookup L' q = Some k <-> path_of L' k = Some q.
Proof.
  destruct st_moves as (_ & S2 & S3 & S4). destruct st_nmoves as (_ & N2 & N3). split.
  - intros E. destruct (st_lookup_inv q k E) as [(p & Hin & ->)|(E' & Hq & Hk)].
    + now apply N2.
    + rewrite (N3 k Hk). now apply (b_inverse L HB).
  - intros E. destruct (in_dec Nat.eq_dec k (map snd M')) as [Hk|Hk].
    + apply in_map_iff in Hk as ([p j] & Ej & Hin). cbn [snd] in Ej. subst j.
      rewrite (N2 p k Hin) in E. injection E as <-. now apply S2.
    + rewrite (N3 k Hk) in E. apply (b_inverse L HB) in E. rewrite S4; [exact E| |].
      * intros Hq. apply st_in_key in Hq as (j & r & Hin & Hl & _). apply Hk.
        apply in_map_iff. exists (q, j). cbn [snd]. split; [congruence|exact Hin].
      * intros Hq. apply in_map_iff in Hq as (p & <- & Hp).
        apply st_in_key in Hp as (j & r & Hin & Hl & Hr & ->).
        rewrite st_f in E by exact Hr. rewrite (Hv r Hr) in E. discriminate.
Qed.

Lemma st_objs k : match obj LD k with
  | None => obj L' k = None
  | Some m => obj L' k = Some (if in_dec Nat.eq_dec k (map snd M)
                               then reparent_node old new m else m)
  end.
Proof.
  unfold obj at 2 3. unfold L'. rewrite fold_move_entry. cbn [objs with_objs with_by_node with_by_path].
  fold M.
  rewrite (nth_fold_update snd (fun _ => reparent_node old new) M).
  2:{ pose proof st_M'_ids as H. unfold M' in H. cbn [map] in H. now inversion H. }
  assert (EO : nth_error (objs LE) k = obj LD k) by reflexivity. rewrite EO.
  destruct (find _ M) as [[p j]|] eqn:F.
  - apply find_some in F as [Hin E]. cbn [snd] in E. apply Nat.eqb_eq in E. subst j.
    destruct (obj LD k) as [m|]; [|reflexivity]. cbn [option_map].
    destruct (in_dec _ _ _) as [_|H]; [reflexivity|]. exfalso. apply H.
    apply in_map_iff. exists (p, k). auto.
  - destruct (obj LD k) as [m|]; [|reflexivity].
    destruct (in_dec _ _ _) as [H|_]; [|reflexivity].
    apply in_map_iff in H as ([p j] & E & Hin). cbn [snd] in E. subst j.
    pose proof (find_none _ _ F _ Hin) as C. cbn [snd] in C. now rewrite Nat.eqb_refl in C.
Qed.

Lemma st_spells q k : lookup L' q = Some k -> exists n, obj L' k = Some n /\ spells n q.
Proof.
  intros E. pose proof (st_objs k) as HO. pose proof (D_objs k) as HD.
  destruct (st_lookup_inv q k E) as [(p & Hin & ->)|(E' & Hq & Hk)].
  - pose proof Hin as Hin'. apply st_M' in Hin' as (Hl & r & Hr & ->).
    destruct (b_spells L HB _ _ Hl) as (n & En & Hs). rewrite En in HD. destruct HD as (s & Es).
    rewrite Es in HO. rewrite HO. eexists. split; [reflexivity|]. rewrite st_f by exact Hr.
    destruct (Nat.eqb k i) eqn:Ek.
    + apply Nat.eqb_eq in Ek. subst k.
      assert (r = []) as ->.
      { assert (E2 : abs_path (o ++ r) = old) by exact (books_inj L _ _ i HB Hl Hi).
        apply abs_inj in E2; [|apply Forall_app; auto|exact Ho].
        rewrite <- (app_nil_r o) in E2 at 2. now apply app_inv_head in E2. }
      destruct (in_dec _ _ _) as [H|_].
      { exfalso. pose proof st_M'_ids as N. unfold M' in N. cbn [map snd] in N. inversion N; contradiction. }
      rewrite app_nil_r. right. exists par, nm. repeat (split; [first [exact Hw|reflexivity]|]). reflexivity.
    + apply Nat.eqb_neq in Ek. destruct (in_dec _ _ _) as [H|H].
      2:{ exfalso. destruct Hin as [Hin|Hin]; [injection Hin as _ Hin; congruence|].
          apply H. apply in_map_iff. eexists. split; [|exact Hin]. reflexivity. }
      destruct r as [|x r _] using rev_ind.
      { exfalso. rewrite app_nil_r in Hl. fold old in Hl. congruence. }
      rewrite app_assoc in Hs. apply spells_snoc in Hs as [Hpar Hnm].
      2:{ rewrite <- app_assoc. apply Forall_app. auto. }
      right. exists (w ++ r), x. rewrite <- app_assoc.
      split; [apply Forall_app; auto|]. split; [reflexivity|]. cbn [s_parent s_name reparent_node set_parent set_order].
      rewrite Hpar, Hnm. split; [|reflexivity]. apply st_f. exact (Forall_app_l _ _ _ Hr).
  - destruct (b_spells L HB _ _ E') as (n & En & Hs). rewrite En in HD. destruct HD as (s & Es).
    rewrite Es in HO. rewrite HO. eexists. split; [reflexivity|].
    destruct (in_dec _ _ _) as [H|_].
    { exfalso. apply Hk. unfold M'. cbn [map]. now right. }
    destruct (Nat.eqb k i) eqn:Ek; [|exact Hs].
    exfalso. apply Hk. apply Nat.eqb_eq in Ek. subst k. now left.
Qed.

Lemma st_books : books L'.
Proof.
  constructor.
  - exact st_inverse.
  - exact st_spells.
  - intros k.
    assert (EL : spec_list L' = spec_list L).
    { unfold L'. rewrite fold_move_entry. exact D_list. }
    rewrite EL, (b_listed L HB). destruct st_nmoves as (_ & N2 & N3).
    split; intros (p & E).
    + apply (b_inverse L HB) in E. destruct (in_dec Nat.eq_dec k (map snd M')) as [Hk|Hk].
      * apply in_map_iff in Hk as ([q j] & Ej & Hin). cbn [snd] in Ej. subst j.
        exists (f q). apply st_inverse. now apply N2.
      * exists p. apply st_inverse. now rewrite (N3 k Hk).
    + apply st_lookup_inv in E as [(q & Hin & _)|(E & _)]; [|eauto].
      apply st_M' in Hin as [Hl _]. eauto.
  - assert (EL : spec_list L' = spec_list L).
    { unfold L'. rewrite fold_move_entry. exact D_list. }
    rewrite EL. apply (b_once L HB).
  - apply st_moves.
  - apply st_nmoves.
Qed.

Lemma st_moved : moved o w L L'.
Proof.
  destruct st_moves as (_ & S2 & S3 & S4). constructor.
  - intros r Hr. destruct (lookup L (abs_path (o ++ r))) as [k|] eqn:E.
    + rewrite <- st_f by exact Hr. apply S2. apply st_M'. eauto.
    + destruct (lookup L' (abs_path (w ++ r))) as [k|] eqn:E'; [|reflexivity].
      apply st_lookup_inv in E' as [(p & Hin & Ep)|(E' & _)].
      * apply st_M' in Hin as (Hl & r' & Hr' & ->). rewrite st_f in Ep by exact Hr'.
        apply abs_inj in Ep; [|apply Forall_app; auto..]. apply app_inv_head in Ep. subst r'. congruence.
      * rewrite (Hv r Hr) in E'. discriminate.
  - intros r Hr Hn. destruct (lookup L' (abs_path (o ++ r))) as [k|] eqn:E; [|reflexivity].
    apply st_lookup_inv in E as [(p & Hin & Ep)|(E & Hq & _)].
    + apply st_M' in Hin as (Hl & r' & Hr' & ->). rewrite st_f in Ep by exact Hr'.
      apply abs_inj in Ep; [|apply Forall_app; auto..]. exfalso. apply Hn. now exists r'.
    + exfalso. apply Hq. apply in_map_iff. exists (abs_path (o ++ r), k). split; [reflexivity|].
      apply st_M'. eauto.
  - intros ms Hms H1 H2. apply S4.
    + intros H. apply st_in_key in H as (k & r & _ & _ & Hr & E). apply H2. exists r.
      apply abs_inj in E; [exact E|exact Hms|apply Forall_app; auto].
    + intros H. apply in_map_iff in H as (p & Ep & H). apply st_in_key in H as (k & r & _ & _ & Hr & ->).
      rewrite st_f in Ep by exact Hr. apply H1. exists r.
      symmetry. apply abs_inj in Ep; [exact Ep|apply Forall_app; auto|exact Hms].
Qed.

Lemma st_fields : spec_list L' = spec_list LD /\ table L' = table LD /\ positions L' = positions LD /\
  collapse L' = collapse LD /\ muted L' = muted LD /\ hidden L' = hidden LD /\ top L' = top LD.
Proof. unfold L'. rewrite fold_move_entry. repeat split. Qed.

Lemma st_obj k : match obj LD k with
  | None => obj L' k = None
  | Some m => exists p, obj L' k = Some (set_parent p m)
  end.
Proof.
  pose proof (st_objs k) as H. destruct (obj LD k) as [m|]; [|exact H].
  destruct (in_dec _ _ _); rewrite H; [now eexists|].
  exists (s_parent m). destruct m; reflexivity.
Qed.
End Subtree.
