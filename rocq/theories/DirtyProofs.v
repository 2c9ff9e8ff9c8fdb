(** Proofs about [DirtyMap]. *)

From Coq Require Import String List NArith Bool Lia Arith Relations Permutation.
From Verif Require Import PyStr PyStrFacts Dict DictFacts ListMerger MergeProofs DirtyMap DirtySpec.
Import ListNotations.

Lemma depends_def m p c : depends m p c <-> In c (dget_def p [] m).
Proof.
  unfold depends, dget_def. destruct (dget p m) as [l|].
  - split; [intros (l' & E & H); injection E as <-; auto|eauto].
  - split; [intros (l' & E & _); discriminate|intros []].
Qed.

(** Inner fold of the round. *)
Definition add_new (concerns : list pystr) (tmp : list pystr) (item : pystr) :=
  if str_in item (concerns ++ tmp) then tmp else tmp ++ [item].

Lemma add_new_fold concerns items tmp x :
  In x (fold_left (add_new concerns) items tmp) <->
  In x tmp \/ (In x items /\ ~ In x concerns).
Proof.
  revert tmp. induction items as [|i items IH]; intros tmp; cbn [fold_left].
  - cbn. tauto.
  - rewrite IH. unfold add_new. destruct (str_in i (concerns ++ tmp)) eqn:E.
    + apply str_in_In in E. apply in_app_or in E. cbn.
      split; [tauto|]. intros [H|[[->|H] Hn]]; tauto.
    + apply str_in_false in E. rewrite in_app_iff in E.
      rewrite in_app_iff. cbn. split.
      * intros [[H|[->|[]]]|H]; tauto.
      * intros [H|[[->|H] Hn]]; tauto.
Qed.

Lemma add_new_nodup concerns items tmp :
  NoDup (concerns ++ tmp) -> NoDup (concerns ++ fold_left (add_new concerns) items tmp).
Proof.
  revert tmp. induction items as [|i items IH]; intros tmp H; cbn [fold_left]; auto.
  apply IH. unfold add_new. destruct (str_in i (concerns ++ tmp)) eqn:E; auto.
  apply str_in_false in E. rewrite app_assoc.
  apply (Permutation_NoDup (l := i :: concerns ++ tmp)).
  - apply Permutation_cons_append.
  - now constructor.
Qed.

Lemma add_new_nodup_tmp concerns items tmp :
  NoDup tmp -> NoDup (fold_left (add_new concerns) items tmp).
Proof.
  revert tmp. induction items as [|i items IH]; intros tmp H; cbn [fold_left]; auto.
  apply IH. unfold add_new. destruct (str_in i (concerns ++ tmp)) eqn:E; auto.
  apply str_in_false in E. rewrite in_app_iff in E.
  apply (Permutation_NoDup (l := i :: tmp)).
  - apply Permutation_cons_append.
  - constructor; tauto.
Qed.

Lemma dirty_round_fold m concerns new acc :
  fold_left (fun tmp concern =>
    fold_left (add_new concerns) (dget_def concern [] m) tmp) new acc
  = fold_left (add_new concerns) (flat_map (fun c => dget_def c [] m) new) acc.
Proof.
  revert acc. induction new as [|c new IH]; intros acc; auto.
  cbn [fold_left flat_map]. now rewrite fold_left_app, IH.
Qed.

Lemma dirty_round_in m concerns new x :
  In x (dirty_round m concerns new) <->
  (exists c, In c new /\ depends m c x) /\ ~ In x concerns.
Proof.
  unfold dirty_round. fold (add_new concerns).
  change (fun (tmp : list pystr) (item : pystr) =>
            if str_in item (concerns ++ tmp) then tmp else tmp ++ [item])
    with (add_new concerns).
  rewrite dirty_round_fold, add_new_fold, in_flat_map.
  setoid_rewrite depends_def. cbn. tauto.
Qed.

Lemma dirty_round_nodup_app m concerns new :
  NoDup concerns -> NoDup (concerns ++ dirty_round m concerns new).
Proof.
  intros H. unfold dirty_round.
  change (fun (tmp : list pystr) (item : pystr) =>
            if str_in item (concerns ++ tmp) then tmp else tmp ++ [item])
    with (add_new concerns).
  rewrite dirty_round_fold. apply add_new_nodup. now rewrite app_nil_r.
Qed.

Lemma dirty_round_nodup m concerns new : NoDup (dirty_round m concerns new).
Proof.
  unfold dirty_round.
  change (fun (tmp : list pystr) (item : pystr) =>
            if str_in item (concerns ++ tmp) then tmp else tmp ++ [item])
    with (add_new concerns).
  rewrite dirty_round_fold. apply add_new_nodup_tmp. constructor.
Qed.

(** All values of the map. *)
Definition targets (m : dict (list pystr)) : list pystr := concat (map snd m).

Lemma depends_target m p c : depends m p c -> In c (targets m).
Proof.
  intros (l & E & H). apply dget_In in E. unfold targets.
  apply in_concat. exists l. split; auto. apply in_map_iff. now exists (p, l).
Qed.

(** Termination: every round adds something new from the finite set of
    targets. *)
Lemma dirty_loop_total fuel m concerns new :
  (length (nodup pystr_eq_dec (targets m)) -
   length (filter (fun x => str_in x concerns) (nodup pystr_eq_dec (targets m))) < fuel) ->
  exists l, dirty_loop fuel m concerns new = Some l.
Proof.
  set (T := nodup pystr_eq_dec (targets m)).
  assert (HT : NoDup T) by apply NoDup_nodup.
  revert concerns new. induction fuel as [|f IH]; intros concerns new H; [lia|].
  destruct new as [|c new]; [cbn; eauto|]. cbn [dirty_loop].
  destruct (dirty_round m concerns (c :: new)) as [|x tmp] eqn:E.
  { exists (concerns ++ []). destruct f; reflexivity. }
  apply IH.
  assert (Hx : In x (dirty_round m concerns (c :: new))) by (rewrite E; now left).
  apply dirty_round_in in Hx as [(c' & _ & Hd) Hn].
  assert (HxT : In x T) by (apply nodup_In; now apply depends_target in Hd).
  (* x is counted now and was not before *)
  assert (Hlt : length (filter (fun y => str_in y concerns) T) <
                length (filter (fun y => str_in y (concerns ++ x :: tmp)) T)).
  { assert (G : NoDup (x :: filter (fun y => str_in y concerns) T)).
    { constructor; [|now apply NoDup_filter]. intros Hi. apply filter_In in Hi as [_ Hi].
      apply str_in_In in Hi. auto. }
    apply (NoDup_incl_length G). intros y [<-|Hy].
    - apply filter_In. split; auto. apply str_in_In. apply in_or_app. right. now left.
    - apply filter_In in Hy as [Hy1 Hy2]. apply filter_In. split; auto.
      apply str_in_In in Hy2. apply str_in_In. apply in_or_app. now left. }
  assert (Hle : forall g : pystr -> bool, length (filter g T) <= length T).
  { intros g. clear. induction T as [|y T IHT]; cbn; auto.
    destruct (g y); cbn; lia. }
  pose proof (Hle (fun y => str_in y (concerns ++ x :: tmp))). lia.
Qed.

Lemma nodup_length_le l : length (nodup pystr_eq_dec l) <= length l.
Proof.
  induction l as [|x l IH]; cbn; auto.
  destruct (in_dec pystr_eq_dec x l); cbn; lia.
Qed.

Lemma dirties_terminate m p fuel :
  length (targets m) < fuel -> exists l, get_node_dirties fuel m p = Some l.
Proof.
  intros H. unfold get_node_dirties. apply dirty_loop_total.
  pose proof (nodup_length_le (targets m)). lia.
Qed.

(** Soundness and completeness. *)
Lemma dirty_loop_sound fuel m p concerns new l :
  dirty_loop fuel m concerns new = Some l ->
  (forall x, In x concerns -> clos_trans _ (depends m) p x) ->
  (forall x, In x new -> x = p \/ clos_trans _ (depends m) p x) ->
  forall x, In x l -> clos_trans _ (depends m) p x.
Proof.
  revert concerns new. induction fuel as [|f IH]; intros concerns new E Hc Hn x Hx.
  - destruct new; [|discriminate]. injection E as <-. auto.
  - destruct new as [|c new]; [injection E as <-; auto|].
    cbn [dirty_loop] in E. apply (IH _ _ E); auto.
    + intros y Hy. apply in_app_or in Hy as [Hy|Hy]; auto.
      apply dirty_round_in in Hy as [(c' & Hc' & Hd) _].
      destruct (Hn c' Hc') as [->|Ht]; [now constructor|].
      eapply t_trans; [exact Ht|now constructor].
    + intros y Hy. right. apply dirty_round_in in Hy as [(c' & Hc' & Hd) _].
      destruct (Hn c' Hc') as [->|Ht]; [now constructor|].
      eapply t_trans; [exact Ht|now constructor].
Qed.

Lemma dirty_loop_closed fuel m concerns new l :
  dirty_loop fuel m concerns new = Some l ->
  (forall x y, In x concerns -> ~ In x new -> depends m x y -> In y concerns) ->
  (forall x, In x concerns -> In x l) /\
  (forall x y, In x l \/ In x new -> depends m x y -> In y l).
Proof.
  revert concerns new. induction fuel as [|f IH]; intros concerns new E Hcl.
  - destruct new; [|discriminate]. injection E as <-. split; auto.
    intros x y [H|[]] Hd. apply (Hcl x); auto.
  - destruct new as [|c new].
    + injection E as <-. split; auto. intros x y [H|[]] Hd. apply (Hcl x); auto.
    + cbn [dirty_loop] in E. remember (c :: new) as nw eqn:Enw. clear Enw c new.
      set (tmp := dirty_round m concerns nw) in *.
      destruct (IH _ _ E) as [H1 H2].
      { intros x y Hx Hxt Hd. apply in_or_app.
        destruct (in_dec pystr_eq_dec y concerns) as [Hy|Hy]; [auto|right].
        apply in_app_or in Hx as [Hx|Hx]; [|contradiction].
        destruct (in_dec pystr_eq_dec x nw) as [Hn|Hn].
        - apply dirty_round_in. split; eauto.
        - exfalso. apply Hy. apply (Hcl x); auto. }
      split.
      * intros x Hx. apply H1. apply in_or_app. now left.
      * intros x y [Hx|Hx] Hd; [apply (H2 x); auto|].
        destruct (in_dec pystr_eq_dec y concerns) as [Hy|Hy].
        -- apply H1. apply in_or_app. now left.
        -- apply H1. apply in_or_app. right. apply dirty_round_in. split; eauto.
Qed.

Lemma dirties_exact m p fuel l :
  get_node_dirties fuel m p = Some l ->
  forall x, In x l <-> clos_trans _ (depends m) p x.
Proof.
  unfold get_node_dirties. intros E x. split.
  - apply (dirty_loop_sound _ _ _ _ _ _ E).
    + intros y Hy. constructor. now apply depends_def.
    + intros y [->|Hy]; auto. right. constructor. now apply depends_def.
  - destruct (dirty_loop_closed _ _ _ _ _ E) as [_ H].
    { intros a b Ha Hn _. destruct Hn. now right. }
    intros Ht. apply clos_trans_t1n in Ht.
    assert (G : forall a, clos_trans_1n _ (depends m) a x ->
              (In a l \/ In a (p :: dget_def p [] m)) -> In x l).
    { induction 1 as [a b Hd|a b c Hd _ IH]; intros Ha; eauto. }
    apply (G p); auto. right. now left.
Qed.

Lemma dirty_loop_nodup fuel m concerns new l :
  dirty_loop fuel m concerns new = Some l -> NoDup concerns -> NoDup l.
Proof.
  revert concerns new. induction fuel as [|f IH]; intros concerns new E H.
  - destruct new; [|discriminate]. now injection E as <-.
  - destruct new as [|c new]; [now injection E as <-|].
    apply (IH _ _ E). now apply dirty_round_nodup_app.
Qed.

Lemma dirty_loop_prefix fuel m concerns new l :
  dirty_loop fuel m concerns new = Some l -> exists r, l = concerns ++ r.
Proof.
  revert concerns new. induction fuel as [|f IH]; intros concerns new E.
  - destruct new; [|discriminate]. injection E as <-. exists []. now rewrite app_nil_r.
  - destruct new as [|c new]; [injection E as <-; exists []; now rewrite app_nil_r|].
    destruct (IH _ _ E) as [r ->]. exists (dirty_round m concerns (c :: new) ++ r).
    now rewrite app_assoc.
Qed.

(** *** The map as a history of registrations. *)

Definition lists_nodup (m : dict (list pystr)) : Prop :=
  NoDup (dkeys m) /\ forall p l, dget p m = Some l -> NoDup l.

Lemma extend_depends isw same p c m a b :
  isw p = false -> isw c = false -> (same = true -> p = c) ->
  depends (extend_dirty_map isw same p c m) a b <->
  depends m a b \/ (a = p /\ b = c /\ same = false).
Proof.
  intros H1 H2 Hs. unfold extend_dirty_map. rewrite H1, H2. cbn [orb].
  set (nc := dget_def p [] m).
  set (m1 := match nc with [] => dset p nc m | _ => m end).
  assert (D1 : forall x y, depends m1 x y <-> depends m x y).
  { intros x y. unfold m1. destruct nc eqn:E; [|reflexivity].
    rewrite !depends_def. unfold dget_def. rewrite dget_dset.
    destruct (str_eqb p x) eqn:Ex; [|reflexivity].
    apply str_eqb_eq in Ex as <-. fold (dget_def p [] m). unfold nc in E. rewrite E.
    reflexivity. }
  destruct same; cbn [negb andb].
  - rewrite D1. split; [tauto|]. intros [H|(_ & _ & H)]; [auto|discriminate].
  - destruct (str_in c nc) eqn:Ec; cbn [negb].
    + rewrite D1. split; [tauto|]. intros [H|(-> & -> & _)]; auto.
      apply depends_def. now apply str_in_In.
    + rewrite depends_def. unfold dget_def at 1. rewrite dget_dset.
      destruct (str_eqb p a) eqn:Ea.
      * apply str_eqb_eq in Ea as <-. rewrite in_app_iff. cbn.
        unfold nc. rewrite <- depends_def. intuition congruence.
      * apply str_eqb_neq in Ea.
        change (match dget a m1 with Some v => v | None => [] end)
          with (dget_def a [] m1).
        rewrite <- depends_def, D1. intuition congruence.
Qed.

Lemma extend_world isw same p c m :
  isw p = true \/ isw c = true -> extend_dirty_map isw same p c m = m.
Proof.
  intros H. unfold extend_dirty_map.
  assert (E : isw p || isw c = true) by (apply orb_true_iff; tauto). now rewrite E.
Qed.

Lemma NoDup_snoc (l : list pystr) x : NoDup l -> ~ In x l -> NoDup (l ++ [x]).
Proof.
  intros H Hx. apply (Permutation_NoDup (l := x :: l)).
  - apply Permutation_cons_append.
  - now constructor.
Qed.

Lemma extend_nodup isw same p c m :
  lists_nodup m -> lists_nodup (extend_dirty_map isw same p c m).
Proof.
  intros [Hk Hl]. unfold extend_dirty_map. destruct (isw p || isw c); [split; auto|].
  set (nc := dget_def p [] m).
  assert (Hnc : NoDup nc).
  { unfold nc, dget_def. destruct (dget p m) eqn:E; [eauto|constructor]. }
  set (m1 := match nc with [] => dset p nc m | _ => m end).
  assert (L1 : lists_nodup m1).
  { unfold m1. destruct nc eqn:E; [|split; auto]. split; [now apply NoDup_dset|].
    intros q l. rewrite dget_dset. destruct (str_eqb p q); eauto.
    intros H; injection H as <-. constructor. }
  destruct (negb same && negb (str_in c nc)) eqn:E; auto.
  apply andb_true_iff in E as [_ E]. apply negb_true_iff, str_in_false in E.
  destruct L1 as [K1 L1]. split; [now apply NoDup_dset|].
  intros q l. rewrite dget_dset. destruct (str_eqb p q); eauto.
  intros H; injection H as <-. now apply NoDup_snoc.
Qed.

Definition drop_from (p : pystr) (l : list pystr) : list pystr :=
  match py_remove p l with Some l' => l' | None => l end.

Lemma py_remove_none p l : py_remove p l = None -> ~ In p l.
Proof.
  induction l as [|y l IH]; cbn; [tauto|]. destruct (str_eqb y p) eqn:E; [discriminate|].
  apply str_eqb_neq in E. destruct (py_remove p l); [discriminate|]. intros _ [H|H]; auto.
  now apply IH.
Qed.

Lemma py_remove_some p l l' : py_remove p l = Some l' -> In p l.
Proof.
  revert l'. induction l as [|y l IH]; cbn; intros l' E; [discriminate|].
  destruct (str_eqb y p) eqn:Ey; [apply str_eqb_eq in Ey; now left|].
  destruct (py_remove p l); [|discriminate]. right. eauto.
Qed.

Lemma drop_from_in p l x : NoDup l -> (In x (drop_from p l) <-> In x l /\ x <> p).
Proof.
  intros Hn. unfold drop_from. destruct (py_remove p l) as [l'|] eqn:E.
  - assert (Hp : In p l).
    { now apply py_remove_some in E. }
    destruct (py_remove_perm p l Hp) as (l2 & E2 & Hperm). rewrite E in E2. injection E2 as <-.
    assert (Hn2 : NoDup (p :: l')) by (eapply Permutation_NoDup; eauto).
    inversion Hn2; subst. split.
    + intros Hx. split; [|congruence].
      apply Permutation_sym in Hperm. eapply Permutation_in; [exact Hperm|now right].
    + intros [Hx Hxp]. apply (Permutation_in _ Hperm) in Hx as [->|Hx]; [congruence|auto].
  - apply py_remove_none in E. split; [|tauto]. intros H. split; auto. congruence.
Qed.

Lemma NoDup_drop_from p l : NoDup l -> NoDup (drop_from p l).
Proof.
  unfold drop_from. intros Hn. destruct (py_remove p l) as [l'|] eqn:E; auto.
  revert l' E. induction Hn as [|y l Hy Hn IH]; cbn; intros l' E; [discriminate|].
  destruct (str_eqb y p); [injection E as <-; auto|].
  destruct (py_remove p l) as [t|] eqn:Et; [|discriminate]. injection E as <-.
  constructor; auto. intros Hi. apply Hy.
  assert (Hd : In y (drop_from p l)) by (unfold drop_from; now rewrite Et).
  now apply drop_from_in in Hd.
Qed.

Lemma dget_map_values (f : list pystr -> list pystr) (m : dict (list pystr)) p :
  dget p (map (fun kv => (fst kv, f (snd kv))) m) = option_map f (dget p m).
Proof.
  induction m as [|[k v] m IH]; cbn; auto. destruct (str_eqb k p); auto.
Qed.

Lemma remove_unfold isw p m :
  isw p = false ->
  remove_from_dirty_map isw p m
  = map (fun kv => (fst kv, drop_from p (snd kv))) (ddel p m).
Proof.
  intros H. unfold remove_from_dirty_map. rewrite H.
  destruct (str_in p (dkeys m)) eqn:E; auto.
  apply str_in_false in E.
  replace (ddel p m) with m; auto.
  symmetry. clear H. induction m as [|[k v] m IH]; auto. cbn in *.
  assert (Ek : str_eqb k p = false) by (apply str_eqb_neq; tauto).
  rewrite Ek. f_equal. apply IH. tauto.
Qed.

Lemma remove_depends isw p m a b :
  isw p = false -> lists_nodup m ->
  depends (remove_from_dirty_map isw p m) a b <->
  depends m a b /\ a <> p /\ b <> p.
Proof.
  intros Hw [Hk Hl]. rewrite remove_unfold by auto.
  unfold depends. rewrite dget_map_values, dget_ddel by auto.
  destruct (str_eqb p a) eqn:E.
  - apply str_eqb_eq in E as <-. cbn. split; [intros (l & ? & _); discriminate|tauto].
  - apply str_eqb_neq in E. destruct (dget a m) as [l|] eqn:El; cbn.
    + split.
      * intros (l' & E2 & H). injection E2 as <-. apply drop_from_in in H as [H1 H2]; eauto.
      * intros ((l' & E2 & H) & _ & Hb). injection E2 as <-.
        exists (drop_from p l). split; auto. apply drop_from_in; eauto.
    + split; [intros (l' & E2 & _); discriminate|intros ((l' & E2 & _) & _); discriminate].
Qed.

Lemma remove_nodup isw p m :
  lists_nodup m -> lists_nodup (remove_from_dirty_map isw p m).
Proof.
  intros [Hk Hl]. destruct (isw p) eqn:Hw.
  { unfold remove_from_dirty_map. rewrite Hw. now split. }
  rewrite remove_unfold by auto. split.
  - unfold dkeys. rewrite map_map. cbn. apply NoDup_ddel. exact Hk.
  - intros q l. rewrite dget_map_values, dget_ddel by auto.
    destruct (str_eqb p q); [discriminate|]. destruct (dget q m) eqn:E; [|discriminate].
    cbn. intros H; injection H as <-. apply NoDup_drop_from. eauto.
Qed.

Lemma history_lists_nodup isw ops : lists_nodup (dirty_history isw ops).
Proof.
  induction ops as [|[same p c|p] ops IH]; cbn [dirty_history].
  - split; [constructor|discriminate].
  - now apply extend_nodup.
  - now apply remove_nodup.
Qed.

Lemma history_depends isw ops :
  Forall honest ops ->
  forall a b, depends (dirty_history isw ops) a b <-> known isw ops a b.
Proof.
  induction ops as [|[same p c|p] ops IH]; intros Hh a b; cbn [dirty_history known].
  - split; [intros (l & E & _); discriminate|intros []].
  - inversion Hh as [|? ? H1 H2]; subst.
    destruct (isw p) eqn:Ep; [|destruct (isw c) eqn:Ec].
    + rewrite extend_world by auto. rewrite IH by auto. intuition congruence.
    + rewrite extend_world by auto. rewrite IH by auto. intuition congruence.
    + rewrite extend_depends by auto. rewrite IH by auto. intuition congruence.
  - inversion Hh as [|? ? H1 H2]; subst. destruct (isw p) eqn:Ep.
    + unfold remove_from_dirty_map. rewrite Ep, IH by auto. intuition congruence.
    + rewrite remove_depends by (auto using history_lists_nodup).
      rewrite IH by auto. intuition congruence.
Qed.

Lemma dirties_nodup isw ops p fuel l :
  get_node_dirties fuel (dirty_history isw ops) p = Some l -> NoDup l.
Proof.
  unfold get_node_dirties. intros E. apply (dirty_loop_nodup _ _ _ _ _ E).
  unfold dget_def. destruct (dget p _) eqn:Ed; [|constructor].
  now apply (proj2 (history_lists_nodup isw ops) p).
Qed.
