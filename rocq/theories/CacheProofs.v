(** Proofs about [CacheTimes]. *)

From Coq Require Import List NArith ZArith Bool Arith Lia.
From Verif Require Import PyStr PyStrFacts Dict DictFacts MergeProofs CacheTimes CacheSpec.
Import ListNotations.

(** *** Snoc forms of the specification *)

Lemma enters_snoc p es e :
  enters p (es ++ [e]) =
  enters p es ++ match e with Enter q t => if str_eqb q p then [t] else [] | Exit _ _ => [] end.
Proof.
  induction es as [|[q t|q t] es IH]; cbn.
  - destruct e as [q t|q t]; auto.
  - rewrite IH. now destruct (str_eqb q p).
  - exact IH.
Qed.

(** Number of open runs after a history. *)
Fixpoint open_after (o : nat) (p : pystr) (es : list event) : nat :=
  match es with
  | [] => o
  | Enter q _ :: r => open_after (if str_eqb q p then S o else o) p r
  | Exit q _ :: r => open_after (if str_eqb q p then pred o else o) p r
  end.

Lemma exits_snoc p es e o :
  exits_from o p (es ++ [e]) =
  exits_from o p es ++
  match e with
  | Enter _ _ => []
  | Exit q t => if str_eqb q p then match open_after o p es with O => [] | S _ => [t] end else []
  end.
Proof.
  revert o. induction es as [|[q t|q t] es IH]; intros o; cbn.
  - destruct e as [q t|q t]; auto.
  - apply IH.
  - destruct (str_eqb q p); [|apply IH]. destruct o; cbn; rewrite IH; auto.
Qed.

Lemma open_count p es o :
  open_after o p es + length (exits_from o p es) = o + length (enters p es).
Proof.
  revert o. induction es as [|[q t|q t] es IH]; intros o; cbn; [lia| |].
  - destruct (str_eqb q p); rewrite IH; cbn; lia.
  - destruct (str_eqb q p); [|apply IH]. destruct o; cbn; [apply IH|].
    specialize (IH o). lia.
Qed.

Lemma open_after_snoc p es e o :
  open_after o p (es ++ [e]) =
  match e with
  | Enter q _ => if str_eqb q p then S (open_after o p es) else open_after o p es
  | Exit q _ => if str_eqb q p then pred (open_after o p es) else open_after o p es
  end.
Proof.
  revert o. induction es as [|[q t|q t] es IH]; intros o; cbn; auto.
Qed.

Lemma pair_runs_enter en ex t :
  length ex <= length en -> pair_runs (en ++ [t]) ex = pair_runs en ex ++ [(t, None)].
Proof.
  revert ex. induction en as [|a en IH]; intros [|x ex] H; cbn in *; auto; try lia.
  - now rewrite IH by (cbn; lia).
  - now rewrite IH by lia.
Qed.

Lemma pair_runs_full en ex :
  length en = length ex -> Forall (fun r => snd r <> None) (pair_runs en ex).
Proof.
  revert ex. induction en as [|a en IH]; intros [|x ex] H; cbn in *; try discriminate; auto.
  constructor; [discriminate|]. apply IH. lia.
Qed.

Lemma pair_runs_length en ex : length (pair_runs en ex) = length en.
Proof. revert ex. induction en as [|a en IH]; intros [|x ex]; cbn; auto. Qed.

(** *** The heap *)

Lemma store_length h a e : length (store h a e) = length h.
Proof. revert a. induction h as [|x h IH]; intros [|a]; cbn; auto. Qed.

Lemma load_store_same h a e : a < length h -> load (store h a e) a = e.
Proof.
  unfold load. revert a. induction h as [|x h IH]; intros [|a] H; cbn in *; auto; try lia.
  apply IH. lia.
Qed.

Lemma load_store_other h a b e : a <> b -> load (store h a e) b = load h b.
Proof.
  unfold load. revert a b. induction h as [|x h IH]; intros [|a] [|b] H; cbn; auto; try lia.
Qed.

Lemma load_app h e a : a < length h -> load (h ++ [e]) a = load h a.
Proof. intros H. unfold load. now rewrite app_nth1. Qed.

Lemma load_last h e : load (h ++ [e]) (length h) = e.
Proof. unfold load. rewrite app_nth2, Nat.sub_diag; auto. Qed.

(** *** First open run *)

(** [close t rs]: the first run without exit gets exit [t]. *)
Fixpoint close (t : Z) (rs : list entry) : list entry :=
  match rs with
  | [] => []
  | (en, None) :: r => (en, Some t) :: r
  | (en, Some x) :: r => (en, Some x) :: close t r
  end.

Lemma close_pair en ex t :
  length ex < length en -> close t (pair_runs en ex) = pair_runs en (ex ++ [t]).
Proof.
  revert ex. induction en as [|a en IH]; intros [|x ex] H; cbn in *; try lia; auto.
  f_equal. apply IH. lia.
Qed.

Lemma first_open_none h l :
  first_open h l = None <-> Forall (fun a => snd (load h a) <> None) l.
Proof.
  induction l as [|a l IH]; cbn.
  - split; auto.
  - destruct (snd (load h a)) eqn:E.
    + rewrite IH. split.
      * intros H. constructor; auto. congruence.
      * intros H. now inversion H.
    + split; [discriminate|]. intros H. inversion H; congruence.
Qed.

Lemma first_open_close h l a t :
  NoDup l -> Forall (fun b => b < length h) l -> first_open h l = Some a ->
  In a l /\
  map (load (store h a (fst (load h a), Some t))) l = close t (map (load h) l).
Proof.
  intros Hn Hb. revert a. induction l as [|b l IH]; intros a H; cbn in H; [discriminate|].
  inversion Hn as [|? ? Hb1 Hn']; inversion Hb as [|? ? Hb2 Hb']; subst.
  destruct (load h b) as [en [x|]] eqn:E; cbn in H.
  - destruct (IH Hn' Hb' a H) as [Hi Hm]. split; [now right|].
    assert (Hne : a <> b) by congruence.
    cbn [map]. rewrite load_store_other by auto. rewrite E. cbn [close].
    now rewrite Hm.
  - injection H as <-. split; [now left|]. cbn [map]. rewrite load_store_same by auto.
    rewrite E. cbn [close fst]. f_equal. apply map_ext_in. intros c Hc.
    apply load_store_other. congruence.
Qed.

(** *** The invariant *)

Definition addrs (c : cache) (p : pystr) : list nat := dget_def p [] (node_time_map c).

Record inv (es : list event) (c : cache) : Prop := {
  inv_times : node_times c = seq 0 (length (heap c));
  inv_valid : forall p, Forall (fun a => a < length (heap c)) (addrs c p);
  inv_nodup : forall p, NoDup (addrs c p);
  inv_disj : forall p q a, In a (addrs c p) -> In a (addrs c q) -> p = q;
  inv_cover : forall a, a < length (heap c) -> exists p, In a (addrs c p);
  inv_runs : forall p, map (load (heap c)) (addrs c p) = runs p es;
  inv_key : forall p, dget p (node_time_map c) = None <-> enters p es = []
}.

Lemma addrs_set c p q l :
  dget_def q [] (dset p l (node_time_map c)) = if str_eqb p q then l else addrs c q.
Proof. unfold addrs, dget_def. rewrite dget_dset. now destruct (str_eqb p q). Qed.

Lemma exits_le p es : length (exits p es) <= length (enters p es).
Proof. pose proof (open_count p es 0). unfold exits. lia. Qed.

Lemma inv_enter es c p t :
  inv es c -> inv (es ++ [Enter p t]) (set_node_enter_time c p t).
Proof.
  intros H. destruct H as [Ht Hv Hn Hd Hc Hr Hk].
  unfold set_node_enter_time.
  assert (HA : forall q, addrs {| heap := heap c ++ [(t, None)];
     node_times := node_times c ++ [length (heap c)];
     node_time_map := dset p (dget_def p [] (node_time_map c) ++ [length (heap c)])
                           (node_time_map c) |} q
     = if str_eqb p q then addrs c q ++ [length (heap c)] else addrs c q).
  { intros q. unfold addrs at 1. cbn [node_time_map]. rewrite addrs_set.
    destruct (str_eqb p q) eqn:E; auto. apply str_eqb_eq in E as ->. reflexivity. }
  assert (HO : forall q, ~ In (length (heap c)) (addrs c q)).
  { intros q Hi. specialize (Hv q). rewrite Forall_forall in Hv. apply Hv in Hi. lia. }
  assert (HF : forall q a, In a (addrs c q) -> a < length (heap c)).
  { intros q a Hi. specialize (Hv q). rewrite Forall_forall in Hv. auto. }
  constructor; cbn [heap node_times].
  - rewrite app_length. cbn. rewrite seq_app. cbn. now rewrite Ht.
  - intros q. rewrite HA, app_length. cbn. rewrite Forall_forall. intros a Ha.
    destruct (str_eqb p q).
    + apply in_app_or in Ha as [Ha|[<-|[]]]; [apply HF in Ha; lia|lia].
    + apply HF in Ha. lia.
  - intros q. rewrite HA. destruct (str_eqb p q); auto.
    rewrite <- (rev_involutive (_ ++ _)), rev_app_distr. cbn.
    apply (NoDup_rev (l := length (heap c) :: rev (addrs c q))).
    constructor; [rewrite <- in_rev; apply HO|]. now apply NoDup_rev.
  - intros q1 q2 a. rewrite !HA.
    destruct (str_eqb p q1) eqn:E1, (str_eqb p q2) eqn:E2; intros H1 H2; eauto.
    + apply str_eqb_eq in E1. apply str_eqb_eq in E2. congruence.
    + apply in_app_or in H1 as [H1|[<-|[]]]; [eauto|]. now destruct (HO q2).
    + apply in_app_or in H2 as [H2|[<-|[]]]; [eauto|]. now destruct (HO q1).
  - intros a. rewrite app_length. cbn. intros Ha.
    destruct (Nat.eq_dec a (length (heap c))) as [->|Hne].
    + exists p. rewrite HA, str_eqb_refl. apply in_or_app. right. now left.
    + destruct (Hc a) as [q Hq]; [lia|]. exists q. rewrite HA.
      destruct (str_eqb p q); auto. apply in_or_app. now left.
  - intros q. rewrite HA. unfold runs, exits. rewrite enters_snoc, exits_snoc, app_nil_r.
    assert (HM : map (load (heap c ++ [(t, None)])) (addrs c q) = runs q es).
    { rewrite <- Hr. apply map_ext_in. intros a Ha. apply load_app. eauto. }
    destruct (str_eqb p q) eqn:E.
    + rewrite pair_runs_enter by apply exits_le.
      rewrite map_app, HM. cbn. now rewrite load_last.
    + rewrite app_nil_r. exact HM.
  - intros q. cbn [node_time_map]. rewrite dget_dset, enters_snoc.
    destruct (str_eqb p q) eqn:E.
    + split; [discriminate|]. intros H. apply app_eq_nil in H as [_ H]. discriminate.
    + rewrite app_nil_r. apply Hk.
Qed.

Lemma exit_open es c p :
  inv es c -> forall l, dget p (node_time_map c) = Some l ->
  (first_open (heap c) l = None <-> open_after 0 p es = 0).
Proof.
  intros H l El. assert (Ha : addrs c p = l) by (unfold addrs, dget_def; now rewrite El).
  pose proof (inv_runs _ _ H p) as Hr. rewrite Ha in Hr.
  pose proof (open_count p es 0) as Ho. fold (exits p es) in Ho.
  rewrite first_open_none. split.
  - intros Hf. destruct (open_after 0 p es) as [|o] eqn:E; auto. exfalso.
    assert (Hlt : length (exits p es) < length (enters p es)) by lia.
    assert (G : forall en ex, length ex < length en ->
             exists r, In r (pair_runs en ex) /\ snd r = None).
    { induction en as [|a en IH]; intros [|x ex] Hl; cbn in *; try lia.
      - exists (a, None). auto.
      - destruct (IH ex) as (r & H1 & H2); [lia|]. exists r. auto. }
    destruct (G _ _ Hlt) as (r & Hi & Hs).
    fold (runs p es) in Hi. rewrite <- Hr in Hi. apply in_map_iff in Hi as (a & <- & Hi).
    rewrite Forall_forall in Hf. now apply (Hf a Hi).
  - intros Ho0. assert (Hf : Forall (fun r => snd r <> None) (runs p es)).
    { apply pair_runs_full. lia. }
    rewrite <- Hr in Hf. rewrite Forall_map in Hf. exact Hf.
Qed.

Lemma inv_exit_noop es c p t :
  inv es c -> open_after 0 p es = 0 -> inv (es ++ [Exit p t]) c.
Proof.
  intros [Ht Hv Hn Hd Hc Hr Hk] Ho. constructor; auto.
  - intros q. rewrite Hr. unfold runs, exits. rewrite enters_snoc, exits_snoc, app_nil_r.
    destruct (str_eqb p q) eqn:E; [|now rewrite app_nil_r].
    apply str_eqb_eq in E as <-. rewrite Ho. now rewrite app_nil_r.
  - intros q. rewrite enters_snoc, app_nil_r. apply Hk.
Qed.

Lemma inv_exit es c p t : inv es c -> inv (es ++ [Exit p t]) (step c (Exit p t)).
Proof.
  intros H. cbn [step]. unfold set_node_exit_time.
  destruct (dget p (node_time_map c)) as [l|] eqn:El.
  - destruct (first_open (heap c) l) as [a|] eqn:Ef.
    + assert (Hop : open_after 0 p es <> 0).
      { intros H0. apply (exit_open _ _ _ H _ El) in H0. congruence. }
      destruct H as [Ht Hv Hn Hd Hc Hr Hk].
      assert (Ha : addrs c p = l) by (unfold addrs, dget_def; now rewrite El).
      pose proof (Hn p) as Hnl. pose proof (Hv p) as Hvl. rewrite Ha in *.
      destruct (first_open_close _ _ _ t Hnl Hvl Ef) as [Hia Hm].
      constructor; cbn [heap node_times node_time_map]; rewrite ?store_length; auto.
      * intros q. unfold addrs. cbn [node_time_map]. fold (addrs c q).
        unfold runs, exits. rewrite enters_snoc, exits_snoc, app_nil_r.
        destruct (str_eqb p q) eqn:E.
        -- apply str_eqb_eq in E as <-. rewrite Ha, Hm.
           pose proof (Hr p) as Hrp. rewrite Ha in Hrp. rewrite Hrp. unfold runs.
           pose proof (open_count p es 0) as Hoc. fold (exits p es) in *.
           destruct (open_after 0 p es) as [|o]; [congruence|].
           apply close_pair. lia.
        -- rewrite app_nil_r. fold (exits q es). fold (runs q es). rewrite <- Hr.
           apply map_ext_in. intros b Hb. apply load_store_other.
           intros ->. apply str_eqb_neq in E. apply E.
           apply (Hd p q b); auto. now rewrite Ha.
      * intros q. rewrite enters_snoc, app_nil_r. apply Hk.
    + apply inv_exit_noop; auto. now apply (exit_open _ _ _ H _ El).
  - apply inv_exit_noop; auto.
    assert (E : enters p es = []) by now apply (inv_key _ _ H).
    pose proof (open_count p es 0) as Ho. rewrite E in Ho. cbn in Ho. lia.
Qed.

Lemma history_snoc es e : history (es ++ [e]) = step (history es) e.
Proof. unfold history. now rewrite fold_left_app. Qed.

Lemma history_inv es : inv es (history es).
Proof.
  induction es as [|e es IH] using rev_ind.
  - constructor; cbn; auto; try tauto; try (intros; apply Forall_nil); try (intros; apply NoDup_nil).
    intros a H. lia.
  - rewrite history_snoc. destruct e as [p t|p t].
    + now apply inv_enter.
    + now apply inv_exit.
Qed.

(** *** Facts for the properties *)

Lemma history_runs es p :
  map (load (heap (history es))) (dget_def p [] (node_time_map (history es))) = runs p es.
Proof. apply (inv_runs _ _ (history_inv es)). Qed.

Lemma was_during_iff es t :
  was_during_node_exec (history es) t = true <->
  exists p r, In r (runs p es) /\ in_run t r.
Proof.
  pose proof (history_inv es) as [Ht Hv Hn Hd Hc Hr Hk].
  unfold was_during_node_exec. rewrite existsb_exists, Ht. split.
  - intros (a & Ha & H). apply in_rev in Ha. apply in_seq in Ha.
    destruct (Hc a) as [p Hp]; [lia|]. exists p, (load (heap (history es)) a).
    split; [rewrite <- Hr; now apply in_map|].
    destruct (load (heap (history es)) a) as [en [x|]]; unfold in_run; cbn.
    + apply andb_true_iff in H as [H1 H2]. apply Z.leb_le in H1. apply Z.leb_le in H2. auto.
    + apply Z.leb_le in H. auto.
  - intros (p & r & Hi & H). rewrite <- Hr in Hi. apply in_map_iff in Hi as (a & <- & Ha).
    exists a. split.
    + apply -> in_rev. apply in_seq. specialize (Hv p). rewrite Forall_forall in Hv.
      apply Hv in Ha. lia.
    + destruct (load (heap (history es)) a) as [en [x|]]; unfold in_run in H; cbn in *.
      * destruct H. apply andb_true_iff. split; now apply Z.leb_le.
      * destruct H. now apply Z.leb_le.
Qed.

Lemma exit_key_error es p t :
  set_node_exit_time (history es) p t = KeyErr <-> enters p es = [].
Proof.
  rewrite <- (inv_key _ _ (history_inv es)). unfold set_node_exit_time.
  destruct (dget p (node_time_map (history es))); [|split; auto].
  destruct (first_open _ l); split; discriminate.
Qed.

Lemma exit_value_error es p t :
  set_node_exit_time (history es) p t = ValueErr <->
  enters p es <> [] /\ length (exits p es) = length (enters p es).
Proof.
  pose proof (history_inv es) as H. pose proof (open_count p es 0) as Ho.
  fold (exits p es) in Ho. unfold set_node_exit_time.
  destruct (dget p (node_time_map (history es))) as [l|] eqn:E.
  - assert (Hne : enters p es <> []) by (intros Hn; apply (inv_key _ _ H) in Hn; congruence).
    pose proof (exit_open _ _ _ H _ E) as Hx.
    destruct (first_open _ l); split; intros Hq; try discriminate; auto.
    + destruct Hq as [_ Hq]. assert (open_after 0 p es = 0) by lia.
      apply Hx in H0. discriminate.
    + split; auto. assert (open_after 0 p es = 0) by now apply Hx. lia.
  - split; [discriminate|]. intros [Hne _]. apply (inv_key _ _ H) in E. congruence.
Qed.

Lemma py_index_map {A B} (f : A -> B) l i : py_index (map f l) i = option_map f (py_index l i).
Proof.
  unfold py_index. rewrite map_length.
  destruct (Z.leb 0 i); [apply nth_error_map|].
  destruct (Z.leb 0 (Z.of_nat (length l) + i)); auto. apply nth_error_map.
Qed.

Lemma run_time_spec es p i :
  get_node_run_time (history es) p i =
  match py_index (runs p es) i with
  | None => NoTime
  | Some (_, None) => StillOpen
  | Some (en, Some x) => RunTime (x - en)
  end.
Proof.
  rewrite <- history_runs, py_index_map. unfold get_node_run_time, dget_def.
  destruct (dget p (node_time_map (history es))) as [l|] eqn:E.
  - destruct (py_index l i); cbn; auto.
  - unfold py_index. cbn. destruct (Z.leb 0 i) eqn:Ei.
    + now destruct (Z.to_nat i).
    + apply Z.leb_gt in Ei. destruct i; try lia; auto.
Qed.
