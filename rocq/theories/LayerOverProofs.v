(** Proofs about [LayerOver]. *)

From Coq Require Import List NArith Bool Lia Arith.
From Verif Require Import PyStr PyStrFacts Dict DictFacts LayerOver LayerOverSpec.
Import ListNotations.

(** *** Chains *)

Lemma above_nth ls i up : above ls i up -> exists l, nth_error ls i = Some l.
Proof. destruct 1; eauto. Qed.

Lemma above_fun ls i up1 up2 : above ls i up1 -> above ls i up2 -> up1 = up2.
Proof.
  intros H. revert up2. induction H as [i l H1 H2|i l j up H1 H2 H3 IH]; intros up2 H.
  - inversion H; subst; auto. congruence.
  - inversion H; subst; [congruence|].
    assert (l0 = l) by congruence. subst. assert (j0 = j) by congruence. subst.
    f_equal. auto.
Qed.

Lemma above_suffix ls i up b j post :
  above ls i up -> i :: up = b ++ j :: post -> above ls j post.
Proof.
  intros H. revert b. induction H as [i l H1 H2|i l k up H1 H2 H3 IH]; intros b E.
  - destruct b as [|x b].
    + injection E as <- <-. econstructor; eauto.
    + injection E as <- E. destruct b; discriminate.
  - destruct b as [|x b].
    + injection E as <- <-. econstructor; eauto.
    + injection E as <- E. eauto.
Qed.

Lemma above_not_self ls i up : above ls i up -> ~ In i up.
Proof.
  intros H Hi. apply in_split in Hi as (b & post & ->).
  assert (H2 : above ls i post) by (apply (above_suffix ls i _ (i :: b) i post H); reflexivity).
  pose proof (above_fun _ _ _ _ H H2) as E. apply (f_equal (@length nat)) in E.
  rewrite app_length in E. cbn in E. lia.
Qed.

Lemma above_nodup ls i up : above ls i up -> NoDup (i :: up).
Proof.
  intros H. constructor; [now apply above_not_self in H|].
  induction H as [i l H1 H2|i l j up H1 H2 H3 IH]; [constructor|].
  constructor; auto. now apply above_not_self in H3.
Qed.

Lemma parents_above ls i up fuel l :
  above ls i up -> nth_error ls i = Some l -> length up <= fuel ->
  parents fuel ls (l_parent l) = Some up.
Proof.
  intros H. revert fuel l. induction H as [i l0 H1 H2|i l0 j up H1 H2 H3 IH];
    intros fuel l Hl Hf.
  - assert (l = l0) by congruence. subst. rewrite H2. now destruct fuel.
  - assert (l = l0) by congruence. subst. rewrite H2.
    destruct fuel as [|f]; [cbn in Hf; lia|]. cbn [parents].
    destruct (above_nth _ _ _ H3) as [lj Ej]. rewrite Ej.
    rewrite (IH f lj Ej) by (cbn in Hf; lia). reflexivity.
Qed.

Lemma fetch_above ls i up :
  above ls i up -> exists chain, fetch ls (i :: up) = Some chain /\
  Forall2 (fun j l => nth_error ls j = Some l) (i :: up) chain.
Proof.
  induction 1 as [i l H1 H2|i l j up H1 H2 H3 (chain & E & F)].
  - exists [l]. cbn. rewrite H1. auto.
  - exists (l :: chain). cbn [fetch] in *. rewrite H1, E. auto.
Qed.

Lemma chain_above ls i up fuel :
  above ls i up -> length up <= fuel ->
  exists chain, chain_of fuel ls i = Some chain /\
  Forall2 (fun j l => nth_error ls j = Some l) (i :: up) chain.
Proof.
  intros H Hf. destruct (above_nth _ _ _ H) as [l El].
  destruct (fetch_above _ _ _ H) as (chain & E & F).
  exists chain. unfold chain_of. rewrite El, (parents_above _ _ _ _ _ H El Hf). auto.
Qed.

(** *** Composed tables *)

Fixpoint strong {V} (ts : list (dict V)) (k : pystr) : option V :=
  match ts with
  | [] => None
  | d :: up => match strong up k with Some v => Some v | None => dget k d end
  end.

Lemma comped_acc {V} (table : slayer -> dict V) chain acc k :
  Forall (fun l => NoDup (dkeys (table l))) chain ->
  dget k (fold_left (fun acc l => dupdate acc (table l)) chain acc)
  = match strong (map table chain) k with Some v => Some v | None => dget k acc end.
Proof.
  intros H. revert acc. induction H as [|l chain H1 H2 IH]; intros acc; cbn; auto.
  rewrite IH, dget_dupdate by auto.
  destruct (strong (map table chain) k); auto.
Qed.

Lemma comped_get {V} (table : slayer -> dict V) chain k :
  Forall (fun l => NoDup (dkeys (table l))) chain ->
  dget k (comped table chain) = strong (map table chain) k.
Proof.
  intros H. unfold comped. rewrite comped_acc by auto.
  now destruct (strong (map table chain) k).
Qed.

Lemma comped_nodup {V} (table : slayer -> dict V) chain :
  NoDup (dkeys (comped table chain)).
Proof.
  unfold comped. assert (G : forall acc, NoDup (dkeys acc) ->
    NoDup (dkeys (fold_left (fun acc l => dupdate acc (table l)) chain acc))).
  { induction chain as [|l chain IH]; intros acc H; cbn; auto. apply IH.
    now apply NoDup_dupdate. }
  apply G. constructor.
Qed.

Lemma strong_strongest {V} (table : slayer -> dict V) ls js chain k :
  Forall2 (fun j l => nth_error ls j = Some l) js chain ->
  strongest table ls k js (strong (map table chain) k).
Proof.
  induction 1 as [|j l js chain H1 H2 IH]; cbn; [constructor|].
  destruct (strong (map table chain) k) as [v|]; [now constructor|].
  now apply strongest_here.
Qed.

Lemma strongest_fun {V} (table : slayer -> dict V) ls k js v1 v2 :
  strongest table ls k js v1 -> strongest table ls k js v2 -> v1 = v2.
Proof.
  intros H. revert v2. induction H as [|i up v H IH|i up l H IH Hn]; intros v2 H2.
  - now inversion H2.
  - inversion H2 as [|? ? v' G|? ? l' G Gn]; subst; auto.
    specialize (IH _ G). discriminate.
  - inversion H2 as [|? ? v' G|? ? l' G Gn]; subst; auto.
    + specialize (IH _ G). discriminate.
    + congruence.
Qed.

Lemma chain_tables {V} (table : slayer -> dict V) ls js chain :
  (forall l, In l ls -> NoDup (dkeys (table l))) ->
  Forall2 (fun j l => nth_error ls j = Some l) js chain ->
  Forall (fun l => NoDup (dkeys (table l))) chain.
Proof.
  intros H. induction 1 as [|j l js chain H1 H2 IH]; constructor; auto.
  apply H. eapply nth_error_In; eauto.
Qed.

Lemma comped_overs {V} (table : slayer -> dict V) s i up fuel path v :
  (forall l, In l (layers s) -> NoDup (dkeys (table l))) ->
  above (layers s) i up -> length up <= fuel ->
  strongest table (layers s) path (i :: up) v ->
  exists d, get_comped_layer_overs fuel s i table = Some d /\ dget path d = v /\
            NoDup (dkeys d).
Proof.
  intros Ht Ha Hf Hs. destruct (chain_above _ _ _ _ Ha Hf) as (chain & E & F).
  unfold get_comped_layer_overs. rewrite E. cbn. exists (comped table chain).
  split; auto. split; [|apply comped_nodup].
  rewrite comped_get by (eapply chain_tables; eauto).
  apply (strong_strongest table (layers s) _ _ path) in F.
  now apply (strongest_fun table (layers s) path (i :: up)).
Qed.

Lemma tables_over ls : tables_ok ls -> forall l, In l ls -> NoDup (dkeys (l_over l)).
Proof. intros H l Hl. unfold tables_ok in H. rewrite Forall_forall in H. now apply H. Qed.
Lemma tables_aliases ls : tables_ok ls -> forall l, In l ls -> NoDup (dkeys (l_aliases l)).
Proof. intros H l Hl. unfold tables_ok in H. rewrite Forall_forall in H. now apply H. Qed.
Lemma tables_colors ls : tables_ok ls -> forall l, In l ls -> NoDup (dkeys (l_colors l)).
Proof. intros H l Hl. unfold tables_ok in H. rewrite Forall_forall in H. now apply H. Qed.
Lemma tables_locks ls : tables_ok ls -> forall l, In l ls -> NoDup (dkeys (l_locks l)).
Proof. intros H l Hl. unfold tables_ok in H. rewrite Forall_forall in H. now apply H. Qed.

Lemma strongest_exists {V} (table : slayer -> dict V) ls i up path :
  above ls i up -> exists v, strongest table ls path (i :: up) v.
Proof.
  intros H. destruct (fetch_above _ _ _ H) as (chain & _ & F).
  exists (strong (map table chain) path). now apply strong_strongest.
Qed.

Definition opinion {A} (f : over -> option A) (s : store) (e : option nat) (dflt : A) : A :=
  match e with
  | None => dflt
  | Some a => match f (nth a (objs s) no_over) with Some b => b | None => dflt end
  end.

Lemma get_muted_spec s i l up fuel e :
  tables_ok (layers s) -> above (layers s) i up -> length up <= fuel ->
  nth_error (layers s) i = Some l ->
  strongest l_over (layers s) (l_filepath l) (i :: up) e ->
  get_muted fuel s false i = Some (opinion o_mute s e (l_mute l)).
Proof.
  intros Ht Ha Hf El Hs. unfold get_muted. rewrite El.
  destruct (comped_overs l_over s i up fuel _ e (tables_over _ Ht) Ha Hf Hs) as (d & -> & E & _).
  unfold entry_for. rewrite E. unfold opinion. destruct e; cbn; auto.
  destruct (o_mute _); auto.
Qed.

Lemma get_soloed_spec s i l up fuel e :
  tables_ok (layers s) -> above (layers s) i up -> length up <= fuel ->
  nth_error (layers s) i = Some l ->
  strongest l_over (layers s) (l_filepath l) (i :: up) e ->
  get_soloed fuel s false i = Some (opinion o_solo s e (l_solo l)).
Proof.
  intros Ht Ha Hf El Hs. unfold get_soloed. rewrite El.
  destruct (comped_overs l_over s i up fuel _ e (tables_over _ Ht) Ha Hf Hs) as (d & -> & E & _).
  unfold entry_for. rewrite E. unfold opinion. destruct e; cbn; auto.
  destruct (o_solo _); auto.
Qed.

Lemma get_meta_spec {V} (own : slayer -> option V) table s i l up fuel fb e :
  (forall l, In l (layers s) -> NoDup (dkeys (table l))) ->
  above (layers s) i up -> length up <= fuel ->
  nth_error (layers s) i = Some l ->
  strongest table (layers s) (l_filepath l) (i :: up) e ->
  get_meta_attr own table false fb fuel s i
  = Some (match e with Some v => Some v | None => if fb then own l else None end).
Proof.
  intros Ht Ha Hf El Hs. unfold get_meta_attr. rewrite El.
  destruct (comped_overs table s i up fuel _ e Ht Ha Hf Hs) as (d & -> & E & _).
  rewrite E. now destruct e.
Qed.

(** *** Updates *)

Lemma nth_set_nth {A} i j (x : A) l :
  nth_error (set_nth i x l) j
  = if Nat.eqb i j then match nth_error l j with Some _ => Some x | None => None end
    else nth_error l j.
Proof.
  revert i j. induction l as [|y l IH]; intros [|i] [|j]; cbn; auto.
  now destruct (Nat.eqb i j).
Qed.

Lemma set_nth_length {A} i (x : A) l : length (set_nth i x l) = length l.
Proof. revert i. induction l as [|y l IH]; intros [|i]; cbn; auto. Qed.

Lemma nth_set_nth_def {A} i j (x : A) l d :
  i < length l -> nth j (set_nth i x l) d = if Nat.eqb i j then x else nth j l d.
Proof.
  intros H. destruct (nth_error (set_nth i x l) j) as [y|] eqn:E.
  - rewrite (nth_error_nth _ _ d E). rewrite nth_set_nth in E.
    destruct (Nat.eqb_spec i j).
    + destruct (nth_error l j); congruence.
    + now rewrite (nth_error_nth _ _ d E).
  - assert (Hl : length (set_nth i x l) <= j) by now apply nth_error_None.
    rewrite set_nth_length in Hl. rewrite !nth_overflow; rewrite ?set_nth_length; auto.
    destruct (Nat.eqb_spec i j); auto. lia.
Qed.

Lemma In_set_nth {A} i (x y : A) l : In y (set_nth i x l) -> y = x \/ In y l.
Proof.
  revert i. induction l as [|z l IH]; intros [|i] H; cbn in *; auto.
  - destruct H; auto.
  - destruct H; auto. apply IH in H. tauto.
Qed.

(** Chains only depend on the parent links. *)
Lemma above_same_parents ls ls' i up :
  (forall j, option_map l_parent (nth_error ls' j) = option_map l_parent (nth_error ls j)) ->
  above ls i up -> above ls' i up.
Proof.
  intros H. induction 1 as [i l H1 H2|i l j up H1 H2 H3 IH].
  - specialize (H i). rewrite H1 in H. destruct (nth_error ls' i) as [l'|] eqn:E; [|discriminate].
    cbn in H. injection H as H. apply above_root with l'; auto. congruence.
  - pose proof (H i) as Hi. rewrite H1 in Hi.
    destruct (nth_error ls' i) as [l'|] eqn:E; [|discriminate].
    cbn in Hi. injection Hi as Hi. apply above_next with l'; auto. congruence.
Qed.

Lemma strong_tables_eq {V} (table : slayer -> dict V) ls ls' js c c' k :
  Forall2 (fun j l => nth_error ls j = Some l) js c ->
  Forall2 (fun j l => nth_error ls' j = Some l) js c' ->
  (forall j l l', In j js -> nth_error ls j = Some l -> nth_error ls' j = Some l' ->
                  dget k (table l') = dget k (table l)) ->
  strong (map table c') k = strong (map table c) k.
Proof.
  intros H. revert c'. induction H as [|j l js c H1 H2 IH]; intros c' H' He.
  - now inversion H'.
  - inversion H' as [|? l' ? c2 H1' H2']; subst. cbn [map strong].
    rewrite (IH c2 H2').
    + rewrite (He j l l'); auto. now left.
    + intros. eapply He; eauto. now right.
Qed.

Lemma strong_app {V} (a b : list (dict V)) k :
  strong (a ++ b) k = match strong b k with Some v => Some v | None => strong a k end.
Proof.
  induction a as [|d a IH]; cbn; [now destruct (strong b k)|].
  rewrite IH. destruct (strong b k); auto.
Qed.

(** *** set_over *)

Section SetOver.
Variables (f : over -> over) (fuel : nat) (s s' : store) (i : nat) (path : pystr).
Variables (up : list nat) (l : slayer).
Hypotheses (Ht : tables_ok (layers s)) (He : entries_ok s)
  (Ha : above (layers s) i up) (Hf : length up <= fuel)
  (El : nth_error (layers s) i = Some l)
  (Hset : set_over f fuel s i path = Some s').

Definition new_obj : nat :=
  match chain_of fuel (layers s) i with
  | Some c => match dget path (comped l_over c) with Some a => a | None => length (objs s) end
  | None => 0
  end.

Lemma set_over_shape :
  exists c d a os,
    chain_of fuel (layers s) i = Some c /\
    Forall2 (fun j l => nth_error (layers s) j = Some l) (i :: up) c /\
    d = comped l_over c /\
    ((dget path d = Some a /\ os = objs s /\ a < length (objs s)) \/
     (dget path d = None /\ a = length (objs s) /\ os = objs s ++ [no_over])) /\
    layers s' = set_nth i (with_over l (dset path a d)) (layers s) /\
    objs s' = set_nth a (f (nth a os no_over)) os /\ a < length os.
Proof.
  destruct (chain_above _ _ _ _ Ha Hf) as (c & Ec & F).
  unfold set_over in Hset. rewrite El in Hset.
  unfold get_comped_layer_overs in Hset. rewrite Ec in Hset. cbn [option_map] in Hset.
  destruct (dget path (comped l_over c)) as [a|] eqn:Ed.
  - injection Hset as <-. exists c, (comped l_over c), a, (objs s). cbn.
    assert (Hlt : a < length (objs s)).
    { destruct He as [He1 _].
      rewrite comped_get in Ed by (eapply chain_tables; eauto; now apply tables_over).
      assert (G : forall js c, Forall2 (fun j l => nth_error (layers s) j = Some l) js c ->
                strong (map l_over c) path = Some a ->
                exists l, In l (layers s) /\ In (path, a) (l_over l)).
      { induction 1 as [|j lj js cc H1 H2 IH]; cbn; [discriminate|].
        destruct (strong (map l_over cc) path) eqn:Es; [auto|].
        intros Hg. apply dget_In in Hg. exists lj. split; auto. eapply nth_error_In; eauto. }
      destruct (G _ _ F Ed) as (l0 & H1 & H2). eauto. }
    repeat (split; [solve [auto]|]). auto.
  - injection Hset as <-. exists c, (comped l_over c), (length (objs s)), (objs s ++ [no_over]).
    cbn. repeat (split; [solve [auto]|]). rewrite app_length. cbn. lia.
Qed.

Lemma set_over_parents :
  forall j, option_map l_parent (nth_error (layers s') j)
            = option_map l_parent (nth_error (layers s) j).
Proof.
  intros j. destruct set_over_shape as (c & d & a & os & _ & _ & _ & _ & E & _ & _).
  rewrite E, nth_set_nth. destruct (Nat.eqb_spec i j) as [<-|]; auto.
  now rewrite El.
Qed.

Lemma set_over_other j : j <> i -> nth_error (layers s') j = nth_error (layers s) j.
Proof.
  intros H. destruct set_over_shape as (c & d & a & os & _ & _ & _ & _ & E & _ & _).
  rewrite E, nth_set_nth. destruct (Nat.eqb_spec i j); congruence.
Qed.

Lemma set_over_self :
  exists d, nth_error (layers s') i = Some (with_over l d).
Proof.
  destruct set_over_shape as (c & d & a & os & _ & _ & _ & _ & E & _ & _).
  exists (dset path a d). now rewrite E, nth_set_nth, Nat.eqb_refl, El.
Qed.

Lemma set_over_tables_ok : tables_ok (layers s').
Proof.
  destruct set_over_shape as (c & d & a & os & _ & _ & Ed & _ & E & _ & _).
  unfold tables_ok in *. rewrite Forall_forall in *. rewrite E. intros x Hx.
  apply In_set_nth in Hx as [->|Hx]; auto.
  assert (Hl : In l (layers s)) by (eapply nth_error_In; eauto).
  destruct (Ht l Hl) as (H1 & H2 & H3 & H4). cbn. repeat split; auto.
  apply NoDup_dset. subst d. apply comped_nodup.
Qed.

Lemma comped_entry q b c :
  Forall2 (fun j l => nth_error (layers s) j = Some l) (i :: up) c ->
  dget q (comped l_over c) = Some b -> exists l, In l (layers s) /\ In (q, b) (l_over l).
Proof.
  intros F E. rewrite comped_get in E by (eapply chain_tables; eauto; now apply tables_over).
  revert E. generalize dependent c. intros c F. remember (i :: up) as js eqn:Ej. clear Ej.
  induction F as [|j lj js cc H1 H2 IH]; cbn; [discriminate|].
  destruct (strong (map l_over cc) q) eqn:Es; [auto|].
  intros Hg. apply dget_In in Hg. exists lj. split; auto. eapply nth_error_In; eauto.
Qed.

Lemma set_over_entries_ok : entries_ok s'.
Proof.
  destruct set_over_shape as (c & d & a & os & _ & F & Ed & Hcase & E & Eo & Hos).
  destruct He as [He1 He2].
  assert (Hlen : length (objs s) <= length (objs s')).
  { rewrite Eo, set_nth_length. destruct Hcase as [(_ & -> & _)|(_ & _ & ->)]; auto.
    rewrite app_length. lia. }
  assert (Hnew : forall q b, In (q, b) (dset path a d) -> (q = path /\ b = a) \/
                 exists l0, In l0 (layers s) /\ In (q, b) (l_over l0)).
  { intros q b Hi. apply In_dget in Hi; [|apply NoDup_dset; subst d; apply comped_nodup].
    rewrite dget_dset in Hi. destruct (str_eqb path q) eqn:Eq.
    - apply str_eqb_eq in Eq as <-. injection Hi as <-. auto.
    - right. subst d. now apply (comped_entry q b c). }
  assert (Hfresh : forall l0 q, In l0 (layers s) -> In (q, a) (l_over l0) -> q = path).
  { intros l0 q Hl0 Hq. destruct Hcase as [(Hd & -> & Hlt)|(Hd & -> & ->)].
    - subst d. destruct (comped_entry path a c F Hd) as (l1 & H1 & H2).
      exact (He2 l0 l1 q path a Hl0 H1 Hq H2).
    - apply He1 in Hq; auto. lia. }
  split.
  - intros x q b Hx Hi. rewrite E in Hx. apply In_set_nth in Hx as [->|Hx].
    + cbn in Hi. destruct (Hnew q b Hi) as [[-> ->]|(l0 & H1 & H2)].
      * rewrite Eo, set_nth_length. auto.
      * specialize (He1 _ _ _ H1 H2). lia.
    + specialize (He1 _ _ _ Hx Hi). lia.
  - intros x y q1 q2 b Hx Hy H1 H2. rewrite E in Hx, Hy.
    assert (G : forall z q, z = with_over l (dset path a d) \/ In z (layers s) ->
              In (q, b) (l_over z) -> (q = path /\ b = a) \/
              exists l0, In l0 (layers s) /\ In (q, b) (l_over l0)).
    { intros z q [->|Hz] Hq; [apply Hnew; exact Hq|right; eauto]. }
    apply In_set_nth in Hx, Hy.
    destruct (G x q1 Hx H1) as [[-> ->]|(l1 & A1 & B1)];
      destruct (G y q2 Hy H2) as [[-> E2]|(l2 & A2 & B2)]; subst; auto.
    + symmetry. eauto.
    + eauto.
    + eauto.
Qed.

(** The strongest entry for a path, before and after. *)
Lemma set_over_chain_at i0 post c c' q :
  above (layers s) i0 post -> In i (i0 :: post) ->
  Forall2 (fun j l => nth_error (layers s) j = Some l) (i0 :: post) c ->
  Forall2 (fun j l => nth_error (layers s') j = Some l) (i0 :: post) c' ->
  exists a os d cc,
    chain_of fuel (layers s) i = Some cc /\ d = comped l_over cc /\
    ((dget path d = Some a /\ os = objs s /\ a < length (objs s)) \/
     (dget path d = None /\ a = length (objs s) /\ os = objs s ++ [no_over])) /\
    objs s' = set_nth a (f (nth a os no_over)) os /\ a < length os /\
    strong (map l_over c') q
    = if str_eqb path q then Some a else strong (map l_over c) q.
Proof.
  intros Hab Hin Fc Fc'.
  destruct set_over_shape as (ci & d & a & os & Eci & Fi & Ed & Hcase & E & Eo & Hos).
  exists a, os, d, ci. repeat (split; [solve [auto]|]).
  apply in_split in Hin as (b & post' & Esplit).
  assert (post' = up) as ->.
  { pose proof (above_suffix _ _ _ _ _ _ Hab Esplit) as H1. exact (above_fun _ _ _ _ H1 Ha). }
  pose proof (above_nodup _ _ _ Hab) as Hnd. rewrite Esplit in Hnd, Fc, Fc'.
  apply Forall2_app_inv_l in Fc as (cb & cr & Fb & Fr & ->).
  apply Forall2_app_inv_l in Fc' as (cb' & cr' & Fb' & Fr' & ->).
  inversion Fr as [|? li ? cu Hli Fu]; subst. inversion Fr' as [|? li' ? cu' Hli' Fu']; subst.
  assert (Hnotb : ~ In i b).
  { intros Hi. apply NoDup_remove_2 in Hnd. apply Hnd. apply in_or_app. now left. }
  assert (Hnotu : ~ In i up) by now apply above_not_self in Ha.
  assert (Eb : strong (map l_over cb') q = strong (map l_over cb) q).
  { apply (strong_tables_eq l_over (layers s) (layers s') b); auto.
    intros j x x' Hj Hx Hx'. rewrite set_over_other in Hx' by congruence. congruence. }
  assert (Eu : strong (map l_over cu') q = strong (map l_over cu) q).
  { apply (strong_tables_eq l_over (layers s) (layers s') up); auto.
    intros j x x' Hj Hx Hx'. rewrite set_over_other in Hx' by congruence. congruence. }
  rewrite !map_app, !strong_app. cbn [map strong]. rewrite Eu, Eb.
  assert (li = l) by congruence. subst li.
  rewrite E, nth_set_nth, Nat.eqb_refl, El in Hli'. injection Hli' as <-.
  cbn [l_over with_over]. rewrite dget_dset.
  (* chain of i *)
  assert (Hci : ci = l :: cu).
  { inversion Fi as [|? l1 ? c1 G1 G2]; subst. f_equal; [congruence|].
    clear -G2 Fu. revert cu Fu. induction G2; intros cu Fu; inversion Fu; subst; auto.
    f_equal; [congruence|auto]. }
  subst ci.
  assert (Hcg : dget q (comped l_over (l :: cu)) = strong (map l_over (l :: cu)) q).
  { apply comped_get. exact (chain_tables l_over (layers s) _ _ (tables_over _ Ht) Fi). }
  cbn [map strong] in Hcg.
  destruct (str_eqb path q) eqn:Eq.
  - apply str_eqb_eq in Eq as <-.
    destruct (strong (map l_over cu) path) as [v|] eqn:Es; auto.
    destruct Hcase as [(Hd & _ & _)|(Hd & _ & _)]; rewrite Hcg in Hd; congruence.
  - rewrite Hcg. destruct (strong (map l_over cu) q); auto.
Qed.

End SetOver.

Lemma above_exists_get s i up :
  above (layers s) i up -> exists l, nth_error (layers s) i = Some l.
Proof. apply above_nth. Qed.

(** Reading back a mute/solo override set through layer [i], from any layer
    [m] with the given path that has [i] in its chain. *)
Lemma set_over_read (get : over -> option bool) (f : over -> over)
      fuel s s' i path up l m upm lm :
  tables_ok (layers s) -> entries_ok s ->
  above (layers s) i up -> length up <= fuel -> nth_error (layers s) i = Some l ->
  set_over f fuel s i path = Some s' ->
  above (layers s) m upm -> In i (m :: upm) ->
  nth_error (layers s) m = Some lm -> l_filepath lm = path ->
  exists a old lm', strongest l_over (layers s') path (m :: upm) (Some a) /\
    nth a (objs s') no_over = f old /\
    nth_error (layers s') m = Some lm' /\ l_filepath lm' = path /\
    l_mute lm' = l_mute lm /\ l_solo lm' = l_solo lm.
Proof.
  intros Ht He Ha Hf El Hset Hm Hin Elm Hpath.
  pose proof (set_over_parents f fuel s s' i path up l Ht He Ha Hf El Hset) as Hpar.
  pose proof (above_same_parents _ _ _ _ Hpar Hm) as Hm'.
  destruct (fetch_above _ _ _ Hm) as (c & _ & Fc).
  destruct (fetch_above _ _ _ Hm') as (c' & _ & Fc').
  destruct (set_over_chain_at f fuel s s' i path up l Ht He Ha Hf El Hset
              m upm c c' path Hm Hin Fc Fc')
    as (a & os & d & cc & _ & _ & Hcase & Eo & Hos & Es).
  rewrite str_eqb_refl in Es.
  destruct (above_nth _ _ _ Hm') as [lm' Elm'].
  exists a, (nth a os no_over), lm'. split; [|split; [|split; [auto|]]].
  - rewrite <- Es. now apply strong_strongest.
  - rewrite Eo, nth_set_nth_def by auto. now rewrite Nat.eqb_refl.
  - destruct (Nat.eq_dec m i) as [->|Hne].
    + destruct (set_over_self f fuel s s' i path up l Ht He Ha Hf El Hset) as [d2 Ed2].
      assert (lm' = with_over l d2) by congruence. assert (lm = l) by congruence.
      subst. auto.
    + rewrite (set_over_other f fuel s s' i path up l Ht He Ha Hf El Hset) in Elm' by auto.
      assert (lm' = lm) by congruence. subst. auto.
Qed.

(** Nothing changes for layers with another path. *)
Lemma set_over_frame (f : over -> over) fuel s s' i path up l m upm lm :
  tables_ok (layers s) -> entries_ok s ->
  above (layers s) i up -> length up <= fuel -> nth_error (layers s) i = Some l ->
  set_over f fuel s i path = Some s' ->
  above (layers s) m upm -> nth_error (layers s) m = Some lm ->
  l_filepath lm <> path ->
  exists e lm', strongest l_over (layers s) (l_filepath lm) (m :: upm) e /\
    strongest l_over (layers s') (l_filepath lm) (m :: upm) e /\
    nth_error (layers s') m = Some lm' /\ l_filepath lm' = l_filepath lm /\
    l_mute lm' = l_mute lm /\ l_solo lm' = l_solo lm /\
    above (layers s') m upm /\
    forall a, e = Some a -> nth a (objs s') no_over = nth a (objs s) no_over.
Proof.
  intros Ht He Ha Hf El Hset Hm Elm Hpath.
  pose proof (set_over_parents f fuel s s' i path up l Ht He Ha Hf El Hset) as Hpar.
  pose proof (above_same_parents _ _ _ _ Hpar Hm) as Hm'.
  destruct (fetch_above _ _ _ Hm) as (c & _ & Fc).
  destruct (fetch_above _ _ _ Hm') as (c' & _ & Fc').
  set (q := l_filepath lm) in *.
  assert (Es : strong (map l_over c') q = strong (map l_over c) q).
  { destruct (in_dec Nat.eq_dec i (m :: upm)) as [Hin|Hin].
    - destruct (set_over_chain_at f fuel s s' i path up l Ht He Ha Hf El Hset
              m upm c c' q Hm Hin Fc Fc') as (a & os & d & cc & _ & _ & _ & _ & _ & Es).
      assert (Eq : str_eqb path q = false) by (apply str_eqb_neq; congruence).
      now rewrite Eq in Es.
    - apply (strong_tables_eq l_over (layers s) (layers s') (m :: upm)); auto.
      intros j x x' Hj Hx Hx'.
      rewrite (set_over_other f fuel s s' i path up l Ht He Ha Hf El Hset) in Hx' by congruence.
      congruence. }
  destruct (above_nth _ _ _ Hm') as [lm' Elm'].
  exists (strong (map l_over c) q), lm'.
  split; [now apply strong_strongest|]. split; [rewrite <- Es; now apply strong_strongest|].
  split; auto.
  assert (Hl : l_filepath lm' = q /\ l_mute lm' = l_mute lm /\ l_solo lm' = l_solo lm).
  { destruct (Nat.eq_dec m i) as [->|Hne].
    - destruct (set_over_self f fuel s s' i path up l Ht He Ha Hf El Hset) as [d2 Ed2].
      assert (lm' = with_over l d2) by congruence. assert (lm = l) by congruence.
      subst. auto.
    - rewrite (set_over_other f fuel s s' i path up l Ht He Ha Hf El Hset) in Elm' by auto.
      assert (lm' = lm) by congruence. subst. auto. }
  destruct Hl as (H1 & H2 & H3). repeat (split; [assumption|]).
  intros b Eb.
  destruct (set_over_shape f fuel s s' i path up l Ht He Ha Hf El Hset)
    as (ci & d & a & os & Eci & Fi & Ed & Hcase & E & Eo & Hos).
  assert (Hb : exists l0, In l0 (layers s) /\ In (q, b) (l_over l0)).
  { apply (comped_entry s m upm Ht q b c Fc).
    rewrite comped_get; auto. eapply chain_tables; eauto. now apply tables_over. }
  destruct Hb as (l0 & Hl0 & Hq). destruct He as [He1 He2].
  pose proof (He1 _ _ _ Hl0 Hq) as Hlt.
  assert (Hne : a <> b).
  { intros ->. destruct Hcase as [(Hd & _ & _)|(_ & -> & _)]; [|lia].
    subst d. destruct (comped_entry s i up Ht path b ci Fi Hd) as (l1 & G1 & G2).
    assert (q = path) by exact (He2 l0 l1 q path b Hl0 G1 Hq G2). congruence. }
  rewrite Eo, nth_set_nth_def by auto.
  destruct (Nat.eqb_spec a b); [contradiction|].
  destruct Hcase as [(_ & -> & _)|(_ & _ & ->)]; auto.
  now rewrite app_nth1.
Qed.

(** *** set_alias_over, set_color_over *)

Lemma root_parent_above s i up fuel :
  above (layers s) i up -> length up <= fuel ->
  get_root_parent fuel s i = Some (last (map Some up) None).
Proof.
  intros Ha Hf. destruct (above_nth _ _ _ Ha) as [l El].
  unfold get_root_parent. rewrite El, (parents_above _ _ _ _ _ Ha El Hf). reflexivity.
Qed.

Lemma strong_last {V} (a : list (dict V)) d k :
  strong (a ++ [d]) k = match dget k d with Some v => Some v | None => strong a k end.
Proof. rewrite strong_app. cbn. reflexivity. Qed.

Lemma set_on_root_effect {V} (get : slayer -> dict V) (put : slayer -> dict V -> slayer)
      fuel s i l up r root v :
  (forall x d, get (put x d) = d) ->
  (forall x d, l_parent (put x d) = l_parent x) ->
  above (layers s) i (up ++ [r]) -> length (up ++ [r]) <= fuel ->
  nth_error (layers s) i = Some l -> nth_error (layers s) r = Some root ->
  NoDup (dkeys (get root)) ->
  exists s' root', set_on_root get put fuel s i v = Some s' /\
    nth_error (layers s') r = Some root' /\
    (exists d, root' = put root d) /\
    (forall k, dget k (get root') = if str_eqb (l_filepath l) k then v else dget k (get root)) /\
    (forall j, j <> r -> nth_error (layers s') j = nth_error (layers s) j) /\
    objs s' = objs s.
Proof.
  intros Hgp Hpp Ha Hf El Er Hnd.
  unfold set_on_root. rewrite El, (root_parent_above s i (up ++ [r]) fuel Ha Hf).
  rewrite map_app. cbn [map]. rewrite last_last, Er.
  set (d := match v with None => _ | Some x => _ end).
  eexists _, (put root d). split; [reflexivity|]. cbn [layers objs].
  split; [now rewrite nth_set_nth, Nat.eqb_refl, Er|]. split; [eauto|].
  split; [|split; auto].
  - intros k. rewrite Hgp. unfold d. destruct v as [x|].
    + now rewrite dget_dset.
    + destruct (dmem (l_filepath l) (get root)) eqn:Em.
      * now rewrite dget_ddel.
      * apply dmem_false in Em. apply dget_none in Em.
        destruct (str_eqb (l_filepath l) k) eqn:E; auto.
        apply str_eqb_eq in E as <-. exact Em.
  - intros j Hj. rewrite nth_set_nth. destruct (Nat.eqb_spec r j); congruence.
Qed.

Lemma set_on_root_none {V} (get : slayer -> dict V) put fuel s i l v :
  nth_error (layers s) i = Some l -> l_parent l = None ->
  set_on_root get put fuel s i v = None.
Proof.
  intros El Hp. unfold set_on_root, get_root_parent. rewrite El, Hp. now destruct fuel.
Qed.

(** Reading back. *)
Lemma strongest_root {V} (table : slayer -> dict V) ls js r root k v :
  Forall (fun j => exists l, nth_error ls j = Some l) js ->
  nth_error ls r = Some root -> dget k (table root) = Some v ->
  strongest table ls k (js ++ [r]) (Some v).
Proof.
  intros Hj Er Ek. induction Hj as [|j js [l Hl] Hj IH]; cbn.
  - rewrite <- Ek. apply strongest_here; auto. constructor.
  - now apply strongest_up.
Qed.

(** *** Active layers *)
Lemma active_fold {L} (muted : L -> bool) ls acc :
  fold_left (fun acc l => if muted l then acc else acc ++ [l]) ls acc
  = acc ++ filter (fun l => negb (muted l)) ls.
Proof.
  revert acc. induction ls as [|x ls IH]; intros acc; cbn; [now rewrite app_nil_r|].
  rewrite IH. destruct (muted x); cbn; auto. now rewrite <- app_assoc.
Qed.

Lemma active_layers_spec {L} (muted soloed : L -> bool) ls :
  get_active_layers muted soloed ls
  = if existsb soloed ls
    then filter (fun l => soloed l && negb (muted l)) ls
    else filter (fun l => negb (muted l)) ls.
Proof.
  unfold get_active_layers, get_soloed_layers. rewrite active_fold. cbn [app].
  destruct (existsb soloed ls) eqn:E.
  - assert (Hne : filter soloed ls <> []).
    { apply existsb_exists in E as (x & Hx & Hs). intros Hn.
      assert (In x (filter soloed ls)) by (apply filter_In; auto). now rewrite Hn in H. }
    destruct (filter soloed ls) as [|y t] eqn:Ef; [congruence|]. rewrite <- Ef.
    clear. induction ls as [|x ls IH]; cbn; auto.
    destruct (soloed x); cbn; auto. destruct (muted x); cbn; now rewrite IH.
  - replace (filter soloed ls) with (@nil L); auto.
    symmetry. clear -E. induction ls as [|x ls IH]; cbn in *; auto.
    apply orb_false_iff in E as [-> E]. auto.
Qed.

(** *** Histories *)

Lemma above_length ls i up : above ls i up -> length up < length ls.
Proof.
  intros H. pose proof (above_nodup _ _ _ H) as Hnd.
  assert (Hincl : incl (i :: up) (seq 0 (length ls))).
  { assert (G : forall j, In j (i :: up) -> j < length ls).
    { clear Hnd. induction H as [i l H1 H2|i l j up H1 H2 H3 IH]; intros k [<-|Hk].
      - apply nth_error_Some. congruence.
      - destruct Hk.
      - apply nth_error_Some. congruence.
      - auto. }
    intros j Hj. apply in_seq. specialize (G j Hj). lia. }
  pose proof (NoDup_incl_length Hnd Hincl) as E. rewrite seq_length in E. cbn in E. lia.
Qed.

Lemma rooted_parents ls ls' :
  (forall j, option_map l_parent (nth_error ls' j) = option_map l_parent (nth_error ls j)) ->
  rooted ls -> rooted ls'.
Proof.
  intros H Hr i l' El'. pose proof (H i) as Hi. rewrite El' in Hi.
  destruct (nth_error ls i) as [l|] eqn:El; [|discriminate].
  destruct (Hr i l El) as [up Ha]. exists up. now apply (above_same_parents ls).
Qed.

Lemma set_over_ok f s s' i p :
  store_ok s -> set_over f (length (layers s)) s i p = Some s' -> store_ok s'.
Proof.
  intros (Ht & He & Hr) Hset.
  assert (exists l, nth_error (layers s) i = Some l) as [l El].
  { unfold set_over in Hset. destruct (nth_error (layers s) i); [eauto|discriminate]. }
  destruct (Hr i l El) as [up Ha].
  assert (Hf : length up <= length (layers s)) by (apply above_length in Ha; lia).
  split; [|split].
  - eapply (set_over_tables_ok f); eauto.
  - eapply (set_over_entries_ok f); eauto.
  - eapply rooted_parents; [|exact Hr]. eapply (set_over_parents f); eauto.
Qed.

(** Replacing a layer by one with the same parent and overrides. *)
Lemma replace_ok s r root root' :
  store_ok s -> nth_error (layers s) r = Some root ->
  l_parent root' = l_parent root -> l_over root' = l_over root ->
  NoDup (dkeys (l_aliases root')) -> NoDup (dkeys (l_colors root')) ->
  NoDup (dkeys (l_locks root')) ->
  store_ok {| layers := set_nth r root' (layers s); objs := objs s |}.
Proof.
  intros (Ht & (He1 & He2) & Hr) Er Hp Ho H1 H2 H3.
  assert (Hroot : In root (layers s)) by (eapply nth_error_In; eauto).
  split; [|split]; cbn [layers objs].
  - unfold tables_ok in *. rewrite Forall_forall in *. intros x Hx.
    apply In_set_nth in Hx as [->|Hx]; auto.
    destruct (Ht root Hroot) as (G1 & _). rewrite Ho. auto.
  - assert (G : forall x p a, In x (set_nth r root' (layers s)) -> In (p, a) (l_over x) ->
              exists y, In y (layers s) /\ In (p, a) (l_over y)).
    { intros x p a Hx Hi. apply In_set_nth in Hx as [->|Hx]; [|eauto].
      rewrite Ho in Hi. eauto. }
    split; cbn [layers objs].
    + intros x p a Hx Hi. destruct (G _ _ _ Hx Hi) as (y & A & B). eauto.
    + intros x y p q a Hx Hy Hi Hj.
      destruct (G _ _ _ Hx Hi) as (x' & A & B). destruct (G _ _ _ Hy Hj) as (y' & C & D).
      eauto.
  - eapply rooted_parents; [|exact Hr]. intros j. rewrite nth_set_nth.
    destruct (Nat.eqb_spec r j) as [<-|]; auto. rewrite Er. cbn. now rewrite Hp.
Qed.

Lemma store_tables s r root :
  store_ok s -> nth_error (layers s) r = Some root ->
  NoDup (dkeys (l_aliases root)) /\ NoDup (dkeys (l_colors root)) /\
  NoDup (dkeys (l_locks root)).
Proof.
  intros (Ht & _) Er. unfold tables_ok in Ht. rewrite Forall_forall in Ht.
  apply nth_error_In in Er. destruct (Ht root Er) as (_ & H). auto.
Qed.

Lemma call_ok s c : store_ok s -> store_ok (call s c).
Proof.
  intros H. unfold call. destruct c as [i p b|i p b|i v|i v|i v].
  - destruct (set_mute_over _ s i p b) eqn:E; auto. eapply set_over_ok; eauto.
  - destruct (set_solo_over _ s i p b) eqn:E; auto. eapply set_over_ok; eauto.
  - unfold set_alias_over, set_on_root.
    destruct (nth_error (layers s) i) as [l|]; auto.
    destruct (get_root_parent _ s i) as [[r|]|]; auto.
    destruct (nth_error (layers s) r) as [root|] eqn:Er; auto.
    destruct (store_tables _ _ _ H Er) as (H1 & H2 & H3).
    eapply replace_ok; eauto. cbn.
    destruct v; [now apply NoDup_dset|]. destruct (dmem _ _); auto. now apply NoDup_ddel.
  - unfold set_color_over, set_on_root.
    destruct (nth_error (layers s) i) as [l|]; auto.
    destruct (get_root_parent _ s i) as [[r|]|]; auto.
    destruct (nth_error (layers s) r) as [root|] eqn:Er; auto.
    destruct (store_tables _ _ _ H Er) as (H1 & H2 & H3).
    eapply replace_ok; eauto. cbn.
    destruct v; [now apply NoDup_dset|]. destruct (dmem _ _); auto. now apply NoDup_ddel.
  - unfold set_locked_over.
    destruct (nth_error (layers s) i) as [l|]; auto.
    destruct (get_root_parent _ s i) as [[r|]|]; auto.
    destruct (nth_error (layers s) r) as [root|] eqn:Er; auto.
    destruct (store_tables _ _ _ H Er) as (H1 & H2 & H3).
    destruct v.
    + eapply replace_ok; eauto. cbn. now apply NoDup_dset.
    + destruct (dmem _ (l_colors root)); auto. destruct (dmem _ (l_locks root)); auto.
      eapply replace_ok; eauto. cbn. now apply NoDup_ddel.
Qed.

Lemma calls_ok cs s : store_ok s -> store_ok (fold_left call cs s).
Proof. revert s. induction cs as [|c cs IH]; intros s H; cbn; auto. apply IH. now apply call_ok. Qed.

(** *** Statements used by [Props_Layers] *)

Lemma ok_above s i l :
  store_ok s -> nth_error (layers s) i = Some l ->
  exists up, above (layers s) i up /\ length up <= length (layers s).
Proof.
  intros (_ & _ & Hr) El. destruct (Hr i l El) as [up Ha]. exists up. split; auto.
  apply above_length in Ha. lia.
Qed.

Lemma mute_over_read s s' i p b m upm lm :
  store_ok s -> set_mute_over (length (layers s)) s i p b = Some s' ->
  above (layers s) m upm -> In i (m :: upm) ->
  nth_error (layers s) m = Some lm -> l_filepath lm = p ->
  get_muted (length (layers s')) s' false m = Some b.
Proof.
  intros Hok Hset Hm Hin Elm Hp.
  pose proof (set_over_ok _ _ _ _ _ Hok Hset) as Hok'.
  assert (exists l, nth_error (layers s) i = Some l) as [l El].
  { unfold set_mute_over, set_over in Hset.
    destruct (nth_error (layers s) i); [eauto|discriminate]. }
  destruct (ok_above _ _ _ Hok El) as (up & Ha & Hf). destruct Hok as (Ht & He & Hr).
  destruct (set_over_read o_mute _ _ _ _ _ _ _ _ _ _ _ Ht He Ha Hf El Hset Hm Hin Elm Hp)
    as (a & old & lm' & Hs & En & Elm' & Hp' & _ & _).
  assert (Hm' : above (layers s') m upm).
  { eapply above_same_parents; [|exact Hm]. eapply (set_over_parents _ _ s s'); eauto. }
  rewrite (get_muted_spec s' m lm' upm _ (Some a)); auto.
  - unfold opinion. now rewrite En.
  - apply Hok'.
  - apply above_length in Hm'. lia.
  - now rewrite Hp'.
Qed.

Lemma solo_over_read s s' i p b m upm lm :
  store_ok s -> set_solo_over (length (layers s)) s i p b = Some s' ->
  above (layers s) m upm -> In i (m :: upm) ->
  nth_error (layers s) m = Some lm -> l_filepath lm = p ->
  get_soloed (length (layers s')) s' false m = Some b.
Proof.
  intros Hok Hset Hm Hin Elm Hp.
  pose proof (set_over_ok _ _ _ _ _ Hok Hset) as Hok'.
  assert (exists l, nth_error (layers s) i = Some l) as [l El].
  { unfold set_solo_over, set_over in Hset.
    destruct (nth_error (layers s) i); [eauto|discriminate]. }
  destruct (ok_above _ _ _ Hok El) as (up & Ha & Hf). destruct Hok as (Ht & He & Hr).
  destruct (set_over_read o_solo _ _ _ _ _ _ _ _ _ _ _ Ht He Ha Hf El Hset Hm Hin Elm Hp)
    as (a & old & lm' & Hs & En & Elm' & Hp' & _ & _).
  assert (Hm' : above (layers s') m upm).
  { eapply above_same_parents; [|exact Hm]. eapply (set_over_parents _ _ s s'); eauto. }
  rewrite (get_soloed_spec s' m lm' upm _ (Some a)); auto.
  - unfold opinion. now rewrite En.
  - apply Hok'.
  - apply above_length in Hm'. lia.
  - now rewrite Hp'.
Qed.

Lemma over_frame f s s' i p m lm :
  store_ok s -> set_over f (length (layers s)) s i p = Some s' ->
  nth_error (layers s) m = Some lm -> l_filepath lm <> p ->
  get_muted (length (layers s')) s' false m = get_muted (length (layers s)) s false m /\
  get_soloed (length (layers s')) s' false m = get_soloed (length (layers s)) s false m.
Proof.
  intros Hok Hset Elm Hp.
  pose proof (set_over_ok _ _ _ _ _ Hok Hset) as Hok'.
  assert (exists l, nth_error (layers s) i = Some l) as [l El].
  { unfold set_over in Hset.
    destruct (nth_error (layers s) i); [eauto|discriminate]. }
  destruct (ok_above _ _ _ Hok El) as (up & Ha & Hf).
  destruct (ok_above _ _ _ Hok Elm) as (upm & Hm & Hfm).
  destruct Hok as (Ht & He & Hr).
  destruct (set_over_frame f _ _ _ _ _ _ _ _ _ _ Ht He Ha Hf El Hset Hm Elm Hp)
    as (e & lm' & Hs & Hs' & Elm' & Hp' & E1 & E2 & Hm' & Hobj).
  assert (Ht' : tables_ok (layers s')) by apply Hok'.
  assert (Hf' : length upm <= length (layers s')) by (apply above_length in Hm'; lia).
  assert (Hs2 : strongest l_over (layers s') (l_filepath lm') (m :: upm) e) by now rewrite Hp'.
  rewrite (get_muted_spec s' m lm' upm _ e Ht' Hm' Hf' Elm' Hs2).
  rewrite (get_muted_spec s m lm upm _ e Ht Hm Hfm Elm Hs).
  rewrite (get_soloed_spec s' m lm' upm _ e Ht' Hm' Hf' Elm' Hs2).
  rewrite (get_soloed_spec s m lm upm _ e Ht Hm Hfm Elm Hs).
  unfold opinion. destruct e as [a|].
  - rewrite (Hobj a eq_refl), E1, E2. auto.
  - rewrite E1, E2. auto.
Qed.

(** set_mute_over keeps the other flag of the same layer when the caller's
    own chain decides it. *)
Lemma mute_over_keeps_solo s s' p b m lm :
  store_ok s -> nth_error (layers s) m = Some lm -> l_filepath lm = p ->
  set_mute_over (length (layers s)) s m p b = Some s' ->
  get_soloed (length (layers s')) s' false m = get_soloed (length (layers s)) s false m.
Proof.
  intros Hok Elm Hp Hset. pose proof (set_over_ok _ _ _ _ _ Hok Hset) as Hok'.
  destruct (ok_above _ _ _ Hok Elm) as (up & Ha & Hf). destruct Hok as (Ht & He & Hr).
  pose proof (set_over_parents _ _ _ _ _ _ _ _ Ht He Ha Hf Elm Hset) as Hpar.
  pose proof (above_same_parents _ _ _ _ Hpar Ha) as Ha'.
  destruct (fetch_above _ _ _ Ha) as (c & _ & Fc).
  destruct (fetch_above _ _ _ Ha') as (c' & _ & Fc').
  destruct (set_over_chain_at _ _ _ _ _ _ _ _ Ht He Ha Hf Elm Hset m up c c' p Ha
              (or_introl eq_refl) Fc Fc')
    as (a & os & d & cc & Ecc & Ed & Hcase & Eo & Hos & Es).
  rewrite str_eqb_refl in Es.
  destruct (set_over_self _ _ _ _ _ _ _ _ Ht He Ha Hf Elm Hset) as [d2 Ed2].
  assert (Hs' : strongest l_over (layers s') p (m :: up) (Some a)).
  { rewrite <- Es. now apply strong_strongest. }
  assert (Hs : strongest l_over (layers s) p (m :: up) (dget p d)).
  { destruct (strongest_exists l_over (layers s) m up p Ha) as [v Hv].
    destruct (comped_overs l_over s m up _ p v (tables_over _ Ht) Ha Hf Hv) as (dd & G1 & G2 & _).
    unfold get_comped_layer_overs in G1. rewrite Ecc in G1. cbn in G1. injection G1 as <-.
    subst d. now rewrite G2. }
  rewrite (get_soloed_spec s' m _ up (length (layers s')) (Some a) (proj1 Hok') Ha'
             ltac:(apply above_length in Ha'; lia) Ed2) by (cbn; now rewrite Hp).
  rewrite (get_soloed_spec s m lm up _ (dget p d) Ht Ha Hf Elm) by now rewrite Hp.
  cbn [opinion l_solo with_over]. unfold opinion.
  rewrite Eo, nth_set_nth_def, Nat.eqb_refl by auto. cbn [o_solo].
  destruct Hcase as [(-> & -> & _)|(-> & -> & ->)]; auto.
  rewrite app_nth2, Nat.sub_diag by lia. reflexivity.
Qed.
