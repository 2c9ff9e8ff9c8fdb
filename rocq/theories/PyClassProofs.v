(** C3 merges and MROs. *)

From Coq Require Import List Bool Arith Lia.
From Verif Require Import PyClass PyClassSpec.
Import ListNotations.

Section Proofs.
Context {A : Type} (eqb : A -> A -> bool) (eqb_eq : forall x y, eqb x y = true <-> x = y).
Notation isin := (isin eqb). Notation merge := (merge eqb). Notation c3_merge := (c3_merge eqb). Notation mro := (mro eqb).
Notation candidate := (candidate eqb). Notation in_a_tail := (in_a_tail eqb). Notation drop_head := (drop_head eqb).

Lemma isin_In x l : isin x l = true <-> In x l.
Proof.
  unfold PyClass.isin. rewrite existsb_exists. split.
  - intros (y & H & E). apply eqb_eq in E. now subst.
  - intros H. exists x. split; [exact H|now apply eqb_eq].
Qed.
Lemma eqb_refl x : eqb x x = true. Proof. now apply eqb_eq. Qed.
Lemma in_a_tail_false x ls : in_a_tail x ls = false <-> forall l, In l ls -> ~ In x (tl l).
Proof.
  unfold PyClass.in_a_tail. split.
  - intros H l Hl F. apply isin_In in F. assert (existsb (fun l => isin x (tl l)) ls = true); [|congruence]. apply existsb_exists. eauto.
  - intros H. destruct (existsb (fun l => isin x (tl l)) ls) eqn:E; [|reflexivity]. apply existsb_exists in E as (l & Hl & F).
    apply isin_In in F. destruct (H _ Hl F).
Qed.

Lemma sub_refl (l : list A) : sub l l. Proof. induction l; [constructor|now apply sub_take]. Qed.
Lemma sub_nil_l (l : list A) : sub [] l. Proof. induction l; constructor; auto. Qed.
Lemma sub_in (a b : list A) x : sub a b -> In x a -> In x b.
Proof. induction 1; cbn; firstorder. Qed.
Lemma sub_trans (a b c : list A) : sub a b -> sub b c -> sub a c.
Proof.
  intros H1 H2. revert a H1. induction H2 as [|x b c H2 IH|x b c H2 IH]; intros a H1; [exact H1|apply sub_skip; auto|].
  inversion H1; subst; [apply sub_skip|apply sub_take]; auto.
Qed.
Lemma sub_nodup (a b : list A) : sub a b -> NoDup b -> NoDup a.
Proof.
  induction 1 as [|x a b H IH|x a b H IH]; intros Hn; [constructor| |]; inversion Hn; subst; [auto|]. constructor; [|auto].
  intros F. now apply (sub_in _ _ _ H) in F.
Qed.

Lemma candidate_spec all : forall todo x, candidate todo all = Some x ->
  in_a_tail x all = false /\ exists t, In (x :: t) todo.
Proof.
  induction todo as [|[|y l] todo IH]; intros x H; cbn in H; [discriminate| |].
  - destruct (IH _ H) as (H1 & t & H2). split; [exact H1|]. exists t. now right.
  - destruct (in_a_tail y all) eqn:E.
    + destruct (IH _ H) as (H1 & t & H2). split; [exact H1|]. exists t. now right.
    + injection H as <-. split; [exact E|]. exists l. now left.
Qed.

Lemma drop_head_facts x l : ~ In x (tl l) ->
  (~ In x (drop_head x l)) /\ (forall y, In y l <-> (y = x /\ hd_error l = Some x) \/ In y (drop_head x l)) /\ (forall b, sub (drop_head x l) b -> sub l (x :: b)).
Proof.
  intros H. destruct l as [|y l]; cbn in *.
  - split; [tauto|]. split; [intros y; split; [tauto|intros [(_ & F)|F]; [discriminate|exact F]]|]. intros b Hb. now constructor.
  - destruct (eqb x y) eqn:E.
    + apply eqb_eq in E as ->. split; [exact H|]. split; [|intros b Hb; now apply sub_take]. intros z. split; intros [F|F]; auto. destruct F as (-> & _). now left.
    + assert (x <> y) by (intros ->; rewrite eqb_refl in E; discriminate). split; [intros [F|F]; [congruence|auto]|].
      split; [|intros b Hb; now apply sub_skip]. intros z. split; [auto|]. intros [(-> & F)|F]; [congruence|exact F].
Qed.

Lemma all_empty_spec (ls : list (list A)) : all_empty ls = true -> forall l, In l ls -> l = [].
Proof. unfold all_empty. rewrite forallb_forall. intros H l Hl. specialize (H _ Hl). now destruct l. Qed.

Lemma merge_spec fuel : forall ls l, merge fuel ls = Some l ->
  NoDup l /\ (forall x, In x l <-> exists m, In m ls /\ In x m) /\ (forall m, In m ls -> sub m l).
Proof.
  induction fuel as [|f IH]; intros ls l H; cbn [PyClass.merge] in H.
  - destruct (all_empty ls) eqn:E; [|discriminate]. injection H as <-. pose proof (all_empty_spec _ E) as He. split; [constructor|]. split.
    + intros x. split; [intros []|]. intros (m & Hm & Hx). rewrite (He _ Hm) in Hx. exact Hx.
    + intros m Hm. rewrite (He _ Hm). constructor.
  - destruct (all_empty ls) eqn:E.
    { injection H as <-. pose proof (all_empty_spec _ E) as He. split; [constructor|]. split.
      + intros x. split; [intros []|]. intros (m & Hm & Hx). rewrite (He _ Hm) in Hx. exact Hx.
      + intros m Hm. rewrite (He _ Hm). constructor. }
    destruct (candidate ls ls) as [x|] eqn:Ec; [|discriminate]. destruct (merge f (map (drop_head x) ls)) as [r|] eqn:Er; [|discriminate].
    injection H as <-. destruct (candidate_spec _ _ _ Ec) as (Ht & t & Hx). rewrite in_a_tail_false in Ht.
    destruct (IH _ _ Er) as (Hnd & Hin & Hsub). split; [|split].
    + constructor; [|exact Hnd]. rewrite Hin. intros (m & Hm & Hxm). apply in_map_iff in Hm as (m0 & <- & Hm).
      destruct (drop_head_facts x m0 (Ht _ Hm)) as (F & _). contradiction.
    + intros y. cbn. rewrite Hin. split.
      * intros [<-|(m & Hm & Hy)]; [exists (x :: t); split; [exact Hx|now left]|]. apply in_map_iff in Hm as (m0 & <- & Hm).
        exists m0. split; [exact Hm|]. apply (proj2 (drop_head_facts x m0 (Ht _ Hm))). now right.
      * intros (m & Hm & Hy). apply (proj1 (proj2 (drop_head_facts x m (Ht _ Hm)))) in Hy as [(-> & _)|Hy]; [now left|]. right.
        exists (drop_head x m). split; [now apply in_map|exact Hy].
    + intros m Hm. apply (drop_head_facts x m (Ht _ Hm)). apply Hsub. now apply in_map.
Qed.

(** *** Fuel of merge *)

Lemma drop_length x l : length (drop_head x l) <= length l.
Proof. destruct l as [|y l]; cbn; [lia|]. destruct (eqb x y); cbn; lia. Qed.
Lemma drop_all_length x ls : length (concat (map (drop_head x) ls)) <= length (concat ls).
Proof. induction ls as [|l ls IH]; cbn; [lia|]. rewrite !app_length. pose proof (drop_length x l). lia. Qed.
Lemma drop_some_length x t ls : In (x :: t) ls -> length (concat (map (drop_head x) ls)) < length (concat ls).
Proof.
  induction ls as [|l ls IH]; intros H; [destruct H|]. cbn. rewrite !app_length. destruct H as [->|H].
  - cbn. rewrite eqb_refl. pose proof (drop_all_length x ls). lia.
  - specialize (IH H). pose proof (drop_length x l). lia.
Qed.
Lemma merge_enough ls : forall f, length (concat ls) <= f -> merge f ls = c3_merge ls.
Proof.
  assert (H : forall n ls, length (concat ls) <= n -> forall f, n <= f -> merge f ls = merge n ls).
  { induction n as [|n IH]; intros ls0 Hn f Hf.
    - assert (E : all_empty ls0 = true).
      { unfold all_empty. apply forallb_forall. intros l Hl. destruct l as [|x l]; [reflexivity|]. exfalso.
        apply in_split in Hl as (a & b & ->). rewrite concat_app, app_length in Hn. cbn in Hn. lia. }
      destruct f; cbn; now rewrite E.
    - destruct f as [|f]; [lia|]. cbn. destruct (all_empty ls0); [reflexivity|]. destruct (candidate ls0 ls0) as [x|] eqn:Ec; [|reflexivity].
      destruct (candidate_spec _ _ _ Ec) as (_ & t & Hx). pose proof (drop_some_length _ _ _ Hx). rewrite IH; [reflexivity|lia|lia]. }
  intros f Hf. unfold PyClass.c3_merge. now apply H.
Qed.
Lemma c3_step ls : c3_merge ls =
  if all_empty ls then Some []
  else match candidate ls ls with None => None | Some x => option_map (cons x) (c3_merge (map (drop_head x) ls)) end.
Proof.
  unfold PyClass.c3_merge at 1. destruct (length (concat ls)) as [|n] eqn:E; cbn [PyClass.merge].
  - destruct (all_empty ls) eqn:Ee; [reflexivity|]. exfalso. assert (all_empty ls = true); [|congruence].
    unfold all_empty. apply forallb_forall. intros l Hl. destruct l as [|x l]; [reflexivity|]. exfalso.
    apply in_split in Hl as (a & b & ->). rewrite concat_app, app_length in E. cbn in E. lia.
  - destruct (all_empty ls); [reflexivity|]. destruct (candidate ls ls) as [x|] eqn:Ec; [|reflexivity].
    destruct (candidate_spec _ _ _ Ec) as (_ & t & Hx). pose proof (drop_some_length _ _ _ Hx). rewrite merge_enough by lia. reflexivity.
Qed.

(** Empty lists do not matter. *)
Fixpoint busy (ls : list (list A)) : list (list A) := match ls with [] => [] | [] :: t => busy t | l :: t => l :: busy t end.
Lemma busy_empty ls : all_empty (busy ls) = all_empty ls.
Proof. induction ls as [|[|x l] ls IH]; cbn; auto. Qed.
Lemma busy_tail x ls : in_a_tail x (busy ls) = in_a_tail x ls.
Proof.
  unfold PyClass.in_a_tail. induction ls as [|[|y l] ls IH]; [reflexivity|exact IH|]. cbn [busy existsb]. f_equal. exact IH.
Qed.
Lemma busy_candidate all : forall ls, candidate (busy ls) (busy all) = candidate ls all.
Proof. induction ls as [|[|y l] ls IH]; cbn; auto. rewrite busy_tail, IH. reflexivity. Qed.
Lemma busy_drop x : forall ls, busy (map (drop_head x) (busy ls)) = busy (map (drop_head x) ls).
Proof. induction ls as [|[|y l] ls IH]; cbn; auto. destruct (eqb x y); [destruct l|]; cbn; now rewrite ?IH. Qed.
Lemma c3_busy : forall ls, c3_merge (busy ls) = c3_merge ls.
Proof.
  assert (H : forall n ls, length (concat ls) <= n -> forall ls', busy ls' = busy ls -> c3_merge ls' = c3_merge ls).
  { induction n as [|n IH]; intros ls Hn ls' Hb; rewrite (c3_step ls), (c3_step ls'), <- (busy_empty ls), <- (busy_empty ls'), Hb.
    - destruct (all_empty (busy ls)) eqn:E; [reflexivity|]. rewrite busy_empty in E. exfalso. assert (all_empty ls = true); [|congruence].
      unfold all_empty. apply forallb_forall. intros l Hl. destruct l as [|x l]; [reflexivity|]. exfalso.
      apply in_split in Hl as (a & b & ->). rewrite concat_app, app_length in Hn. cbn in Hn. lia.
    - destruct (all_empty (busy ls)); [reflexivity|].
      replace (candidate ls' ls') with (candidate ls ls) by (rewrite <- (busy_candidate ls ls), <- (busy_candidate ls' ls'), Hb; reflexivity).
      destruct (candidate ls ls) as [x|] eqn:Ec; [|reflexivity].
      destruct (candidate_spec _ _ _ Ec) as (_ & t & Hx). pose proof (drop_some_length _ _ _ Hx).
      rewrite (IH (map (drop_head x) ls) ltac:(lia) (map (drop_head x) ls')); [reflexivity|].
      rewrite <- (busy_drop x ls), <- (busy_drop x ls'), Hb. reflexivity. }
  intros ls. apply (H (length (concat ls)) ls (le_n _)).
  induction ls as [|[|x l] ls IH]; cbn; auto. now f_equal.
Qed.
Lemma c3_eq ls ls' : busy ls = busy ls' -> c3_merge ls = c3_merge ls'.
Proof. intros H. now rewrite <- c3_busy, H, c3_busy. Qed.

(** *** Classes without bases in front *)

Lemma drop_other x l : ~ In x l -> drop_head x l = l.
Proof. destruct l as [|y l]; cbn; [reflexivity|]. intros H. destruct (eqb x y) eqn:E; [|reflexivity]. apply eqb_eq in E. subst. destruct H. now left. Qed.

Lemma c3_front : forall front ls rest, NoDup front -> (forall x, In x front -> ~ In x rest /\ forall l, In l ls -> ~ In x l) ->
  c3_merge (map (fun s => [s]) front ++ ls ++ [front ++ rest]) = option_map (app front) (c3_merge (ls ++ [rest])).
Proof.
  induction front as [|x front IH]; intros ls rest Hnd Hx; cbn [map app].
  - destruct (c3_merge (ls ++ [rest])); reflexivity.
  - rewrite c3_step. cbn [all_empty forallb andb]. inversion Hnd as [|? ? Hf Hnd']; subst.
    destruct (Hx x (or_introl eq_refl)) as (Hr & Hl).
    assert (Ht : in_a_tail x ([x] :: map (fun s => [s]) front ++ ls ++ [x :: front ++ rest]) = false).
    { apply in_a_tail_false. intros l [<-|Hin]; [intros []|]. apply in_app_or in Hin as [Hin|Hin].
      - apply in_map_iff in Hin as (s & <- & _). intros [].
      - apply in_app_or in Hin as [Hin|[<-|[]]]; [|cbn; intros F; apply in_app_or in F as [F|F]; contradiction].
        intros F. apply (Hl _ Hin). destruct l; [destruct F|now right]. }
    cbn [PyClass.candidate]. rewrite Ht. cbn [map]. rewrite !map_app. cbn [map PyClass.drop_head]. rewrite eqb_refl.
    assert (E1 : map (drop_head x) (map (fun s => [s]) front) = map (fun s => [s]) front).
    { rewrite map_map. apply map_ext_in. intros s Hs. apply drop_other. intros [->|[]]. contradiction. }
    assert (E2 : map (drop_head x) ls = ls).
    { transitivity (map (fun l => l) ls); [|apply map_id]. apply map_ext_in. intros l Hin. apply drop_other. now apply Hl. }
    rewrite E1, E2. rewrite (c3_eq ([] :: map (fun s => [s]) front ++ ls ++ [front ++ rest]) (map (fun s => [s]) front ++ ls ++ [front ++ rest]) eq_refl).
    rewrite IH; [|exact Hnd'|intros y Hy; apply Hx; now right]. destruct (c3_merge (ls ++ [rest])); reflexivity.
Qed.

(** One list to merge, alone or with its own first element. *)
Lemma c3_single l : NoDup l -> c3_merge [l] = Some l.
Proof.
  induction l as [|x l IH]; intros Hnd; rewrite c3_step; cbn [all_empty forallb andb]; [reflexivity|]. inversion Hnd as [|? ? Hx Hnd']; subst.
  cbn [PyClass.candidate]. assert (Ht : in_a_tail x [x :: l] = false). { apply in_a_tail_false. intros m [<-|[]]. exact Hx. }
  rewrite Ht. cbn [map PyClass.drop_head]. rewrite eqb_refl, IH by exact Hnd'. reflexivity.
Qed.
Lemma c3_single_base x l : NoDup (x :: l) -> c3_merge [x :: l; [x]] = Some (x :: l).
Proof.
  intros Hnd. rewrite c3_step. cbn [all_empty forallb andb]. inversion Hnd as [|? ? Hx Hnd']; subst.
  cbn [PyClass.candidate]. assert (Ht : in_a_tail x [x :: l; [x]] = false).
  { apply in_a_tail_false. intros m [<-|[<-|[]]]; [exact Hx|intros []]. }
  rewrite Ht. cbn [map PyClass.drop_head]. rewrite eqb_refl, (c3_eq [l; []] [l]) by (destruct l; reflexivity). now rewrite c3_single.
Qed.

(** *** MROs *)

Lemma sequence_some {B} : forall (l : list (option B)) r, sequence l = Some r <-> l = map Some r.
Proof.
  induction l as [|[x|] l IH]; intros r; cbn.
  - split; [intros [= <-]; reflexivity|]. destruct r; [reflexivity|discriminate].
  - destruct (sequence l) as [t|] eqn:E; cbn.
    + split.
      * intros [= <-]. cbn. f_equal. now apply IH.
      * destruct r as [|y r]; [discriminate|]. cbn. intros [= -> F]. apply IH in F. congruence.
    + split; [discriminate|]. destruct r as [|y r]; [discriminate|]. cbn. intros [= -> F]. apply IH in F. discriminate.
  - split; [discriminate|]. destruct r; discriminate.
Qed.

Section Graph.
Variable bases : A -> list A.
Notation mro := (mro bases).

Lemma mro_unfold f c l : mro (S f) c = Some l <->
  exists ls r, map (mro f) (bases c) = map Some ls /\ c3_merge (ls ++ [bases c]) = Some r /\ l = c :: r.
Proof.
  cbn. destruct (sequence (map (mro f) (bases c))) as [ls|] eqn:E.
  - apply sequence_some in E. rewrite E. destruct (c3_merge (ls ++ [bases c])) as [r|] eqn:Er; cbn.
    + split; [intros [= <-]; eauto|]. intros (ls' & r' & E1 & E2 & ->). assert (ls' = ls) as ->.
      { assert (H : forall a b : list (list A), map Some a = map Some b -> a = b).
        { induction a as [|x a IH]; intros [|y b]; cbn; try discriminate; [reflexivity|]. intros [= -> F]. f_equal. auto. }
        now apply H. } congruence.
    + split; [discriminate|]. intros (ls' & r' & E1 & E2 & ->). assert (ls' = ls) as ->.
      { assert (H : forall a b : list (list A), map Some a = map Some b -> a = b).
        { induction a as [|x a IH]; intros [|y b]; cbn; try discriminate; [reflexivity|]. intros [= -> F]. f_equal. auto. }
        now apply H. } congruence.
  - split; [discriminate|]. intros (ls & r & E1 & _). apply sequence_some in E1. congruence.
Qed.

Lemma mro_more f : forall c l, mro f c = Some l -> mro (S f) c = Some l.
Proof.
  induction f as [|f IH]; intros c l H; [discriminate|]. apply mro_unfold in H as (ls & r & E & Er & ->). apply mro_unfold.
  exists ls, r. split; [|auto]. revert ls E Er. generalize (bases c) as bs. intros bs ls E _. revert ls E. induction bs as [|b bs IHb]; intros [|l ls] E; cbn in *; try discriminate; [reflexivity|].
  injection E as E1 E2. change (sequence (map (mro f) (bases b))) with (sequence (map (mro f) (bases b))).
  rewrite <- (IHb _ E2). f_equal. now apply IH.
Qed.
Lemma mro_le f f' c l : f <= f' -> mro f c = Some l -> mro f' c = Some l.
Proof. induction 1; auto using mro_more. Qed.
Lemma mro_fun f f' c l l' : mro f c = Some l -> mro f' c = Some l' -> l = l'.
Proof.
  intros H H'. destruct (Nat.le_ge_cases f f') as [L|L].
  - apply (mro_le _ _ _ _ L) in H. congruence.
  - apply (mro_le _ _ _ _ L) in H'. congruence.
Qed.

Lemma mro_bases f c l : mro (S f) c = Some l -> forall b, In b (bases c) -> exists lb, mro f b = Some lb.
Proof.
  intros H b Hb. apply mro_unfold in H as (ls & r & E & _). assert (In (mro f b) (map Some ls)) by (rewrite <- E; now apply in_map).
  apply in_map_iff in H as (lb & H & _). eauto.
Qed.

Lemma above_trans a b c : above bases a b -> above bases b c -> above bases a c.
Proof. induction 1; intros H'; [exact H'|]. econstructor; eauto. Qed.

(** Everything above a class with an MRO has one. *)
Lemma mro_above c d : above bases c d -> forall f l, mro f c = Some l -> exists ld, mro f d = Some ld.
Proof.
  induction 1 as [c|c b d Hb _ IH]; intros f l H; [eauto|]. destruct f as [|f]; [discriminate|].
  destruct (mro_bases _ _ _ H _ Hb) as (lb & Hlb). destruct (IH _ _ Hlb) as (ld & Hld). exists ld. now apply mro_more.
Qed.
Lemma mro_acyclic c b f l : mro f c = Some l -> In b (bases c) -> ~ above bases b c.
Proof.
  revert l. induction f as [|f IH]; intros l H Hb Ha; [discriminate|].
  destruct (mro_bases _ _ _ H _ Hb) as (lb & Hlb). destruct (mro_above _ _ Ha _ _ Hlb) as (lc & Hlc). now apply (IH lc).
Qed.

(** The laws of an MRO: it starts with the class, repeats nothing, has exactly
    the class and all above it, keeps the order of the bases and of the MRO of
    every base. *)
Theorem mro_laws f : forall c l, mro f c = Some l ->
  (exists r, l = c :: r) /\ NoDup l /\ (forall x, In x l <-> above bases c x) /\ sub (c :: bases c) l /\
  (forall b lb f', In b (bases c) -> mro f' b = Some lb -> sub lb l).
Proof.
  induction f as [|f IH]; intros c l H; [discriminate|]. pose proof H as H0. apply mro_unfold in H as (ls & r & E & Er & ->).
  destruct (merge_spec _ _ _ Er) as (Hnd & Hin & Hsub).
  assert (Hls : forall lb, In lb ls <-> exists b, In b (bases c) /\ mro f b = Some lb).
  { intros lb. split; intros Hb.
    - assert (In (Some lb) (map Some ls)) by now apply in_map. rewrite <- E in H. apply in_map_iff in H as (b & H & Hb'). eauto.
    - destruct Hb as (b & Hb & Hm). assert (In (mro f b) (map Some ls)) by (rewrite <- E; now apply in_map). rewrite Hm in H.
      apply in_map_iff in H as (x & [= ->] & H). exact H. }
  assert (Hr : forall x, In x r <-> exists b, In b (bases c) /\ above bases b x).
  { intros x. rewrite Hin. split.
    - intros (m & Hm & Hx). apply in_app_or in Hm as [Hm|[<-|[]]].
      + apply Hls in Hm as (b & Hb & Hm). exists b. split; [exact Hb|]. now apply (IH _ _ Hm).
      + exists x. split; [exact Hx|constructor].
    - intros (b & Hb & Ha). destruct (mro_bases _ _ _ H0 _ Hb) as (lb & Hlb). exists lb. split; [apply in_or_app; left; apply Hls; eauto|].
      now apply (IH _ _ Hlb). }
  split; [eauto|]. split; [|split; [|split]].
  - constructor; [|exact Hnd]. rewrite Hr. intros (b & Hb & Ha). now apply (mro_acyclic _ _ _ _ H0 Hb).
  - intros x. cbn. rewrite Hr. split.
    + intros [<-|(b & Hb & Ha)]; [constructor|]. econstructor; eauto.
    + inversion 1; subst; [now left|right; eauto].
  - apply sub_take. apply Hsub. apply in_or_app. right. now left.
  - intros b lb f' Hb Hm. destruct (mro_bases _ _ _ H0 _ Hb) as (lb' & Hlb'). rewrite (mro_fun _ _ _ _ _ Hm Hlb').
    apply sub_skip. apply Hsub. apply in_or_app. left. apply Hls. eauto.
Qed.

Lemma some_app {B} : forall (k ls : list B) t, map Some k ++ t = map Some ls -> exists ls', ls = k ++ ls' /\ t = map Some ls'.
Proof.
  induction k as [|x k IH]; intros ls t E; cbn in E; [now exists ls|]. destruct ls as [|y ls]; [discriminate E|]. cbn in E. injection E as -> E.
  destruct (IH _ _ E) as (ls' & -> & H). exists ls'. auto.
Qed.
Lemma mro_no_bases f c : bases c = [] -> mro (S f) c = Some [c].
Proof. intros E. cbn. rewrite E. reflexivity. Qed.

(** Classes without bases first, then others: the MRO starts with the former. *)
Lemma mro_front f c front rest l : bases c = front ++ rest -> (forall x, In x front -> bases x = []) ->
  (forall x b, In x front -> In b rest -> ~ above bases b x) ->
  mro (S f) c = Some l ->
  exists ls m, map (mro f) rest = map Some ls /\ c3_merge (ls ++ [rest]) = Some m /\ l = c :: front ++ m.
Proof.
  intros E Hf Hd H. pose proof H as H0. apply mro_unfold in H as (ls & r & Em & Er & ->). rewrite E in *.
  destruct f as [|f].
  { destruct (front ++ rest) as [|b bs] eqn:Eb; [|destruct ls; discriminate Em]. apply app_eq_nil in Eb as (-> & ->). destruct ls; [|discriminate Em].
    exists [], r. auto. }
  assert (Hnd : NoDup (front ++ rest)).
  { destruct (merge_spec _ _ _ Er) as (Hn & _ & Hs). eapply sub_nodup; [|exact Hn]. apply Hs. apply in_or_app. right. now left. }
  rewrite map_app in Em.
  assert (Hfr : map (mro (S f)) front = map Some (map (fun s => [s]) front)).
  { rewrite map_map. apply map_ext_in. intros x Hx. apply mro_no_bases. now apply Hf. }
  rewrite Hfr in Em.
  assert (exists ls', ls = map (fun s => [s]) front ++ ls' /\ map (mro (S f)) rest = map Some ls') as (ls' & -> & Hrest).
  { eapply some_app. exact Em. }
  rewrite <- app_assoc in Er. rewrite c3_front in Er.
  - destruct (c3_merge (ls' ++ [rest])) as [m|] eqn:Em2; [|discriminate]. injection Er as <-. exists ls', m. auto.
  - clear -Hnd. induction front; cbn in *; [constructor|]. inversion Hnd; subst. constructor; [|auto]. intros F. apply H1. apply in_or_app. now left.
  - intros x Hx. split.
    + intros F. apply (Hd x x Hx F). constructor.
    + intros lb Hlb F. assert (In (Some lb) (map Some ls')) by now apply in_map. rewrite <- Hrest in H.
      apply in_map_iff in H as (b & Hb & Hin). apply (Hd x b Hx Hin). now apply (mro_laws _ _ _ Hb).
Qed.
Lemma mro_front_only f c front : bases c = front -> NoDup front -> (forall x, In x front -> bases x = []) ->
  mro (S (S f)) c = Some (c :: front).
Proof.
  intros E Hnd Hf. apply mro_unfold. exists (map (fun s => [s]) front), front. rewrite E. split; [|split; [|reflexivity]].
  - rewrite map_map. apply map_ext_in. intros x Hx. apply mro_no_bases. now apply Hf.
  - pose proof (c3_front front [] [] Hnd) as H. cbn [app] in H. rewrite app_nil_r in H. rewrite H by (intros; split; [intros []|intros ? []]).
    cbn. now rewrite app_nil_r.
Qed.
End Graph.

(** *** Lookup *)

Section Lookup.
Context {V : Type} (own : A -> option V).
Notation lookup_in := (lookup_in own).

Lemma lookup_app a b : lookup_in (a ++ b) = match lookup_in a with Some r => Some r | None => lookup_in b end.
Proof. induction a as [|x a IH]; cbn; [reflexivity|]. destruct (own x); auto. Qed.
Lemma lookup_first l c v : lookup_in l = Some (c, v) <-> exists a b, l = a ++ c :: b /\ own c = Some v /\ forall x, In x a -> own x = None.
Proof.
  induction l as [|x l IH]; cbn.
  - split; [discriminate|]. intros ([|] & b & E & _); discriminate.
  - destruct (own x) as [w|] eqn:E.
    + split.
      * intros F. injection F as -> ->. exists [], l. split; [reflexivity|]. split; [exact E|intros ? []].
      * intros (a & b & El & Hc & Ha). destruct a as [|y a]; cbn in El; inversion El; subst; [congruence|]. rewrite (Ha y (or_introl eq_refl)) in E. discriminate.
    + rewrite IH. split.
      * intros (a & b & -> & Hc & Ha). exists (x :: a), b. split; [reflexivity|]. split; [exact Hc|]. intros y [<-|Hy]; [exact E|now apply Ha].
      * intros (a & b & El & Hc & Ha). destruct a as [|y a]; cbn in El; inversion El; subst; [congruence|]. exists a, b. split; [reflexivity|]. split; [exact Hc|].
        intros z Hz. apply Ha. now right.
Qed.
Lemma lookup_none l : lookup_in l = None <-> forall x, In x l -> own x = None.
Proof.
  induction l as [|x l IH]; cbn; [split; [intros _ ? []|auto]|]. destruct (own x) as [w|] eqn:E.
  - split; [discriminate|]. intros H. rewrite (H x (or_introl eq_refl)) in E. discriminate.
  - rewrite IH. split; [intros H y [<-|Hy]; auto|auto].
Qed.
(** Seen from a longer order that keeps this one. *)
Lemma lookup_sub a b c v : sub a b -> NoDup b -> lookup_in b = Some (c, v) -> In c a -> lookup_in a = Some (c, v).
Proof.
  intros Hs Hnd Hb Hc. induction Hs as [|x a b Hs IH|x a b Hs IH]; cbn in *; [discriminate| |]; inversion Hnd as [|? ? Hx Hnd']; subst.
  - destruct (own x) as [w|] eqn:E; [|auto]. injection Hb as -> ->. destruct Hx. now apply (sub_in _ _ _ Hs).
  - destruct (own x) as [w|] eqn:E; [exact Hb|]. destruct Hc as [->|Hc]; [|auto]. apply lookup_first in Hb as (p & q & -> & Hc & _). congruence.
Qed.
End Lookup.
End Proofs.
