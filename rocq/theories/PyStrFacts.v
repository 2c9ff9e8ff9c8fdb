(** Facts about the string operations of [PyStr]. *)

From Coq Require Import Ascii String List NArith Bool ZArith Lia Arith.
From Verif Require Import PyStr.
Import ListNotations.

Lemma str_eqb_eq a b : str_eqb a b = true <-> a = b.
Proof.
  revert b; induction a as [|x a IH]; intros [|y b]; cbn; split; intros H;
    try discriminate; auto.
  - apply andb_true_iff in H as [H1 H2].
    apply N.eqb_eq in H1; apply IH in H2; congruence.
  - injection H as -> ->. rewrite N.eqb_refl. cbn. now apply IH.
Qed.

Lemma str_eqb_refl a : str_eqb a a = true.
Proof. now apply str_eqb_eq. Qed.

Lemma str_eqb_neq a b : str_eqb a b = false <-> a <> b.
Proof.
  split; intros H.
  - intros ->. rewrite str_eqb_refl in H; discriminate.
  - destruct (str_eqb a b) eqn:E; auto. apply str_eqb_eq in E; contradiction.
Qed.

Lemma str_eqb_spec a b : reflect (a = b) (str_eqb a b).
Proof.
  destruct (str_eqb a b) eqn:E; constructor.
  - now apply str_eqb_eq.
  - now apply str_eqb_neq.
Qed.

Lemma str_eqb_sym a b : str_eqb a b = str_eqb b a.
Proof.
  destruct (str_eqb_spec a b), (str_eqb_spec b a); congruence.
Qed.

Definition pystr_eq_dec (a b : pystr) : {a = b} + {a <> b} :=
  list_eq_dec N.eq_dec a b.

Lemma str_in_In s l : str_in s l = true <-> In s l.
Proof.
  unfold str_in. rewrite existsb_exists. split.
  - intros (x & Hx & E). apply str_eqb_eq in E; subst; auto.
  - intros H. exists s. split; auto. apply str_eqb_refl.
Qed.

Lemma str_in_not_In s l : str_in s l = false <-> ~ In s l.
Proof.
  rewrite <- str_in_In. destruct (str_in s l); split; congruence.
Qed.

Lemma startswith_iff p s :
  startswith p s = true <-> exists r, s = p ++ r.
Proof.
  revert s; induction p as [|x p IH]; intros s; cbn.
  - split; eauto.
  - destruct s as [|y s]; cbn.
    + split; [discriminate | intros (r & H); discriminate].
    + rewrite andb_true_iff, N.eqb_eq, IH. split.
      * intros (-> & r & ->). eauto.
      * intros (r & H). injection H as -> ->. eauto.
Qed.

Lemma startswith_app p r : startswith p (p ++ r) = true.
Proof. apply startswith_iff; eauto. Qed.

Lemma startswith_false_iff p s :
  startswith p s = false <-> forall r, s <> p ++ r.
Proof.
  split; intros H.
  - intros r ->. rewrite startswith_app in H; discriminate.
  - destruct (startswith p s) eqn:E; auto.
    apply startswith_iff in E as (r & E). now apply H in E.
Qed.

Lemma endswith_iff p s :
  endswith p s = true <-> exists r, s = r ++ p.
Proof.
  unfold endswith. rewrite startswith_iff. split.
  - intros (r & H). exists (rev r).
    apply (f_equal (@rev N)) in H. now rewrite rev_app_distr, !rev_involutive in H.
  - intros (r & ->). exists (rev r). now rewrite rev_app_distr.
Qed.

Lemma contains_iff sub s :
  contains sub s = true <-> exists a b, s = a ++ sub ++ b.
Proof.
  induction s as [|c t IH]; cbn [contains].
  - rewrite orb_false_r, startswith_iff. split.
    + intros (r & H). exists [], r. exact H.
    + intros (a & b & H). symmetry in H. apply app_eq_nil in H as [-> H].
      exists b. auto.
  - rewrite orb_true_iff, startswith_iff, IH. split.
    + intros [(r & H) | (a & b & ->)].
      * exists [], r. exact H.
      * exists (c :: a), b. reflexivity.
    + intros ([|x a] & b & H).
      * left. exists b. exact H.
      * right. injection H as -> ->. eauto.
Qed.

Lemma contains_char c s : contains [c] s = true <-> In c s.
Proof.
  rewrite contains_iff. split.
  - intros (a & b & ->). apply in_or_app. right. now left.
  - intros H. apply in_split in H as (a & b & ->). now exists a, b.
Qed.

Lemma contains_char_false c s : contains [c] s = false <-> ~ In c s.
Proof. rewrite <- contains_char. destruct (contains [c] s); split; congruence. Qed.

Lemma startswith_char c s :
  startswith [c] s = true <-> exists r, s = c :: r.
Proof. apply startswith_iff. Qed.

(** *** partition *)

Lemma skipn_app_exact {A} (p r : list A) : skipn (length p) (p ++ r) = r.
Proof. induction p; cbn; auto. Qed.

Lemma firstn_app_exact {A} (p r : list A) : firstn (length p) (p ++ r) = p.
Proof. induction p; cbn; f_equal; auto. Qed.

(** The first split point is the one [partition] finds. *)
Lemma partition_first sep b a :
  (forall b1 b2, b = b1 ++ b2 -> b2 <> [] ->
                 startswith sep (b2 ++ sep ++ a) = false) ->
  partition sep (b ++ sep ++ a) = (b, sep, a).
Proof.
  induction b as [|c b IH]; intros H.
  - cbn [app]. destruct (sep ++ a) eqn:E; cbn [partition]; rewrite <- E;
      rewrite startswith_app, skipn_app_exact; reflexivity.
  - cbn [app partition].
    pose proof (H [] (c :: b) eq_refl ltac:(discriminate)) as H0.
    cbn [app] in H0. rewrite H0.
    rewrite IH; auto.
    intros b1 b2 -> Hne. now apply (H (c :: b1) b2).
Qed.

Lemma partition_spec sep s b m a :
  partition sep s = (b, m, a) ->
  (m = sep /\ s = b ++ sep ++ a /\
   forall b1 b2, b = b1 ++ b2 -> b2 <> [] ->
                 startswith sep (b2 ++ sep ++ a) = false)
  \/ (m = [] /\ b = s /\ a = [] /\ contains sep s = false).
Proof.
  revert b m a. induction s as [|c t IH]; intros b m a; cbn [partition contains].
  - destruct (startswith sep []) eqn:E; intros H; injection H as <- <- <-.
    + left. apply startswith_iff in E as (r & E).
      symmetry in E. apply app_eq_nil in E as [-> ->]. cbn. repeat split; auto.
      intros [|] [|]; discriminate || congruence.
    + right. auto.
  - destruct (startswith sep (c :: t)) eqn:E.
    + intros H; injection H as <- <- <-. left.
      apply startswith_iff in E as (r & E). rewrite E, skipn_app_exact.
      repeat split; auto.
      intros b1 b2 Hb Hne. destruct b1, b2; discriminate || congruence.
    + destruct (partition sep t) as [[b' m'] a'] eqn:P.
      intros H; injection H as <- <- <-.
      destruct (IH _ _ _ eq_refl) as [(-> & -> & Hf) | (-> & -> & -> & Hc)].
      * left. repeat split; auto.
        intros [|x b1] b2 Hb Hne; cbn in Hb.
        -- subst b2. exact E.
        -- injection Hb as -> ->. now apply (Hf b1).
      * right. repeat split; auto.
Qed.

Lemma partition_char_found c b a :
  ~ In c b -> partition [c] (b ++ c :: a) = (b, [c], a).
Proof.
  intros H. apply (partition_first [c] b a).
  intros b1 [|x b2] -> Hne; [congruence|].
  cbn. rewrite andb_true_r. apply N.eqb_neq. intros ->.
  apply H, in_or_app. right; now left.
Qed.

Lemma partition_none sep s :
  contains sep s = false -> partition sep s = (s, [], []).
Proof.
  induction s as [|c t IH]; cbn [partition contains]; intros H;
    apply orb_false_iff in H as [H1 H2]; rewrite H1; auto.
  now rewrite IH.
Qed.

Lemma partition_char_none c s :
  ~ In c s -> partition [c] s = (s, [], []).
Proof. intros H. apply partition_none. now apply contains_char_false. Qed.

(** *** rpartition *)

Lemma rpartition_opt_none sep s :
  rpartition_opt sep s = None <-> contains sep s = false.
Proof.
  induction s as [|c t IH]; cbn [rpartition_opt contains].
  - destruct (startswith sep []); split; cbn; congruence.
  - destruct (rpartition_opt sep t) as [[b a]|] eqn:E.
    + split; [discriminate|]. rewrite orb_false_iff. intros [_ H].
      apply IH in H. discriminate.
    + destruct IH as [IH _]. rewrite (IH eq_refl), orb_false_r.
      destruct (startswith sep (c :: t)); split; congruence.
Qed.

Lemma rpartition_opt_some sep s b a :
  rpartition_opt sep s = Some (b, a) ->
  s = b ++ sep ++ a /\
  (sep <> [] -> contains sep (tl (sep ++ a)) = false).
Proof.
  revert b a. induction s as [|c t IH]; intros b a; cbn [rpartition_opt].
  - destruct (startswith sep []) eqn:E; [|discriminate].
    intros H; injection H as <- <-.
    apply startswith_iff in E as (r & E). symmetry in E.
    apply app_eq_nil in E as [-> ->]. split; auto. congruence.
  - destruct (rpartition_opt sep t) as [[b' a']|] eqn:E.
    + intros H; injection H as <- <-.
      destruct (IH _ _ eq_refl) as [-> H]. split; auto.
    + destruct (startswith sep (c :: t)) eqn:Es; [|discriminate].
      intros H; injection H as <- <-.
      apply startswith_iff in Es as (r & Er).
      split.
      * cbn [app]. rewrite Er, skipn_app_exact. reflexivity.
      * intros _. rewrite Er, skipn_app_exact, <- Er. cbn.
        now apply rpartition_opt_none.
Qed.

Lemma rpartition_opt_last sep b a :
  contains sep (tl (sep ++ a)) = false -> sep <> [] ->
  rpartition_opt sep (b ++ sep ++ a) = Some (b, a).
Proof.
  intros Hc Hne. induction b as [|c b IH].
  - cbn [app]. destruct sep as [|x sep]; [congruence|].
    cbn [app tl] in *. cbn [rpartition_opt].
    apply rpartition_opt_none in Hc. rewrite Hc.
    change (x :: sep ++ a) with ((x :: sep) ++ a).
    now rewrite startswith_app, skipn_app_exact.
  - cbn [app rpartition_opt]. now rewrite IH.
Qed.

Lemma rpartition_char_found c b a :
  ~ In c a -> rpartition [c] (b ++ c :: a) = (b, [c], a).
Proof.
  intros H. unfold rpartition.
  change (b ++ c :: a) with (b ++ [c] ++ a).
  rewrite rpartition_opt_last; auto; [|discriminate].
  cbn. now apply contains_char_false.
Qed.

Lemma rpartition_char_none c s :
  ~ In c s -> rpartition [c] s = ([], [], s).
Proof.
  intros H. unfold rpartition.
  apply contains_char_false in H. apply rpartition_opt_none in H.
  now rewrite H.
Qed.

Lemma rpartition_opt_char_found c b a :
  ~ In c a -> rpartition_opt [c] (b ++ c :: a) = Some (b, a).
Proof.
  intros H. change (b ++ c :: a) with (b ++ [c] ++ a).
  apply rpartition_opt_last; [|discriminate]. cbn.
  now apply contains_char_false.
Qed.

(** *** split and join *)

Lemma split_nonempty c s : split c s <> [].
Proof.
  destruct s as [|x t]; cbn; [discriminate|].
  destruct (N.eqb x c); [discriminate|].
  destruct (split c t); discriminate.
Qed.

Lemma split_no_sep c s : ~ In c s -> split c s = [s].
Proof.
  induction s as [|x t IH]; intros H; cbn; auto.
  destruct (N.eqb_spec x c) as [->|Hx].
  - exfalso. apply H. now left.
  - rewrite IH; auto. intros Hi; apply H. now right.
Qed.

Lemma split_cons c n s : ~ In c n -> split c (n ++ c :: s) = n :: split c s.
Proof.
  induction n as [|x n IH]; intros H; cbn.
  - now rewrite N.eqb_refl.
  - destruct (N.eqb_spec x c) as [->|Hx].
    + exfalso. apply H. now left.
    + rewrite IH; auto. intros Hi; apply H. now right.
Qed.

Lemma split_join c l :
  l <> [] -> Forall (fun n => ~ In c n) l -> split c (join [c] l) = l.
Proof.
  induction l as [|n l IH]; intros Hne H; [congruence|].
  inversion H as [|? ? Hn Hl]; subst.
  destruct l as [|m l].
  - cbn. now apply split_no_sep.
  - cbn [join]. cbn [app]. rewrite split_cons by auto. f_equal.
    apply IH; auto. discriminate.
Qed.

Lemma join_split c s : join [c] (split c s) = s.
Proof.
  induction s as [|x t IH]; cbn; auto.
  destruct (N.eqb_spec x c) as [->|Hx].
  - pose proof (split_nonempty c t) as Hn.
    destruct (split c t) as [|h r] eqn:E; [congruence|].
    cbn [join app] in *. now rewrite IH.
  - destruct (split c t) as [|h r] eqn:E.
    + now apply split_nonempty in E.
    + destruct r; cbn in *; now rewrite IH.
Qed.

Lemma split_forall_no_sep c s : Forall (fun n => ~ In c n) (split c s).
Proof.
  induction s as [|x t IH]; cbn.
  - constructor; auto.
  - destruct (N.eqb_spec x c) as [->|Hx].
    + constructor; auto.
    + destruct (split c t) as [|h r].
      * constructor; auto. intros [|[]]; auto.
      * inversion IH; subst. constructor; auto. intros [|]; auto.
Qed.

Lemma join_cons sep x l :
  l <> [] -> join sep (x :: l) = x ++ sep ++ join sep l.
Proof. destruct l; [congruence|]. reflexivity. Qed.

Lemma join_app sep l1 l2 :
  l1 <> [] -> l2 <> [] -> join sep (l1 ++ l2) = join sep l1 ++ sep ++ join sep l2.
Proof.
  induction l1 as [|x l1 IH]; intros H1 H2; [congruence|].
  destruct l1 as [|y l1].
  - cbn [app]. rewrite join_cons by auto. reflexivity.
  - cbn [app]. rewrite join_cons by discriminate.
    change (y :: l1 ++ l2) with ((y :: l1) ++ l2).
    rewrite IH by (auto; discriminate).
    rewrite (join_cons sep x (y :: l1)) by discriminate.
    now rewrite !app_assoc.
Qed.

Lemma count_char_app c a b : count_char c (a ++ b) = count_char c a + count_char c b.
Proof. induction a; cbn; lia. Qed.

Lemma count_char_notin c s : ~ In c s -> count_char c s = 0.
Proof.
  induction s as [|x t IH]; intros H; cbn; auto.
  destruct (N.eqb_spec x c); [exfalso; apply H; now left|].
  apply IH. intros Hi. apply H. now right.
Qed.

Lemma count_char_zero c s : count_char c s = 0 <-> ~ In c s.
Proof.
  split; [|apply count_char_notin].
  induction s as [|x t IH]; cbn; intros H; auto.
  destruct (N.eqb_spec x c); [lia|]. intros [|]; auto. now apply IH.
Qed.

(** *** replace *)

Lemma replace_aux_none old new cnt s :
  contains old s = false -> replace_aux old new cnt 0 s = s.
Proof.
  induction s as [|c t IH]; cbn [replace_aux contains]; auto.
  intros H. apply orb_false_iff in H as [H1 H2]. rewrite H1. cbn.
  now rewrite IH.
Qed.

Lemma replace_none old new s :
  old <> [] -> contains old s = false -> replace old new s = s.
Proof.
  intros Hne H. unfold replace. destruct old; [congruence|].
  now apply replace_aux_none.
Qed.

Lemma replace_aux_skip old new cnt a b :
  replace_aux old new cnt (length a) (a ++ b) = replace_aux old new cnt 0 b.
Proof. induction a; cbn; auto. Qed.

Lemma replace_aux_zero old new s : replace_aux old new (Some 0) 0 s = s.
Proof.
  induction s as [|c t IH]; cbn [replace_aux]; auto.
  rewrite andb_false_r. now rewrite IH.
Qed.

Lemma replace_aux_hit old new cnt a :
  old <> [] -> cnt <> Some 0 ->
  replace_aux old new cnt 0 (old ++ a) =
  new ++ replace_aux old new (option_map pred cnt) 0 a.
Proof.
  intros Hne Hc. destruct old as [|x old]; [congruence|].
  cbn [app replace_aux].
  change (x :: old ++ a) with ((x :: old) ++ a).
  rewrite startswith_app.
  destruct cnt as [[|n]|]; [congruence| |]; cbn [andb pred length option_map];
    f_equal; apply replace_aux_skip.
Qed.

(** Skipping a stretch in which the pattern never starts. *)
Lemma replace_aux_step old new cnt a b :
  (forall a1 a2, a = a1 ++ a2 -> a2 <> [] -> startswith old (a2 ++ b) = false) ->
  replace_aux old new cnt 0 (a ++ b) = a ++ replace_aux old new cnt 0 b.
Proof.
  induction a as [|c a IH]; intros H; cbn [app]; auto.
  cbn [replace_aux].
  pose proof (H [] (c :: a) eq_refl ltac:(discriminate)) as H0.
  cbn [app] in H0. rewrite H0. cbn. f_equal. apply IH.
  intros a1 a2 -> Hn. now apply (H (c :: a1) a2).
Qed.

Lemma removelast_snoc {A} (l : list A) x : removelast (l ++ [x]) = l.
Proof. apply removelast_last. Qed.

Lemma last_char_snoc s c : last_char (s ++ [c]) = Some c.
Proof. unfold last_char. now rewrite rev_app_distr. Qed.

Lemma last_char_app s t : t <> [] -> last_char (s ++ t) = last_char t.
Proof.
  intros H. destruct (exists_last H) as (t' & c & ->).
  rewrite app_assoc, !last_char_snoc. reflexivity.
Qed.

Lemma last_char_In s c : last_char s = Some c -> In c s.
Proof.
  unfold last_char. destruct (rev s) as [|x r] eqn:E; intros H; [discriminate|].
  injection H as ->. apply in_rev. rewrite E. now left.
Qed.
