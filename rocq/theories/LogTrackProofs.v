(** Proofs about keeping track of log files. *)

From Coq Require Import String List NArith ZArith Bool Lia.
From Verif Require Import PyStr PyStrFacts Dict PyVal LogTrack LogTrackSpec.
Import ListNotations.

Section Track.
Variables (space : N -> bool) (can_remove : pystr -> bool).
Let sane := sane space.
Let check := check can_remove.

Lemma rstrip_sane p : sane p -> rstrip space p = p.
Proof.
  intros (_ & H). induction p as [|c t IH]; [reflexivity|]. cbn. destruct t as [|x t].
  - cbn. now rewrite (H [] c eq_refl).
  - rewrite IH; [reflexivity|]. intros q y E. apply (H (c :: q) y). cbn. now rewrite E.
Qed.

Lemma split_listing ls : Forall (fun l => ~ In NEWLINE l) ls -> split NEWLINE (listing ls) = ls ++ [[]].
Proof.
  induction 1 as [|l ls Hl _ IH]; [reflexivity|]. change (listing (l :: ls)) with ((l ++ [NEWLINE]) ++ listing ls).
  rewrite <- app_assoc. change ([NEWLINE] ++ listing ls) with (NEWLINE :: listing ls). rewrite split_cons, IH by exact Hl. reflexivity.
Qed.
Lemma lines_closed ls : lines_of (ls ++ [[]]) = ls.
Proof.
  induction ls as [|l ls IH]; [reflexivity|]. cbn [app lines_of]. destruct (ls ++ [[]]) as [|x t] eqn:E; [now destruct ls|]. now rewrite IH.
Qed.
Lemma read_listing ls : Forall sane ls -> read_logs space (Some (listing ls)) = ls.
Proof.
  intros H. unfold read_logs. rewrite split_listing by (eapply Forall_impl; [|exact H]; intros l (A & _); exact A). rewrite lines_closed.
  induction H as [|l ls Hl _ IH]; [reflexivity|]. cbn. now rewrite rstrip_sane, IH.
Qed.
Lemma split_open ls q : Forall (fun l => ~ In NEWLINE l) ls -> ~ In NEWLINE q -> split NEWLINE (listing ls ++ q) = ls ++ [q].
Proof.
  intros H Hq. induction H as [|l ls Hl _ IH]; [cbn [listing flat_map app]; now apply split_no_sep|]. change (listing (l :: ls)) with ((l ++ [NEWLINE]) ++ listing ls).
  rewrite <- !app_assoc. change ([NEWLINE] ++ listing ls ++ q) with (NEWLINE :: listing ls ++ q). rewrite split_cons, IH by exact Hl. reflexivity.
Qed.
Lemma lines_open ls q : q <> [] -> lines_of (ls ++ [q]) = ls ++ [q].
Proof.
  intros N. induction ls as [|l ls IH]; [cbn; now destruct q|]. cbn [app lines_of]. destruct (ls ++ [q]) as [|x t] eqn:E; [now destruct ls|]. now rewrite IH.
Qed.
Lemma rstrip_all ls : Forall sane ls -> map (rstrip space) ls = ls.
Proof. induction 1 as [|l t Hl _ IH]; [reflexivity|]. cbn [map]. now rewrite rstrip_sane, IH. Qed.
Lemma read_open ls q : Forall sane ls -> sane q -> q <> [] -> read_logs space (Some (listing ls ++ q)) = ls ++ [q].
Proof.
  intros H Hq N. unfold read_logs. rewrite split_open, lines_open; [|exact N|eapply Forall_impl; [|exact H]; intros l (A & _); exact A|apply Hq].
  apply rstrip_all. apply Forall_app. split; auto.
Qed.
Lemma listing_concat ls : concat (map (fun l => l ++ [NEWLINE]) ls) = listing ls.
Proof. symmetry. apply flat_map_concat_map. Qed.

Lemma stale_old (d : disk) p : is_file (d p) && too_old (d p) = true <-> stale d p.
Proof.
  unfold stale, too_old. destruct (d p) as [a| | |]; cbn; split; try discriminate.
  - intros H. apply Z.ltb_lt in H. eauto.
  - intros (b & [= <-] & H). now apply Z.ltb_lt.
  - intros (b & F & _). discriminate.
  - intros (b & F & _). discriminate.
  - intros (b & F & _). discriminate.
Qed.

Lemma erase_same p d : erase p d p = Missing.
Proof. unfold erase. now rewrite str_eqb_refl. Qed.
Lemma erase_other p d q : q <> p -> erase p d q = d q.
Proof. intros H. unfold erase. destruct (str_eqb q p) eqn:E; [apply str_eqb_eq in E; contradiction|reflexivity]. Qed.

(** One turn changes at most the path it looks at. *)
Lemma check_disk d ex x q : fst (check (d, ex) x) q = d q \/ q = x /\ stale d q /\ fst (check (d, ex) x) q = Missing.
Proof.
  unfold check, LogTrack.check. destruct (is_file (d x) && too_old (d x)) eqn:E; [|destruct (negb (is_file (d x)) || too_old (d x)); now left].
  destruct (can_remove x); cbn; [|now left]. destruct (str_eqb q x) eqn:Eq.
  - apply str_eqb_eq in Eq as ->. right. rewrite erase_same. repeat split. now apply stale_old.
  - left. unfold erase. now rewrite Eq.
Qed.
Lemma fold_disk todo : forall d ex q,
  let d' := fst (fold_left check todo (d, ex)) in
  d' q = d q \/ In q todo /\ stale d q /\ d' q = Missing.
Proof.
  induction todo as [|x t IH]; intros d ex q; [now left|]. cbn [fold_left]. destruct (check (d, ex) x) as (d1, ex1) eqn:E.
  pose proof (check_disk d ex x q) as C. rewrite E in C. cbn [fst] in C. specialize (IH d1 ex1 q). cbn zeta in IH |- *.
  destruct C as [C|(-> & S & M)].
  - destruct IH as [IH|(I & S & M)]; [left; congruence|right]. split; [now right|]. split; [|exact M]. unfold stale in *. now rewrite <- C.
  - right. split; [now left|]. split; [exact S|]. destruct IH as [IH|(_ & (a & F & _) & _)]; congruence.
Qed.
Lemma fold_gone todo : forall d ex q, In q todo -> stale d q -> can_remove q = true ->
  fst (fold_left check todo (d, ex)) q = Missing.
Proof.
  induction todo as [|x t IH]; intros d ex q Hin Hs Hr; [destruct Hin|]. cbn [fold_left].
  destruct (check (d, ex) x) as (d1, ex1) eqn:E. pose proof (check_disk d ex x q) as C. rewrite E in C. cbn [fst] in C.
  destruct C as [C|(-> & _ & M)].
  - assert (x <> q).
    { intros Exq. subst x. unfold check, LogTrack.check in E. rewrite (proj2 (stale_old d q) Hs), Hr in E. injection E as <- _. rewrite erase_same in C.
      destruct Hs as (a & F & _). congruence. }
    destruct Hin as [Hin|Hin]; [contradiction|]. apply IH; [exact Hin| |exact Hr]. unfold stale in *. now rewrite C.
  - destruct (fold_disk t d1 ex1 x) as [F|(_ & _ & F)]; congruence.
Qed.

Lemma remove_first_other x l p : p <> x -> In p l -> In p (remove_first x l).
Proof.
  intros Hn. induction l as [|y t IH]; [auto|]. cbn. destruct (str_eqb y x) eqn:E.
  - apply str_eqb_eq in E as ->. intros [F|F]; [congruence|exact F].
  - intros [F|F]; [now left|right; auto].
Qed.
Lemma remove_first_incl x l p : In p (remove_first x l) -> In p l.
Proof. induction l as [|y t IH]; [auto|]. cbn. destruct (str_eqb y x); [now right|]. intros [F|F]; auto. Qed.

Lemma stays_file (d : disk) p : stays can_remove d p -> is_file (d p) = true /\ (stale d p -> can_remove p = false).
Proof.
  intros [(a & E & H)|E]; rewrite E; (split; [reflexivity|]); intros (b & F & G); rewrite E in F; [injection F as <-|discriminate].
  destruct H as [H|H]; [lia|exact H].
Qed.
Lemma check_stays d ex x p : stays can_remove d p -> In p ex ->
  fst (check (d, ex) x) p = d p /\ In p (snd (check (d, ex) x)).
Proof.
  intros Hs Hin. destruct (stays_file d p Hs) as (F & R). split.
  - destruct (check_disk d ex x p) as [C|(-> & S & M)]; [exact C|]. unfold check, LogTrack.check. rewrite (proj2 (stale_old d x) S), (R S). reflexivity.
  - unfold check, LogTrack.check. destruct (is_file (d x) && too_old (d x)) eqn:E; [exact Hin|].
    destruct (negb (is_file (d x)) || too_old (d x)) eqn:E2; [|exact Hin]. cbn. apply remove_first_other; [|exact Hin].
    intros ->. rewrite F in E, E2. cbn in E, E2. congruence.
Qed.
Lemma fold_stays todo : forall d ex p, stays can_remove d p -> In p ex -> In p (snd (fold_left check todo (d, ex))).
Proof.
  induction todo as [|x t IH]; intros d ex p Hs Hin; [exact Hin|]. cbn [fold_left].
  destruct (check_stays d ex x p Hs Hin) as (A & B). destruct (check (d, ex) x) as (d1, ex1). cbn [fst snd] in A, B. apply IH; [|exact B].
  unfold stays in *. now rewrite A.
Qed.
Lemma fold_incl todo : forall d ex p, In p (snd (fold_left check todo (d, ex))) -> In p ex.
Proof.
  induction todo as [|x t IH]; intros d ex p H; [exact H|]. cbn [fold_left] in H. destruct (check (d, ex) x) as (d1, ex1) eqn:E.
  apply IH in H. unfold check, LogTrack.check in E. destruct (_ && _); [congruence|]. destruct (_ || _); [|congruence].
  injection E as <- <-. now apply remove_first_incl in H.
Qed.

Lemma remove_first_here x l t : ~ In x l -> remove_first x (l ++ x :: t) = l ++ t.
Proof.
  induction l as [|y l IH]; intros H; cbn; [now rewrite str_eqb_refl|].
  destruct (str_eqb y x) eqn:E; [apply str_eqb_eq in E as ->; destruct H; now left|]. rewrite IH; [reflexivity|]. intros F. apply H. now right.
Qed.
Lemma fold_list todo : forall d0 d done, NoDup todo -> (forall x, In x todo -> ~ In x done) -> (forall x, In x todo -> d x = d0 x) ->
  snd (fold_left check todo (d, done ++ todo)) = done ++ filter (fun x => is_file (d0 x)) todo.
Proof.
  induction todo as [|x t IH]; intros d0 d done Hn Hd Hs; [cbn; now rewrite app_nil_r|]. inversion Hn as [|? ? Hx Ht]; subst.
  cbn [fold_left filter]. rewrite <- (Hs x) by now left.
  destruct (check (d, done ++ x :: t) x) as (d1, ex1) eqn:E.
  assert (C : forall y, d1 y = d y \/ y = x /\ stale d y /\ d1 y = Missing).
  { intros y. replace d1 with (fst (check (d, done ++ x :: t) x)) by (now rewrite E). apply check_disk. }
  assert (Hs1 : forall y, In y t -> d1 y = d0 y).
  { intros y Hy. destruct (C y) as [Cy|(-> & _)]; [rewrite Cy; apply Hs; now right|contradiction]. }
  assert (Hkeep : ex1 = done ++ (if is_file (d x) then [x] else []) ++ t).
  { unfold check, LogTrack.check in E. destruct (is_file (d x)); cbn [andb negb orb app] in *.
    - destruct (too_old (d x)); [|]; congruence.
    - injection E as _ <-. apply remove_first_here. apply Hd. now left. }
  rewrite Hkeep. destruct (is_file (d x)); cbn [app].
  - change (done ++ x :: t) with (done ++ [x] ++ t). rewrite app_assoc. etransitivity; [apply (IH d0 d1 (done ++ [x])); [exact Ht| |exact Hs1]|now rewrite <- app_assoc].
    intros y Hy F. apply in_app_or in F as [F|[<-|[]]]; [|contradiction]. apply (Hd y); [now right|exact F].
  - apply IH; [exact Ht| |exact Hs1]. intros y Hy. apply Hd. now right.
Qed.
End Track.
