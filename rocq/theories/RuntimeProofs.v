(** Proofs about running nodes. *)

From Coq Require Import String List NArith ZArith Bool Arith Lia.
From Verif Require Import PyStr PyStrFacts Dict DictFacts NxtPath PyVal NodeIO MergeProofs Runtime PathProofs RuntimeSpec.
Import ListNotations.

(** ** clean_globals *)

Lemma contains_iff sub : forall s, contains sub s = true <-> exists a b, s = a ++ sub ++ b.
Proof.
  induction s as [|c s IH]; cbn [contains]; rewrite orb_true_iff, startswith_iff.
  - split; [intros [(r & ->)|F]; [exists [], r; reflexivity|discriminate]|].
    intros (a & b & E). left. exists b. destruct a; [exact E|discriminate].
  - rewrite IH. split.
    + intros [(r & ->)|(a & b & ->)]; [exists [], r; reflexivity|exists (c :: a), b; reflexivity].
    + intros ([|x a] & b & E); [left; exists b; exact E|right]. cbn in E. injection E as -> ->. now exists a, b.
Qed.

Definition declaredb (lines : list pystr) (k : pystr) : bool :=
  existsb (fun line => negb (comment_line line) && contains (lit "global " ++ k) line) lines.

Lemma comment_cons c r : comment_line (c :: r) = (N.eqb 35 c || N.eqb 39 c || N.eqb 34 c).
Proof.
  unfold comment_line. change (startswith (lit "#") (c :: r)) with (N.eqb 35 c && true).
  change (startswith (lit "'") (c :: r)) with (N.eqb 39 c && true).
  change (startswith [34%N] (c :: r)) with (N.eqb 34 c && true). now rewrite !andb_true_r.
Qed.

Lemma declared_iff lines k : declaredb lines k = true <-> declared lines k.
Proof.
  unfold declaredb, declared. rewrite existsb_exists. split.
  - intros (line & Hin & H). exists line. split; [exact Hin|]. apply andb_true_iff in H as (Hc & H). split.
    + intros c rest ->. rewrite comment_cons in Hc.
      apply negb_true_iff, orb_false_iff in Hc as (Hc & H3). apply orb_false_iff in Hc as (H1 & H2).
      apply N.eqb_neq in H1, H2, H3. repeat split; congruence.
    + apply contains_iff in H as (a & b & ->). exists a, b. now rewrite <- app_assoc.
  - intros (line & Hin & Hc & a & b & ->). exists (a ++ lit "global " ++ k ++ b). split; [exact Hin|]. apply andb_true_iff. split.
    + destruct (a ++ lit "global " ++ k ++ b) as [|c rest] eqn:E; [reflexivity|].
      destruct (Hc c rest eq_refl) as (H1 & H2 & H3). rewrite comment_cons.
      apply negb_true_iff, orb_false_iff; split; [apply orb_false_iff; split|]; apply N.eqb_neq; congruence.
    + apply contains_iff. exists a, b. now rewrite <- app_assoc.
Qed.

Section Clean.
Context {V : Type}.
Lemma nodup_filter_keys (P : pystr * V -> bool) : forall g : dict V, NoDup (dkeys g) -> NoDup (dkeys (filter P g)).
Proof.
  induction g as [|x g IH]; intros H; [exact H|]. cbn in *. inversion H as [|? ? Hx Hg]; subst.
  destruct (P x); cbn; [|auto]. constructor; [|auto]. intros F. apply Hx.
  unfold dkeys in F. apply in_map_iff in F as (y & E & Hy). apply filter_In in Hy as (Hy & _). rewrite <- E. now apply in_map.
Qed.

Lemma fold_ddel_filter : forall ks (g : dict V), NoDup (dkeys g) ->
  fold_left (fun g k => ddel k g) ks g = filter (fun kv => negb (str_in (fst kv) ks)) g.
Proof.
  assert (Hd : forall k (g : dict V), NoDup (dkeys g) -> ddel k g = filter (fun kv => negb (str_eqb (fst kv) k)) g).
  { intros k. induction g as [|(k', v) g IH]; intros Hnd; [reflexivity|]. cbn in *. inversion Hnd as [|? ? Hk Hg]; subst.
    destruct (str_eqb k' k) eqn:E; cbn; [|now rewrite IH]. apply str_eqb_eq in E. subst.
    clear - Hk. induction g as [|(k', v') g IH]; [reflexivity|]. cbn in *. replace (str_eqb k' k) with false; cbn.
    - f_equal. apply IH. intros F. apply Hk. now right.
    - symmetry. apply str_eqb_neq. intros ->. apply Hk. now left. }
  induction ks as [|k ks IH]; intros g Hnd; cbn [fold_left].
  - induction g as [|x g IHg]; [reflexivity|]. cbn. f_equal. apply IHg. now inversion Hnd.
  - rewrite IH, Hd; [|exact Hnd|rewrite Hd by exact Hnd; now apply nodup_filter_keys].
    clear. induction g as [|x g IHg]; [reflexivity|]. cbn [filter str_in existsb].
    destruct (str_eqb (fst x) k) eqn:E; cbn [negb orb filter]; [exact IHg|]. destruct (str_in (fst x) ks) eqn:E2; unfold str_in in *; rewrite E2; cbn; [exact IHg|now rewrite IHg].
Qed.

Lemma clean_globals_spec lines good (g : dict V) : NoDup (dkeys g) ->
  clean_globals lines good g = filter (fun kv => str_in (fst kv) good || declaredb lines (fst kv)) g.
Proof.
  intros Hnd. unfold clean_globals. rewrite fold_ddel_filter by exact Hnd.
  set (decl := fun k => existsb (fun line => contains (lit "global " ++ k) line) (filter (fun l => negb (comment_line l)) lines)).
  assert (Hdecl : forall k, decl k = declaredb lines k).
  { intros k. unfold decl, declaredb. induction lines as [|l ls IH]; [reflexivity|]. cbn [filter existsb].
    destruct (negb (comment_line l)); cbn [existsb andb]; now rewrite IH. }
  apply filter_ext_in. intros (k, v) Hin. cbn [fst]. rewrite <- Hdecl.
  assert (Hk : str_in k (dkeys g) = true). { apply str_in_In. apply (in_map fst) in Hin. exact Hin. }
  assert (Hf : forall (P : pystr -> bool) l, str_in k (filter P l) = str_in k l && P k).
  { intros P. induction l as [|x l IH]; [reflexivity|]. cbn [filter]. unfold str_in in *. destruct (P x) eqn:E; cbn [existsb].
    - rewrite IH. destruct (str_eqb k x) eqn:Ex; [|reflexivity]. apply str_eqb_eq in Ex. subst. cbn. now rewrite E.
    - rewrite IH. destruct (str_eqb k x) eqn:Ex; [|reflexivity]. apply str_eqb_eq in Ex. subst. cbn. rewrite E. now rewrite andb_false_r. }
  rewrite Hf, Hk. cbn [andb]. rewrite negb_involutive. unfold str_in at 1. rewrite existsb_app.
  fold (str_in k good). fold (str_in k (filter decl (filter (fun k0 => negb (str_in k0 good)) (dkeys g)))).
  rewrite !Hf, Hk. destruct (str_in k good), (decl k); reflexivity.
Qed.
End Clean.

(** ** What running does to the log, the globals and the own attributes *)

Lemma session_app a ra b rb : session a ra -> session b rb -> session (a ++ b) (ra ++ rb).
Proof.
  intros Ha Hb. induction Ha as [|p x rest ran _ IH|p inner ir rest ran Hi _ _ IH]; cbn; [exact Hb|now constructor|].
  rewrite <- app_assoc. cbn. now apply SRun with (inner_ran := ir).
Qed.

Lemma nth_update {A} (f : A -> A) d : forall l i j, nth j (update l i f) d = if Nat.eqb j i && (j <? length l) then f (nth j l d) else nth j l d.
Proof.
  induction l as [|x l IH]; intros [|i] [|j]; cbn [update nth length Nat.eqb andb]; try reflexivity.
  - destruct (Nat.eqb j i); cbn; reflexivity.
  - rewrite IH. reflexivity.
Qed.
Lemma update_length {A} (f : A -> A) : forall l i, length (update l i f) = length l.
Proof. induction l; intros [|i]; cbn; congruence. Qed.

Section Layer.
Variables (node_of : pystr -> option (nat * list nat)) (enabled : pystr -> bool)
          (exec_order : pystr -> list pystr)
          (lines_of : list (dict pyval) -> pystr -> res (list pystr)) (meaning : list pystr -> option prog)
          (real : list (dict pyval) -> dict gval -> pystr -> pystr -> pyval -> res pyval)
          (deepcopy : pyval -> res (option pyval)) (str_of : pyval -> pystr) (builtins : list pystr).
Notation run := (run node_of exec_order lines_of meaning real deepcopy builtins).
Notation visit := (visit node_of enabled exec_order lines_of meaning real deepcopy builtins).
Notation visit_all := (visit_all node_of enabled exec_order lines_of meaning real deepcopy builtins).
Notation execute_nodes := (execute_nodes node_of enabled exec_order lines_of meaning real deepcopy str_of builtins).
Notation interp := (interp node_of exec_order).
Notation runcode := (runcode node_of exec_order).

(** From [st] to [st'] the events [evs] were logged; own attributes changed only
    on the classes [X] and on those of nodes named in the events. *)
Definition touches (evs : list event) (k : nat) : Prop :=
  exists p m, node_of p = Some (k, m) /\ (In (Enter p) evs \/ exists a, In (Assign p a) evs).

Record moved (X : list nat) (st st' : rt) (evs : list event) (ran : list pystr) : Prop := {
  m_nodup : NoDup (dkeys (gl st)) -> NoDup (dkeys (gl st'));
  m_log : log st' = log st ++ evs;
  m_session : session evs ran;
  m_own : forall k, ~ In k X -> ~ touches evs k -> nth k (own st') [] = nth k (own st) []
}.

Lemma touches_app a b k : touches (a ++ b) k <-> touches a k \/ touches b k.
Proof.
  split.
  - intros (p & m & E & [H|(x & H)]); apply in_app_or in H as [H|H]; [left|right|left|right]; exists p, m; eauto.
  - intros [(p & m & E & [H|(x & H)])|(p & m & E & [H|(x & H)])]; exists p, m; (split; [exact E|]);
      [left|right; exists x|left|right; exists x]; apply in_or_app; auto.
Qed.

Lemma moved_trans X a b c e1 r1 e2 r2 : moved X a b e1 r1 -> moved X b c e2 r2 -> moved X a c (e1 ++ e2) (r1 ++ r2).
Proof.
  intros H1 H2. split.
  - intros H. now apply H2, H1.
  - now rewrite (m_log _ _ _ _ _ H2), (m_log _ _ _ _ _ H1), app_assoc.
  - apply session_app; [apply H1|apply H2].
  - intros k Hx Hk. rewrite touches_app in Hk. rewrite (m_own _ _ _ _ _ H2 k), (m_own _ _ _ _ _ H1 k); auto.
Qed.

Lemma moved_refl X st : moved X st st [] [].
Proof. split; auto using SNil. now rewrite app_nil_r. Qed.
Lemma moved_weak X Y a b e r : incl X Y -> moved X a b e r -> moved Y a b e r.
Proof. intros H M. split; try apply M. intros k Hk. apply M. intros F. now apply Hk, H. Qed.

(** Steps that log nothing. *)
Definition quiet X st st' := moved X st st' [] [].
Lemma quiet_then X a b c e r : quiet X a b -> moved X b c e r -> moved X a c e r.
Proof. intros H1 H2. apply (moved_trans _ _ _ _ _ _ _ _ H1 H2). Qed.
Lemma then_quiet X a b c e r : moved X a b e r -> quiet X b c -> moved X a c e r.
Proof. intros H1 H2. pose proof (moved_trans _ _ _ _ _ _ _ _ H1 H2) as H. now rewrite !app_nil_r in H. Qed.

Lemma quiet_gl X st g : (NoDup (dkeys (gl st)) -> NoDup (dkeys g)) -> quiet X st (with_gl st g).
Proof. intros H. split; cbn; auto using SNil. now rewrite app_nil_r. Qed.
Lemma quiet_frames X st f : quiet X st (with_frames st f).
Proof. split; cbn; auto using SNil. now rewrite app_nil_r. Qed.
Lemma quiet_cached X st f : quiet X st (with_cached st f).
Proof. split; cbn; auto using SNil. now rewrite app_nil_r. Qed.
Lemma quiet_times X st f : quiet X st (with_times st f).
Proof. split; cbn; auto using SNil. now rewrite app_nil_r. Qed.
Lemma quiet_running X st f : quiet X st (with_running st f).
Proof. split; cbn; auto using SNil. now rewrite app_nil_r. Qed.
Lemma quiet_own X st o : (forall k, ~ In k X -> nth k o [] = nth k (own st) []) -> quiet X st (with_own st o).
Proof. intros H. split; cbn; auto using SNil. now rewrite app_nil_r. Qed.

Definition call_ok (call : list pystr -> list (pyval * pyval) -> rt -> rt * ended) : Prop :=
  forall ps params st st' e, call ps params st = (st', e) -> e <> OutOfFuel ->
  exists evs ran, moved [] st st' evs ran.

Lemma interp_moved call : call_ok call -> forall p st st' e, interp call p st = (st', e) -> e <> OutOfFuel ->
  exists evs ran, moved [] st st' evs ran.
Proof.
  intros Hc. induction p as [r|k v p IH|k p IH|k q IH|a v p IH|a p IH|a q IH|t params q IH]; intros st st' e H He; cbn [Runtime.interp] in H.
  - destruct r; injection H as <- <-; exists [], []; apply moved_refl.
  - destruct (IH _ _ _ H He) as (evs & ran & M). exists evs, ran. eapply quiet_then; [|exact M].
    apply quiet_gl. intros Hn. now apply NoDup_dset.
  - destruct (dmem k (gl st)); [|injection H as <- <-; exists [], []; apply moved_refl].
    destruct (IH _ _ _ H He) as (evs & ran & M). exists evs, ran. eapply quiet_then; [|exact M].
    apply quiet_gl. intros Hn. now apply NoDup_ddel.
  - eapply IH; eauto.
  - destruct (self_frame st); [|injection H as <- <-; exists [], []; apply moved_refl].
    destruct (IH _ _ _ H He) as (evs & ran & M). exists evs, ran. eapply quiet_then; [apply quiet_frames|exact M].
  - destruct (self_frame st); [|injection H as <- <-; exists [], []; apply moved_refl].
    destruct (dmem a _); [|injection H as <- <-; exists [], []; apply moved_refl].
    destruct (IH _ _ _ H He) as (evs & ran & M). exists evs, ran. eapply quiet_then; [apply quiet_frames|exact M].
  - destruct (self_frame st); [|injection H as <- <-; exists [], []; apply moved_refl]. eapply IH; eauto.
  - assert (Hgo : forall ps,
      match call ps params st with
      | (st0, OutOfFuel) => (st0, OutOfFuel)
      | (st0, Normal) => interp call (q None) st0
      | (st0, Exc r) => interp call (q (Some r)) st0
      end = (st', e) -> exists evs ran, moved [] st st' evs ran).
    { intros ps Hps. destruct (call ps params st) as (st1, e1) eqn:E. destruct e1 as [|r|].
      - destruct (Hc _ _ _ _ _ E) as (e1 & r1 & M1); [discriminate|].
        destruct (IH _ _ _ _ Hps He) as (e2 & r2 & M2). exists (e1 ++ e2), (r1 ++ r2). eapply moved_trans; eauto.
      - destruct (Hc _ _ _ _ _ E) as (e1 & r1 & M1); [discriminate|].
        destruct (IH _ _ _ _ Hps He) as (e2 & r2 & M2). exists (e1 ++ e2), (r1 ++ r2). eapply moved_trans; eauto.
      - injection Hps as <- <-. congruence. }
    destruct t as [[|p ps]|p].
    + eapply IH; eauto.
    + now apply (Hgo (p :: ps)).
    + destruct (node_of p); [now apply (Hgo (exec_order p))|eapply IH; eauto].
Qed.

Lemma runcode_moved call : call_ok call -> forall p st st' e, runcode call p st = (st', e) -> e <> OutOfFuel ->
  exists evs ran, moved [] st st' evs ran.
Proof.
  intros Hc p st st' e H He. unfold Runtime.runcode in H. destruct (interp call p st) as (st1, e1) eqn:E.
  assert (st1 = st') as -> by (destruct e1 as [|[]|]; cbv iota in H; congruence).
  eapply interp_moved; [exact Hc|exact E|]. intros ->. cbv iota in H. congruence.
Qed.

Lemma push_back_own : forall pre f o c o' x, push_back pre f o c = (o', x) ->
  forall k, k <> c -> nth k o' [] = nth k o [].
Proof.
  induction pre as [|(a, v) pre IH]; intros f o c o' x H k Hk; cbn in H; [congruence|].
  destruct (dget a f) as [w|]; [|congruence]. rewrite (IH _ _ _ _ _ H k Hk).
  destruct (py_eqb v w); [reflexivity|]. rewrite nth_update. destruct (Nat.eqb_spec k c); [contradiction|reflexivity].
Qed.

Lemma clean_nodup lines good (g : dict gval) : NoDup (dkeys g) -> NoDup (dkeys (clean_globals lines good g)).
Proof. intros H. rewrite clean_globals_spec by exact H. now apply nodup_filter_keys. Qed.

Lemma run_moved call : call_ok call -> forall p c mro st st' e, run call p c mro st = (st', e) -> e <> OutOfFuel ->
  exists evs ran, moved [c] st st' evs ran.
Proof.
  intros Hc p c mro st st' e H He. unfold Runtime.run in H.
  destruct (lines_of (own st) p) as [lines|x]; [|injection H as <- <-; exists [], []; apply moved_refl].
  destruct (load_attrs real deepcopy (own st) (gl st) p mro (names_of builtins (own st) mro) []) as [f|x]; [|injection H as <- <-; exists [], []; apply moved_refl].
  set (st1 := with_cached _ _) in H.
  assert (M1 : quiet [c] st st1). { eapply quiet_then; [apply quiet_frames|apply quiet_cached]. }
  destruct (meaning lines) as [code|]; [|injection H as <- <-; exists [], []; exact M1].
  set (st2 := with_running (with_gl st1 _) true) in H.
  assert (M2 : quiet [c] st1 st2). { unfold st2. eapply quiet_then; [|apply quiet_running]. apply quiet_gl. intros Hn. now apply NoDup_dset. }
  destruct (runcode call code st2) as (st3, e3) eqn:E3.
  assert (He3 : e3 <> OutOfFuel). { intros ->. injection H as <- <-. congruence. }
  destruct (runcode_moved _ Hc _ _ _ _ E3 He3) as (evs & ran & M3). exists evs, ran.
  apply (moved_weak [] [c]) in M3; [|apply incl_nil_l].
  assert (M : moved [c] st st3 evs ran). { eapply quiet_then; [exact M1|]. eapply quiet_then; [exact M2|exact M3]. }
  set (st4 := with_running (with_gl st3 _) false) in H.
  assert (M4 : quiet [c] st3 st4). { unfold st4. eapply quiet_then; [|apply quiet_running]. apply quiet_gl. apply clean_nodup. }
  destruct (push_back f (nth (length (frames st)) (frames st4) []) (own st4) c) as (o, x) eqn:Ep.
  assert (M5 : quiet [c] st4 (with_own st4 o)).
  { apply quiet_own. intros k Hk. eapply push_back_own; [exact Ep|]. intros ->. apply Hk. now left. }
  assert (M6 : moved [c] st (with_own st4 o) evs ran).
  { eapply then_quiet; [|exact M5]. eapply then_quiet; [exact M|exact M4]. }
  assert (Hx : forall e0, match x with Some x => (with_own st4 o, Exc (Failure x)) | None => (with_own st4 o, e0) end = (st', e) ->
            moved [c] st st' evs ran).
  { intros e0 H0. destruct x; injection H0 as <- <-; exact M6. }
  destruct e3 as [|[]|]; try exact (Hx _ H).
  - injection H as <- <-. exact M.
  - injection H as <- <-. eapply then_quiet; [exact M|exact M4].
  - congruence.
Qed.

Lemma exit_time_quiet X st p : quiet X st (fst (exit_time st p)).
Proof.
  unfold exit_time. destruct (dget p (times st)) as [l|]; [|apply moved_refl]. destruct (close_first l) as [l'|]; [|apply moved_refl].
  destruct (last l' true); apply quiet_times.
Qed.

(** One node of the list: not there, disabled, or run. *)
Lemma visit_cases call : call_ok call -> forall p st st' e, visit call p st = (st', e) -> e <> OutOfFuel ->
  (node_of p = None /\ st' = st /\ e = Exc (InvalidNode p)) \/
  (exists n, node_of p = Some n /\ enabled p = false /\ st' = st /\ e = Normal) \/
  (exists n, node_of p = Some n /\ enabled p = true /\ e <> Exc ExitNode /\ exists evs, moved [] st st' evs [p]).
Proof.
  intros Hc p st st' e H He. unfold Runtime.visit in H. destruct (node_of p) as [(c, mro)|] eqn:En.
  2:{ left. injection H as <- <-. auto. }
  destruct (enabled p) eqn:Een. 2:{ right. left. injection H as <- <-. eauto. }
  right. right. exists (c, mro). split; [reflexivity|]. split; [reflexivity|].
  set (st1 := with_log _ _) in H. destruct (run call p c mro st1) as (st2, e2) eqn:Er.
  assert (He2 : e2 <> OutOfFuel). { intros ->. injection H as <- <-. congruence. }
  destruct (run_moved _ Hc _ _ _ _ _ _ Er He2) as (evs & ran & M).
  pose proof (exit_time_quiet [c] st2 p) as Mx. destruct (exit_time st2 p) as (st3, x) eqn:Ex. cbn [fst] in Mx.
  set (st4 := with_log st3 _) in H.
  assert (Mend : moved [] st st4 (Enter p :: evs ++ [Leave p]) [p]).
  { pose proof (then_quiet _ _ _ _ _ _ M Mx) as M3. split.
    - intros Hn. unfold st4. cbn [with_log gl]. apply (m_nodup _ _ _ _ _ M3). exact Hn.
    - unfold st4. cbn [with_log log]. rewrite (m_log _ _ _ _ _ M3). unfold st1. cbn [with_log log]. now rewrite <- !app_assoc.
    - eapply SRun; [apply M|constructor].
    - intros k _ Hk. unfold st4. cbn [with_log own]. rewrite (m_own _ _ _ _ _ M3); [reflexivity| |].
      + intros [<-|[]]. apply Hk. exists p, mro. split; [exact En|]. left. now left.
      + intros F. apply Hk. change (Enter p :: evs ++ [Leave p]) with ([Enter p] ++ evs ++ [Leave p]).
        apply touches_app. right. apply touches_app. now left. }
  assert (st' = st4) as -> by (destruct e2 as [|[]|], x; cbv iota in H; congruence).
  split; [|eauto]. destruct x as [r|].
  - assert (e = Exc r) as -> by (destruct e2 as [|[]|]; cbv iota in H; congruence).
    unfold exit_time in Ex. destruct (dget p (times st2)) as [l|]; [|congruence]. destruct (close_first l) as [l'|]; [|congruence].
    destruct (last l' true); congruence.
  - destruct e2 as [|[]|]; cbv iota in H; congruence.
Qed.

(** The nodes of a list that run. *)
Notation live := (filter enabled).

Lemma visit_all_spec call : call_ok call -> forall ps st st' e, visit_all call ps st = (st', e) -> e <> OutOfFuel ->
  exists evs ran, moved [] st st' evs ran /\
  match e with
  | Normal => ran = live ps /\ Forall (fun p => node_of p <> None) ps
  | Exc r => r <> ExitNode /\ exists pre p post, ps = pre ++ p :: post /\ Forall (fun p => node_of p <> None) pre /\
      ((r = InvalidNode p /\ node_of p = None /\ ran = live pre) \/
       (node_of p <> None /\ enabled p = true /\ ran = live pre ++ [p]))
  | OutOfFuel => True
  end.
Proof.
  intros Hc. induction ps as [|p ps IH]; intros st st' e H He; cbn [Runtime.visit_all] in H.
  { injection H as <- <-. exists [], []. split; [apply moved_refl|]. split; [reflexivity|constructor]. }
  destruct (visit call p st) as (st1, e1) eqn:Ev. destruct e1 as [|r|].
  - destruct (visit_cases _ Hc _ _ _ _ Ev) as [(_ & _ & F)|[(n & En & Een & -> & _)|(n & En & Een & _ & evs1 & M1)]]; try discriminate.
    + destruct (IH _ _ _ H He) as (evs & ran & M & Hr). exists evs, ran. split; [exact M|]. cbn [filter]. rewrite Een.
      destruct e as [|r|]; [| |exact I].
      * destruct Hr as (-> & Hr). split; [reflexivity|]. constructor; [congruence|exact Hr].
      * destruct Hr as (Hx & pre & q & post & -> & Hpre & Hr). split; [exact Hx|]. exists (p :: pre), q, post. cbn [filter]. rewrite Een.
        split; [reflexivity|]. split; [constructor; [congruence|exact Hpre]|exact Hr].
    + destruct (IH _ _ _ H He) as (evs & ran & M & Hr). exists (evs1 ++ evs), (p :: ran). split; [apply (moved_trans _ _ _ _ _ _ _ _ M1 M)|].
      cbn [filter]. rewrite Een. destruct e as [|r|]; [| |exact I].
      * destruct Hr as (-> & Hr). split; [reflexivity|]. constructor; [congruence|exact Hr].
      * destruct Hr as (Hx & pre & q & post & -> & Hpre & Hr). split; [exact Hx|]. exists (p :: pre), q, post. cbn [filter]. rewrite Een.
        split; [reflexivity|]. split; [constructor; [congruence|exact Hpre]|].
        destruct Hr as [(-> & Hq & ->)|(Hq & Hen & ->)]; [left|right]; auto.
  - injection H as <- <-. destruct (visit_cases _ Hc _ _ _ _ Ev) as [(En & -> & F)|[(n & _ & _ & _ & F)|(n & En & Een & Hx & evs1 & M1)]]; try discriminate.
    + injection F as ->. exists [], []. split; [apply moved_refl|]. split; [discriminate|]. exists [], p, ps. split; [reflexivity|]. split; [constructor|]. left. auto.
    + exists evs1, [p]. split; [exact M1|]. split; [congruence|]. exists [], p, ps. split; [reflexivity|]. split; [constructor|]. right. split; [congruence|auto].
  - injection H as <- <-. congruence.
Qed.

(** *** Parameters *)

Lemma set_parameter_moved st kv st' : set_parameter node_of str_of st kv = Ok st' -> exists evs, moved [] st st' evs [].
Proof.
  unfold set_parameter. destruct (fst kv) as [| | |s| | | |]; try (intros [= <-]; exists []; apply moved_refl).
  destruct (node_of (node_path_from_attr_path s)) as [(c, m)|] eqn:En; [|intros [= <-]; exists []; apply moved_refl].
  destruct (attr_name_from_attr_path s) as [a|]; [|discriminate]. intros [= <-]. exists [Assign (node_path_from_attr_path s) a]. split; cbn [with_log with_own log gl own].
  - auto.
  - reflexivity.
  - repeat constructor.
  - intros k _ Hk. rewrite nth_update. destruct (Nat.eqb_spec k c) as [->|]; [|reflexivity]. destruct Hk.
    exists (node_path_from_attr_path s), m. split; [exact En|]. right. exists a. now left.
Qed.

Lemma params_moved : forall params st st' x, set_runtime_parameters node_of str_of params st = (st', x) -> exists evs, moved [] st st' evs [].
Proof.
  induction params as [|kv t IH]; intros st st' x H; cbn in H; [injection H as <- <-; exists []; apply moved_refl|].
  destruct (set_parameter node_of str_of st kv) as [st1|e] eqn:E; [|injection H as <- <-; exists []; apply moved_refl].
  destruct (set_parameter_moved _ _ _ E) as (e1 & M1). destruct (IH _ _ _ H) as (e2 & M2). exists (e1 ++ e2).
  apply (moved_trans _ _ _ _ _ _ _ _ M1 M2).
Qed.

Lemma execute_spec fuel : forall ps params st st' e, execute_nodes fuel ps params st = (st', e) -> e <> OutOfFuel ->
  exists evs ran, moved [] st st' evs ran /\
  match e with
  | Normal => ran = live ps /\ Forall (fun p => node_of p <> None) ps
  | Exc r => r <> ExitNode /\
      ((ran = [] /\ exists x, r = Failure x /\ snd (set_runtime_parameters node_of str_of params st) = Some x) \/
       exists pre p post, ps = pre ++ p :: post /\ Forall (fun p => node_of p <> None) pre /\
      ((r = InvalidNode p /\ node_of p = None /\ ran = live pre) \/
       (node_of p <> None /\ enabled p = true /\ ran = live pre ++ [p])))
  | OutOfFuel => True
  end.
Proof.
  induction fuel as [|f IH]; intros ps params st st' e H He; cbn [Runtime.execute_nodes] in H; [injection H as <- <-; congruence|].
  destruct (set_runtime_parameters node_of str_of params st) as (st1, [x|]) eqn:Ep; destruct (params_moved _ _ _ _ Ep) as (e1 & M1).
  - injection H as <- <-. exists e1, []. split; [exact M1|]. split; [discriminate|]. left. split; [reflexivity|]. now exists x.
  - assert (Hc : call_ok (execute_nodes f)).
    { intros ps' params' s s' e' H' He'. destruct (IH _ _ _ _ _ H' He') as (evs & ran & M & _). eauto. }
    destruct (visit_all_spec _ Hc _ _ _ _ H He) as (evs & ran & M & Hr). exists (e1 ++ evs), ran.
    split; [apply (moved_trans _ _ _ _ _ _ _ _ M1 M)|]. destruct e as [|r|]; [exact Hr| |exact I].
    destruct Hr as (Hx & Hr). split; [exact Hx|]. right. exact Hr.
Qed.

Lemma execute_call_ok f : call_ok (execute_nodes f).
Proof. intros ps params s s' e H He. destruct (execute_spec _ _ _ _ _ _ H He) as (evs & ran & M & _). eauto. Qed.

(** *** Executing in parts *)

Lemma visit_all_app call : forall a b st,
  visit_all call (a ++ b) st = match visit_all call a st with (st', Normal) => visit_all call b st' | r => r end.
Proof.
  induction a as [|p a IH]; intros b st; cbn [app Runtime.visit_all]; [reflexivity|].
  destruct (visit call p st) as (st1, [|r|]); [apply IH|reflexivity|reflexivity].
Qed.

Lemma execute_app fuel params a b st : 
  execute_nodes fuel (a ++ b) params st =
  match execute_nodes fuel a params st with (st', Normal) => execute_nodes fuel b [] st' | r => r end.
Proof.
  destruct fuel as [|f]; cbn [Runtime.execute_nodes]; [reflexivity|].
  destruct (set_runtime_parameters node_of str_of params st) as (st1, [x|]); [reflexivity|]. cbn. apply visit_all_app.
Qed.

(** *** The fuel does not matter *)

Definition below_call (c1 c2 : list pystr -> list (pyval * pyval) -> rt -> rt * ended) : Prop :=
  forall ps params st, snd (c1 ps params st) = OutOfFuel \/ c1 ps params st = c2 ps params st.

Lemma interp_below c1 c2 : below_call c1 c2 -> forall p st, snd (interp c1 p st) = OutOfFuel \/ interp c1 p st = interp c2 p st.
Proof.
  intros Hb. induction p as [r|k v p IH|k p IH|k q IH|a v p IH|a p IH|a q IH|t params q IH]; intros st; cbn [Runtime.interp]; auto.
  - destruct (dmem k (gl st)); auto.
  - destruct (self_frame st); auto.
  - destruct (self_frame st); auto. destruct (dmem a _); auto.
  - destruct (self_frame st); auto.
  - assert (Hgo : forall ps,
      snd match c1 ps params st with
      | (st0, OutOfFuel) => (st0, OutOfFuel)
      | (st0, Normal) => interp c1 (q None) st0
      | (st0, Exc r) => interp c1 (q (Some r)) st0
      end = OutOfFuel \/
      match c1 ps params st with
      | (st0, OutOfFuel) => (st0, OutOfFuel)
      | (st0, Normal) => interp c1 (q None) st0
      | (st0, Exc r) => interp c1 (q (Some r)) st0
      end = match c2 ps params st with
      | (st0, OutOfFuel) => (st0, OutOfFuel)
      | (st0, Normal) => interp c2 (q None) st0
      | (st0, Exc r) => interp c2 (q (Some r)) st0
      end).
    { intros ps. destruct (Hb ps params st) as [E|E].
      - destruct (c1 ps params st) as (s, e). cbn in E. subst. now left.
      - rewrite E. destruct (c2 ps params st) as (s, [|r|]); auto. }
    destruct t as [[|p ps]|p]; auto. destruct (node_of p); auto.
Qed.
Lemma runcode_below c1 c2 : below_call c1 c2 -> forall p st, snd (runcode c1 p st) = OutOfFuel \/ runcode c1 p st = runcode c2 p st.
Proof.
  intros Hb p st. unfold Runtime.runcode. destruct (interp_below _ _ Hb p st) as [E|E].
  - destruct (interp c1 p st) as (s, e). cbn in E. subst. now left.
  - rewrite E. now right.
Qed.
Lemma run_below c1 c2 : below_call c1 c2 -> forall p c mro st, snd (run c1 p c mro st) = OutOfFuel \/ run c1 p c mro st = run c2 p c mro st.
Proof.
  intros Hb p c mro st. unfold Runtime.run. destruct (lines_of (own st) p); [|now right].
  destruct (load_attrs _ _ _ _ _ _ _ _); [|now right]. destruct (meaning a) as [code|]; [|now right].
  match goal with |- context [runcode c1 code ?s] => destruct (runcode_below _ _ Hb code s) as [E|E]; [|rewrite E; now right] ; destruct (runcode c1 code s) as (s3, e3) end.
  cbn in E. subst. now left.
Qed.
Lemma visit_all_below c1 c2 : below_call c1 c2 -> forall ps st, snd (visit_all c1 ps st) = OutOfFuel \/ visit_all c1 ps st = visit_all c2 ps st.
Proof.
  intros Hb. assert (Hv : forall p st, snd (visit c1 p st) = OutOfFuel \/ visit c1 p st = visit c2 p st).
  { intros p st. unfold Runtime.visit. destruct (node_of p) as [(c, mro)|]; [|now right]. destruct (enabled p); [|now right].
    match goal with |- context [run c1 p c mro ?s] => destruct (run_below _ _ Hb p c mro s) as [E|E]; [|rewrite E; now right]; destruct (run c1 p c mro s) as (s2, e2) end.
    cbn in E. subst. now left. }
  induction ps as [|p ps IH]; intros st; cbn [Runtime.visit_all]; [now right|].
  destruct (Hv p st) as [E|E].
  - destruct (visit c1 p st) as (s, e). cbn in E. subst. now left.
  - rewrite E. destruct (visit c2 p st) as (s, [|r|]); auto.
Qed.
Lemma execute_below f : below_call (execute_nodes f) (execute_nodes (S f)).
Proof.
  induction f as [|f IH]; intros ps params st; [now left|]. cbn [Runtime.execute_nodes].
  destruct (set_runtime_parameters node_of str_of params st) as (st1, [x|]); [now right|]. apply visit_all_below. exact IH.
Qed.
Lemma execute_more f f' ps params st : f <= f' -> snd (execute_nodes f ps params st) <> OutOfFuel ->
  execute_nodes f' ps params st = execute_nodes f ps params st.
Proof.
  intros H Hn. induction H as [|f' _ IH]; [reflexivity|]. destruct (execute_below f' ps params st) as [E|E]; [|congruence].
  rewrite IH in E. contradiction.
Qed.

(** *** Globals after a node *)

(** The globals after a node whose run was not cut off by an interrupt or by an
    error outside the code. *)
Definition clean_end (e : ended) : Prop := e = Normal \/ e = Exc ExitGraph \/ e = Exc GraphError.

Lemma visit_globals call : call_ok call -> forall p st st' e, visit call p st = (st', e) ->
  clean_end e -> NoDup (dkeys (gl st)) ->
  forall k, In k (dkeys (gl st')) -> In k (dkeys (gl st)) \/ exists lines, lines_of (own st) p = Ok lines /\ declared lines k.
Proof.
  intros Hc p st st' e H He Hnd k Hk. unfold Runtime.visit in H. destruct (node_of p) as [(c, mro)|]; [|injection H as <- <-; now left].
  destruct (enabled p); [|injection H as <- <-; now left].
  set (st1 := with_log _ _) in H. assert (G1 : gl st1 = gl st) by reflexivity. assert (O1 : own st1 = own st) by reflexivity.
  destruct (run call p c mro st1) as (st2, e2) eqn:Er.
  assert (Hg : gl st' = gl st2 /\ e2 <> OutOfFuel /\ e2 <> Exc Interrupt).
  { unfold exit_time in H. assert (e2 <> OutOfFuel). { intros ->. injection H as <- <-. destruct He as [|[|]]; congruence. }
    destruct (dget p (times st2)) as [l|]; [destruct (close_first l) as [l'|]; [destruct (last l' true)|]|];
      destruct e2 as [|[]|]; cbv iota beta zeta in H; try congruence; injection H as <- <-;
      (split; [reflexivity|split; congruence]) || (destruct He as [|[|]]; congruence). }
  destruct Hg as (Hg & He2 & Hi2). rewrite Hg in Hk. clear Hg H. unfold Runtime.run in Er. rewrite O1, G1 in Er.
  destruct (lines_of (own st) p) as [lines|x] eqn:El; [|injection Er as <- <-; now left].
  destruct (load_attrs _ _ _ _ _ _ _ _) as [f|]; [|injection Er as <- <-; now left].
  destruct (meaning lines) as [code|]; [|injection Er as <- <-; now left].
  match type of Er with context [Runtime.runcode _ _ call code ?s] => set (st2' := s) in Er; destruct (runcode call code st2') as (st3, e3) eqn:E3 end.
  assert (Hclean : gl st2 = clean_globals lines (dkeys (gl st)) (gl st3) -> e3 <> OutOfFuel ->
     In k (dkeys (gl st)) \/ (exists lines0, Ok lines = Ok lines0 /\ declared lines0 k)).
  { intros E He3. rewrite E in Hk. destruct (runcode_moved _ Hc _ _ _ _ E3 He3) as (evs & ran & M).
    rewrite clean_globals_spec in Hk.
    - unfold dkeys in Hk. apply in_map_iff in Hk as ((k', v) & <- & Hk). apply filter_In in Hk as (_ & Hk). cbn in Hk.
      apply orb_true_iff in Hk as [Hk|Hk]; [left; now apply str_in_In|right]. exists lines. split; [reflexivity|]. now apply declared_iff.
    - apply (m_nodup _ _ _ _ _ M). unfold st2'. cbn. now apply NoDup_dset. }
  destruct e3 as [|r3|].
  - destruct (push_back _ _ _ _) as (o, [x|]); injection Er as <- <-; apply Hclean; [reflexivity|discriminate|reflexivity|discriminate].
  - destruct r3; try (destruct (push_back _ _ _ _) as (o, [x|]); injection Er as <- <-; apply Hclean; [reflexivity|discriminate|reflexivity|discriminate]).
    + injection Er as <- <-. congruence.
    + injection Er as <- <-. apply Hclean; [reflexivity|discriminate].
  - injection Er as <- <-. congruence.
Qed.

(** *** Code that executes nothing else *)

Lemma update_here {A} (d : A) : forall l i, i < length l -> update l i (fun _ => nth i l d) = l.
Proof. induction l as [|x l IH]; intros [|i] Hi; cbn in *; try lia; [reflexivity|]. f_equal. apply IH. lia. Qed.
Lemma update_twice {A} (f g : A -> A) : forall l i, update (update l i f) i g = update l i (fun x => g (f x)).
Proof. induction l as [|x l IH]; intros [|i]; cbn; try reflexivity. now rewrite IH. Qed.
Lemma update_ext_at {A} (d : A) (f g : A -> A) : forall l i, f (nth i l d) = g (nth i l d) -> update l i f = update l i g.
Proof. induction l as [|x l IH]; intros [|i] H; cbn in *; try reflexivity; [now rewrite H|]. f_equal. now apply IH. Qed.
Lemma nth_update_same {A} (f : A -> A) d l i : i < length l -> nth i (update l i f) d = f (nth i l d).
Proof. intros H. rewrite nth_update, Nat.eqb_refl. now apply Nat.ltb_lt in H as ->. Qed.

Lemma tidy_eval call i : forall p, tidy p -> forall st, dget SELF (gl st) = Some (GFrame i) -> i < length (frames st) ->
  exists g f' r, eval p (gl st) (nth i (frames st) []) = (g, f', r) /\
    interp call p st = (with_frames (with_gl st g) (update (frames st) i (fun _ => f')), match r with None => Normal | Some x => Exc x end) /\
    dget SELF g = Some (GFrame i).
Proof.
  assert (Hsame : forall st, i < length (frames st) -> with_frames (with_gl st (gl st)) (update (frames st) i (fun _ => nth i (frames st) [])) = st).
  { intros [g fr o c t ru l] Hi. unfold with_frames, with_gl. cbn in *. now rewrite update_here. }
  intros p Hp. induction Hp as [r|k v p Hk Hp IH|k p Hk Hp IH|k q Hq IH|a v p Hp IH|a p Hp IH|a q Hq IH]; intros st Hs Hi;
    assert (Hsf : self_frame st = Some i) by (unfold self_frame; now rewrite Hs).
  - exists (gl st), (nth i (frames st) []), r. cbn. rewrite Hsame by exact Hi. split; [reflexivity|]. split; [|exact Hs]. now destruct r.
  - cbn [eval Runtime.interp]. apply (IH (with_gl st (dset k v (gl st)))); [|exact Hi]. cbn [with_gl gl].
    rewrite dget_dset_other; [exact Hs|exact Hk].
  - cbn [eval Runtime.interp]. destruct (dmem k (gl st)) eqn:Em.
    + apply (IH (with_gl st (ddel k (gl st)))); [|exact Hi]. cbn [with_gl gl]. rewrite dget_ddel_other; [exact Hs|exact Hk].
    + eexists _, _, _. split; [reflexivity|]. rewrite Hsame by exact Hi. split; [reflexivity|exact Hs].
  - cbn [eval Runtime.interp]. apply IH; assumption.
  - cbn [eval Runtime.interp]. rewrite Hsf. destruct (IH (with_frames st (update (frames st) i (dset a v)))) as (g & f' & r & E1 & E2 & E3).
    + exact Hs.
    + cbn. now rewrite update_length.
    + exists g, f', r. cbn [with_frames frames gl] in E1. rewrite nth_update_same in E1 by exact Hi. split; [exact E1|]. rewrite E2. split; [|exact E3].
      f_equal. unfold with_frames, with_gl. cbn. f_equal. now rewrite update_twice.
  - cbn [eval Runtime.interp]. rewrite Hsf. destruct (dmem a (nth i (frames st) [])).
    2:{ eexists _, _, _. split; [reflexivity|]. rewrite Hsame by exact Hi. split; [reflexivity|exact Hs]. }
    destruct (IH (with_frames st (update (frames st) i (ddel a)))) as (g & f' & r & E1 & E2 & E3).
    + exact Hs.
    + cbn. now rewrite update_length.
    + exists g, f', r. cbn [with_frames frames gl] in E1. rewrite nth_update_same in E1 by exact Hi. split; [exact E1|]. rewrite E2. split; [|exact E3].
      f_equal. unfold with_frames, with_gl. cbn. f_equal. now rewrite update_twice.
  - cbn [eval Runtime.interp]. rewrite Hsf. apply IH; assumption.
Qed.

(** The attributes of the class after the changes are pushed back. *)
Lemma push_back_all : forall pre f o c, Forall (fun kv => dmem (fst kv) f = true) pre ->
  push_back pre f o c =
  (update o c (fun d => fold_left (fun d kv => match dget (fst kv) f with
                                               | Some w => if py_eqb (snd kv) w then d else dset (fst kv) w d
                                               | None => d end) pre d), None).
Proof.
  assert (Hid : forall A (l : list A) c, update l c (fun d => d) = l).
  { intros A l. induction l as [|x l IHl]; intros [|c]; cbn; try reflexivity. now rewrite IHl. }
  induction pre as [|(a, v) pre IH]; intros f o c H; cbn.
  - now rewrite Hid.
  - inversion H as [|? ? Hm Hr]; subst. cbn in Hm. unfold dmem in Hm. destruct (dget a f) as [w|] eqn:E; [|discriminate].
    rewrite IH by exact Hr. f_equal. destruct (py_eqb v w); [reflexivity|]. rewrite update_twice. reflexivity.
Qed.

(** *** The frame of a node *)

Lemma uniq_In x : forall l, In x (uniq l) <-> In x l.
Proof.
  induction l as [|y l IH]; cbn; [tauto|]. destruct (str_in y l) eqn:E; cbn; rewrite IH; [|tauto].
  apply str_in_In in E. split; [tauto|]. intros [->|H]; auto.
Qed.
Lemma uniq_NoDup : forall l, NoDup (uniq l).
Proof.
  induction l as [|y l IH]; cbn; [constructor|]. destruct (str_in y l) eqn:E; [exact IH|]. constructor; [|exact IH].
  rewrite uniq_In. intros F. apply str_in_In in F. congruence.
Qed.
Lemma names_of_In o mro a : In a (names_of builtins o mro) <->
  run_attr builtins a = true /\ exists v, attr_of o mro a = Some v.
Proof.
  unfold names_of. rewrite uniq_In, filter_In. split; intros (H1 & H2); split; try assumption.
  - induction mro as [|c mro IH]; cbn in *; [contradiction|]. destruct (dget a (nth c o [])) as [v|] eqn:E; [eauto|].
    apply in_app_or in H1 as [H1|H1]; [|now apply IH]. apply dget_none in E. contradiction.
  - destruct H2 as (v & H2). induction mro as [|c mro IH]; cbn in *; [discriminate|]. apply in_or_app. destruct (dget a (nth c o [])) as [w|] eqn:E; [|right; now apply IH].
    left. apply dget_some_key. eauto.
Qed.

Lemma load_attrs_spec o g p mro : forall names f f', NoDup names -> (forall a, In a names -> ~ In a (dkeys f)) ->
  load_attrs real deepcopy o g p mro names f = Ok f' ->
  dkeys f' = dkeys f ++ names /\
  (forall a, In a (dkeys f) -> dget a f' = dget a f) /\
  (forall a, In a names -> exists v r c, attr_of o mro a = Some v /\ real o g p a v = Ok r /\ deepcopy r = Ok c /\
      dget a f' = Some (match c with Some x => x | None => r end)).
Proof.
  induction names as [|a names IH]; intros f f' Hnd Hf H; cbn [load_attrs] in H.
  { injection H as <-. rewrite app_nil_r. repeat split; auto. intros ? []. }
  destruct (attr_of o mro a) as [v|] eqn:Ea; [|discriminate]. destruct (real o g p a v) as [r|] eqn:Er; [|discriminate]. cbn [bind] in H.
  destruct (deepcopy r) as [c|] eqn:Ec; [|discriminate]. cbn [bind] in H. inversion Hnd as [|? ? Hna Hnd']; subst.
  assert (Hfa : ~ In a (dkeys f)) by (apply Hf; now left).
  destruct (IH _ _ Hnd' ltac:(intros b Hb; rewrite dkeys_dset_new by exact Hfa; intros F; apply in_app_or in F as [F|[F|[]]];
     [apply (Hf b); [now right|exact F]|congruence]) H) as (K & K1 & K2). rewrite dkeys_dset_new in K by exact Hfa. split; [|split].
  - rewrite K. now rewrite <- app_assoc.
  - intros b Hb. rewrite K1; [|rewrite dkeys_dset_new by exact Hfa; apply in_or_app; now left]. apply dget_dset_other. intros ->. contradiction.
  - intros b [<-|Hb]; [|now apply K2]. exists v, r, c. repeat split; auto. rewrite K1; [apply dget_dset_same|].
    rewrite dkeys_dset_new by exact Hfa. apply in_or_app. right. now left.
Qed.

Lemma frame_spec o g p mro f : load_attrs real deepcopy o g p mro (names_of builtins o mro) [] = Ok f ->
  NoDup (dkeys f) /\
  forall a, match dget a f with
            | Some x => run_attr builtins a = true /\ exists v r c, attr_of o mro a = Some v /\ real o g p a v = Ok r /\ deepcopy r = Ok c /\
                          x = match c with Some x => x | None => r end
            | None => run_attr builtins a = false \/ attr_of o mro a = None
            end.
Proof.
  intros H. destruct (load_attrs_spec _ _ _ _ (names_of builtins o mro) _ _ (uniq_NoDup _) (fun a _ (F : In a (dkeys [])) => F) H) as (K & _ & K2).
  cbn [dkeys map app] in K. split; [rewrite K; apply uniq_NoDup|]. intros a. destruct (dget a f) as [x|] eqn:E.
  - assert (Ha : In a (names_of builtins o mro)). { rewrite <- K. apply dget_some_key. eauto. }
    destruct (K2 _ Ha) as (v & r & c & A & B & C & D). apply names_of_In in Ha as (Ha & _). split; [exact Ha|]. exists v, r, c. repeat split; auto. congruence.
  - apply dget_none in E. rewrite K in E. destruct (run_attr builtins a) eqn:Er; [|now left]. right.
    destruct (attr_of o mro a) as [v|] eqn:Ea; [|reflexivity]. destruct E. apply names_of_In. eauto.
Qed.

(** *** One node, in full *)

Lemma close_open l : Forall (fun b => b = true) l -> close_first (l ++ [false]) = Some (l ++ [true]).
Proof. induction 1 as [|b l -> _ IH]; cbn; [reflexivity|]. now rewrite IH. Qed.

Lemma fold_pushed f' : forall (f : dict pyval) d a, NoDup (dkeys f) ->
  dget a (fold_left (fun d kv => match dget (fst kv) f' with
                                 | Some w => if py_eqb (snd kv) w then d else dset (fst kv) w d
                                 | None => d end) f d) = pushed f f' a (dget a d).
Proof.
  induction f as [|(b, v) f IH]; intros d a Hnd; cbn [fold_left]; [reflexivity|]. inversion Hnd as [|? ? Hb Hnd']; subst.
  rewrite IH by exact Hnd'. unfold pushed. cbn [dget fst snd]. destruct (str_eqb a b) eqn:E.
  - apply str_eqb_eq in E as ->. apply dget_none in Hb. rewrite Hb, str_eqb_refl. destruct (dget b f') as [w|]; [|reflexivity].
    destruct (py_eqb v w); [reflexivity|]. apply dget_dset_same.
  - assert (Hd : dget a match dget b f' with Some w => if py_eqb v w then d else dset b w d | None => d end = dget a d).
    { destruct (dget b f') as [w|]; [|reflexivity]. destruct (py_eqb v w); [reflexivity|]. apply dget_dset_other.
      intros ->. rewrite str_eqb_refl in E. discriminate. }
    rewrite Hd. rewrite str_eqb_sym, E. reflexivity.
Qed.

Lemma dget_filter_keys {V} (P : pystr -> bool) : forall (g : dict V) k, 
  dget k (filter (fun kv => P (fst kv)) g) = if P k then dget k g else None.
Proof.
  induction g as [|(a, v) g IH]; intros k; cbn; [now destruct (P k)|]. destruct (P a) eqn:Ea; cbn.
  - destruct (str_eqb a k) eqn:E; [|apply IH]. apply str_eqb_eq in E as <-. now rewrite Ea.
  - rewrite IH. destruct (str_eqb a k) eqn:E; [|reflexivity]. apply str_eqb_eq in E as <-. now rewrite Ea.
Qed.

Lemma one_node n p c mro st lines code f g f' r :
  node_of p = Some (c, mro) -> enabled p = true ->
  lines_of (own st) p = Ok lines -> meaning lines = Some code -> tidy code ->
  load_attrs real deepcopy (own st) (gl st) p mro (names_of builtins (own st) mro) [] = Ok f ->
  NoDup (dkeys (gl st)) -> all_ended (times st) p -> c < length (own st) ->
  eval code (dset SELF (GFrame (length (frames st))) (gl st)) f = (g, f', r) ->
  r <> Some Interrupt -> (kept r = true -> incl (dkeys f) (dkeys f')) ->
  exists st', execute_nodes (S n) [p] [] st = (st', seen r) /\
    (forall k, (In k (dkeys (gl st)) \/ declared lines k) -> dget k (gl st') = dget k g) /\
    (forall k, ~ In k (dkeys (gl st)) -> ~ declared lines k -> dget k (gl st') = None) /\
    frames st' = frames st ++ [f'] /\
    (forall k a, dget a (nth k (own st') []) =
       if Nat.eqb k c && kept r then pushed f f' a (dget a (nth k (own st) [])) else dget a (nth k (own st) [])) /\
    dget p (cached st') = Some (length (frames st)) /\ (forall q, q <> p -> dget q (cached st') = dget q (cached st)) /\
    running st' = false /\ all_ended (times st') p /\ log st' = log st ++ [Enter p; Leave p].
Proof.
  intros Hn Hen Hl Hm Ht Hf Hnd Htm Hc He Hr Hk.
  set (call := execute_nodes n). set (st1 := with_log (enter_time st p) (log st ++ [Enter p])).
  set (i := length (frames st)).
  set (st2 := with_running (with_gl (with_cached (with_frames st1 (frames st1 ++ [f])) (dset p i (cached st1))) (dset SELF (GFrame i) (gl st1))) true).
  destruct (tidy_eval call i code Ht st2) as (g0 & f0 & r0 & E1 & E2 & E3).
  { unfold st2. cbn. apply dget_dset_same. }
  { unfold st2. cbn. rewrite app_length. cbn. unfold i. lia. }
  assert (Hnth : nth i (frames st2) [] = f). { unfold st2. cbn. rewrite app_nth2 by (unfold i; lia). unfold i. now rewrite Nat.sub_diag. }
  rewrite Hnth in E1. change (gl st2) with (dset SELF (GFrame i) (gl st)) in E1. fold i in He. rewrite He in E1. injection E1 as <- <- <-.
  assert (Hfr : update (frames st2) i (fun _ => f') = frames st ++ [f']).
  { unfold st2. cbn. unfold i. clear. induction (frames st) as [|x l IH]; cbn; [reflexivity|]. now rewrite IH. }
  rewrite Hfr in E2. set (st3 := with_frames (with_gl st2 g) (frames st ++ [f'])) in E2.
  assert (Hg : NoDup (dkeys g)).
  { destruct (interp_moved call (execute_call_ok n) code st2 st3 _ E2 ltac:(destruct r; discriminate)) as (evs & ran & M).
    apply (m_nodup _ _ _ _ _ M). unfold st2. cbn. now apply NoDup_dset. }
  set (G := clean_globals lines (dkeys (gl st)) g).
  assert (HG : forall k, ((In k (dkeys (gl st)) \/ declared lines k) -> dget k G = dget k g) /\
                         (~ In k (dkeys (gl st)) -> ~ declared lines k -> dget k G = None)).
  { intros k. unfold G. rewrite clean_globals_spec by exact Hg.
    rewrite (dget_filter_keys (fun k => str_in k (dkeys (gl st)) || declaredb lines k)). split.
    - intros [H|H]; [apply str_in_In in H|apply declared_iff in H]; rewrite H; cbn; [reflexivity|]. now rewrite orb_true_r.
    - intros H1 H2. destruct (str_in k (dkeys (gl st))) eqn:A; [apply str_in_In in A; contradiction|].
      destruct (declaredb lines k) eqn:B; [apply declared_iff in B; contradiction|reflexivity]. }
  set (st4 := with_running (with_gl st3 G) false).
  assert (Hrun : exists o e, kept r = true /\ e = match r with Some x => Exc x | None => Normal end /\ push_back f f' (own st) c = (o, None) /\
       (forall k a, dget a (nth k o []) = if Nat.eqb k c then pushed f f' a (dget a (nth k (own st) [])) else dget a (nth k (own st) []))
       \/ kept r = false /\ o = own st /\ e = Exc GraphError).
  { destruct (kept r) eqn:Ek.
    - exists (fst (push_back f f' (own st) c)), (match r with Some x => Exc x | None => Normal end). left.
      destruct (frame_spec _ _ _ _ _ Hf) as (Hndf & _). rewrite push_back_all.
      + cbn [fst]. repeat split. intros k a. rewrite nth_update. destruct (Nat.eqb_spec k c) as [->|]; [|reflexivity].
        apply Nat.ltb_lt in Hc. rewrite Hc. cbn [andb]. now apply fold_pushed.
      + apply Forall_forall. intros (a, v) Ha. cbn. apply dmem_In. apply (Hk eq_refl). apply dget_some_key. exists v. now apply In_dget.
    - exists (own st), (Exc GraphError). right. auto. }
  destruct Hrun as (o & e & Hrun).
  assert (Hcode : runcode call code st2 = (st3, match r with
      | None => Normal | Some (InvalidNode _ | Failure _) => Exc GraphError | Some x => Exc x end)).
  { unfold Runtime.runcode. rewrite E2. destruct r as [[]|]; reflexivity. }
  assert (HX : run call p c mro st1 = (with_own st4 o, e)).
  { unfold Runtime.run. change (own st1) with (own st). change (gl st1) with (gl st). change (frames st1) with (frames st).
    rewrite Hl, Hf. cbv iota. rewrite Hm. cbv iota zeta. fold i. 
    match goal with |- match Runtime.runcode _ _ _ _ ?x with _ => _ end = _ => change x with st2 end.
    rewrite Hcode. cbn [gl with_cached with_frames]. change (gl st1) with (gl st). change (gl st3) with g. fold G. fold st4.
    change (own st4) with (own st). replace (nth i (frames st4) []) with f'.
    2:{ unfold st4, st3. cbn. rewrite app_nth2 by (unfold i; lia). unfold i. now rewrite Nat.sub_diag. }
    destruct Hrun as [(Ek & -> & Ep & _)|(Ek & -> & ->)].
    - rewrite Ep. destruct r as [[]|]; cbn in Ek; try discriminate; reflexivity.
    - change (with_own st4 (own st)) with st4. destruct r as [[]|]; cbn in Ek; try discriminate; try reflexivity. congruence. }
  assert (Hex : exit_time (with_own st4 o) p = (with_times (with_own st4 o) (dset p (dget_def p [] (times st) ++ [true]) (times st1)), None)).
  { unfold exit_time. change (times (with_own st4 o)) with (times st1). unfold st1 at 1. cbn [times with_log enter_time with_times].
    rewrite dget_dset_same. rewrite close_open.
    - now rewrite last_last.
    - unfold dget_def. destruct (dget p (times st)) as [l|] eqn:E; [now apply Htm|constructor]. }
  eexists. split; [cbn [Runtime.execute_nodes set_runtime_parameters Runtime.visit_all]; unfold Runtime.visit; rewrite Hn, Hen; cbv iota zeta; fold call; fold st1; rewrite HX|].
  { assert (He' : match match e with Exc ExitNode => Normal | e => e end with Normal => Normal | r => r end = seen r).
    { destruct Hrun as [(Ek & -> & _)|(Ek & _ & ->)]; destruct r as [[]|]; cbn in Ek; try discriminate; reflexivity || congruence. }
    assert (He0 : e <> OutOfFuel). { destruct Hrun as [(Ek & -> & _)|(Ek & _ & ->)]; destruct r as [[]|]; discriminate. }
    rewrite Hex. destruct e as [|[]|]; try congruence; rewrite <- He'; reflexivity. }
  split; [intros k H; now apply HG|]. split; [intros k H1 H2; now apply HG|]. split; [reflexivity|]. split.
  { intros k a. cbn [own with_log with_times with_own]. destruct Hrun as [(Ek & _ & _ & Ho)|(Ek & -> & _)]; rewrite Ek.
    - rewrite andb_true_r. apply Ho.
    - now rewrite andb_false_r. }
  split; [apply dget_dset_same|]. split; [intros q Hq; apply dget_dset_other; congruence|]. split; [reflexivity|]. split.
  { intros l. cbn [times with_log with_times]. rewrite dget_dset_same. intros [= <-]. apply Forall_app. split; [|repeat constructor].
    unfold dget_def. destruct (dget p (times st)) as [l|] eqn:E; [now apply Htm|constructor]. }
  cbn [log with_log with_times with_own]. unfold st4, st3, st2, st1. cbn [log with_log with_times with_own with_running with_gl with_frames with_cached].
  rewrite <- app_assoc. reflexivity.
Qed.

(** *** What parameters set *)

Notation set_params := (set_runtime_parameters node_of str_of).

Lemma set_parameter_spec st key v :
  (exists k a, addresses node_of key k a /\ (forall k' a', addresses node_of key k' a' -> k' = k /\ a' = a) /\
     exists l, set_parameter node_of str_of st (key, v) = Ok (with_log (with_own st (update (own st) k (dset a (VStr (str_of v))))) l)) \/
  (no_attribute node_of key /\ set_parameter node_of str_of st (key, v) = Raise TypeError) \/
  (~ no_attribute node_of key /\ (forall k a, ~ addresses node_of key k a) /\ set_parameter node_of str_of st (key, v) = Ok st).
Proof.
  unfold set_parameter. cbn [fst snd].
  assert (Hadd : forall s k a, addresses node_of (VStr s) k a <->
     attr_name_from_attr_path s = Some a /\ exists m, node_of (node_path_from_attr_path s) = Some (k, m)).
  { intros s k a. unfold attr_name_from_attr_path, node_path_from_attr_path. split.
    - intros (p & m & E & Ha & Hp & Hn). injection E as ->. rewrite path_attr_partition_make by assumption. cbn. eauto.
    - intros (E & m & Hn). destruct (path_attr_partition s) as (p, o) eqn:Ep. cbn in *. subst o.
      destruct (path_attr_partition_inv _ _ _ Ep) as (-> & Ha & Hp). exists p, m. auto. }
  destruct key as [| | |s| | | |];
    try (right; right; split; [intros (? & ? & ? & ? & _); discriminate|split; [intros ? ? (? & ? & ? & _); discriminate|reflexivity]]).
  destruct (attr_name_from_attr_path s) as [a|] eqn:Ea.
  - assert (Hna : ~ no_attribute node_of (VStr s)).
    { intros (s' & c & m & E & _ & Hs). injection E as <-. unfold attr_name_from_attr_path in Ea.
      destruct Hs as [Hs|(t & ->)]; [rewrite path_attr_partition_nodot in Ea by exact Hs|rewrite path_attr_partition_trailing in Ea]; discriminate. }
    destruct (node_of (node_path_from_attr_path s)) as [(c, m)|] eqn:En.
    + left. exists c, a. split; [apply Hadd; eauto|]. split; [|eexists; reflexivity]. intros k' a' H. apply Hadd in H as (H & m' & H'). split; congruence.
    + right. right. split; [exact Hna|]. split; [|reflexivity]. intros k a' H. apply Hadd in H as (H & m' & H'). congruence.
  - unfold attr_name_from_attr_path in Ea. destruct (path_attr_partition s) as (p, o) eqn:Ep. cbn in Ea. subst o.
    destruct (path_attr_partition_none_inv _ _ Ep) as (-> & Hs). unfold node_path_from_attr_path. rewrite Ep. cbn [fst].
    destruct (node_of s) as [(c, m)|] eqn:En.
    + right. left. split; [|reflexivity]. exists s, c, m. auto.
    + right. right. split; [intros (s' & c & m & E & E' & _); congruence|]. split; [|reflexivity]. intros k a H. apply Hadd in H as (H & _).
      unfold attr_name_from_attr_path in H. rewrite Ep in H. discriminate.
Qed.

Lemma update_nth_own st k a w l k' a' : k < length (own st) ->
  dget a' (nth k' (own (with_log (with_own st (update (own st) k (dset a w))) l)) []) =
  if Nat.eqb k' k && str_eqb a' a then Some w else dget a' (nth k' (own st) []).
Proof.
  intros Hk. cbn [own with_log with_own]. rewrite nth_update. destruct (Nat.eqb_spec k' k) as [->|]; [|reflexivity].
  apply Nat.ltb_lt in Hk. rewrite Hk. cbn [andb]. rewrite dget_dset. rewrite (str_eqb_sym a' a). reflexivity.
Qed.

Lemma params_spec : forall params st st' x, (forall p c m, node_of p = Some (c, m) -> c < length (own st)) ->
  set_params params st = (st', x) ->
  exists pre post, params = pre ++ post /\ Forall (fun kv => ~ no_attribute node_of (fst kv)) pre /\
  match x with None => post = [] | Some e => e = TypeError /\ exists key v t, post = (key, v) :: t /\ no_attribute node_of key end /\
  gl st' = gl st /\ frames st' = frames st /\ cached st' = cached st /\ times st' = times st /\ running st' = running st /\
  (forall k a, (forall kv, In kv pre -> ~ addresses node_of (fst kv) k a) -> dget a (nth k (own st') []) = dget a (nth k (own st) [])) /\
  (forall k a p1 key v p2, pre = p1 ++ (key, v) :: p2 -> addresses node_of key k a ->
     (forall kv, In kv p2 -> ~ addresses node_of (fst kv) k a) -> dget a (nth k (own st') []) = Some (VStr (str_of v))).
Proof.
  induction params as [|(key, v) params IH]; intros st st' x Hb H; cbn [set_runtime_parameters] in H.
  { injection H as <- <-. exists [], []. repeat split; auto. intros k a p1 key v p2 E. destruct p1; discriminate. }
  destruct (set_parameter_spec st key v) as [(k0 & a0 & Hadd & Huniq & l & E)|[(Hno & E)|(Hno & Hadd & E)]]; rewrite E in H.
  - set (st1 := with_log _ l) in H. assert (Hk0 : k0 < length (own st)). { destruct Hadd as (p & m & _ & _ & _ & Hn). now apply (Hb _ _ _ Hn). }
    assert (Hb1 : forall p c m, node_of p = Some (c, m) -> c < length (own st1)). { intros p c m Hn. unfold st1. cbn. rewrite update_length. eauto. }
    destruct (IH _ _ _ Hb1 H) as (pre & post & -> & Hpre & Hx & G1 & G2 & G3 & G4 & G5 & Hsame & Hlast).
    assert (Hnn : ~ no_attribute node_of key).
    { intros F. destruct Hadd as (p & m & -> & Ha & Hp & _). destruct F as (s & c & m' & E1 & _ & E2). injection E1 as <-.
      assert (E3 : path_attr_partition (make_attr_path p a0) = (p, Some a0)) by now apply path_attr_partition_make.
      destruct E2 as [E2|(t & E2)]; [rewrite path_attr_partition_nodot in E3 by exact E2|rewrite E2, path_attr_partition_trailing in E3]; discriminate. }
    exists ((key, v) :: pre), post. split; [reflexivity|]. split; [constructor; [exact Hnn|exact Hpre]|]. split; [exact Hx|].
    split; [exact G1|]. split; [exact G2|]. split; [exact G3|]. split; [exact G4|]. split; [exact G5|]. split.
    + intros k a Hk. rewrite Hsame by (intros kv Hkv; apply Hk; now right). unfold st1. rewrite update_nth_own by exact Hk0.
      destruct (Nat.eqb_spec k k0) as [->|]; [|reflexivity]. cbn [andb]. destruct (str_eqb a a0) eqn:Ea; [|reflexivity].
      apply str_eqb_eq in Ea as ->. destruct (Hk (key, v)); [now left|exact Hadd].
    + intros k a p1 key' v' p2 E' Hadd' Hp2. destruct p1 as [|kv p1]; cbn in E'.
      * injection E' as <- <- <-. destruct (Huniq _ _ Hadd') as (-> & ->). rewrite Hsame by exact Hp2. unfold st1.
        rewrite update_nth_own by exact Hk0. now rewrite Nat.eqb_refl, str_eqb_refl.
      * injection E' as <- ->. eapply Hlast; eauto.
  - injection H as <- <-. exists [], ((key, v) :: params). repeat split; auto.
    + exists key, v, params. auto.
    + intros k a p1 ? ? ? F. destruct p1; discriminate.
  - destruct (IH _ _ _ Hb H) as (pre & post & -> & Hpre & Hx & G1 & G2 & G3 & G4 & G5 & Hsame & Hlast).
    exists ((key, v) :: pre), post. split; [reflexivity|]. split; [constructor; [exact Hno|exact Hpre]|]. split; [exact Hx|].
    split; [exact G1|]. split; [exact G2|]. split; [exact G3|]. split; [exact G4|]. split; [exact G5|]. split.
    + intros k a Hk. apply Hsame. intros kv Hkv. apply Hk. now right.
    + intros k a p1 key' v' p2 E' Hadd' Hp2. destruct p1 as [|kv p1]; cbn in E'.
      * injection E' as <- <- <-. destruct (Hadd _ _ Hadd').
      * injection E' as <- ->. eapply Hlast; eauto.
Qed.

Lemma param_failure : forall params st st' x, set_params params st = (st', Some x) ->
  x = TypeError /\ exists key v, In (key, v) params /\ no_attribute node_of key.
Proof.
  induction params as [|(key, v) params IH]; intros st st' x H; cbn [set_runtime_parameters] in H; [discriminate|].
  destruct (set_parameter_spec st key v) as [(k0 & a0 & _ & _ & l & E)|[(Hno & E)|(Hno & Hadd & E)]]; rewrite E in H.
  - destruct (IH _ _ _ H) as (-> & key' & v' & Hin & Hk). split; [reflexivity|]. exists key', v'. split; [now right|exact Hk].
  - injection H as <- <-. split; [reflexivity|]. exists key, v. split; [now left|exact Hno].
  - destruct (IH _ _ _ H) as (-> & key' & v' & Hin & Hk). split; [reflexivity|]. exists key', v'. split; [now right|exact Hk].
Qed.

End Layer.

Lemma clean_globals_get (lines good : list pystr) (g : dict gval) : NoDup (dkeys g) ->
  forall k, ((In k good \/ declared lines k) -> dget k (clean_globals lines good g) = dget k g) /\
            (~ In k good -> ~ declared lines k -> dget k (clean_globals lines good g) = None).
Proof.
  intros Hg k. rewrite clean_globals_spec by exact Hg.
  rewrite (dget_filter_keys (fun k => str_in k good || declaredb lines k)). split.
  - intros [H|H]; [apply str_in_In in H|apply declared_iff in H]; rewrite H; cbn; [reflexivity|]. now rewrite orb_true_r.
  - intros H1 H2. destruct (str_in k good) eqn:A; [apply str_in_In in A; contradiction|].
    destruct (declaredb lines k) eqn:B; [apply declared_iff in B; contradiction|reflexivity].
Qed.
