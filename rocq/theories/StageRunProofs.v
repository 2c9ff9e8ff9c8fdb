(** Proofs about executing a graph from a start point. *)

From Coq Require Import String List NArith ZArith Bool Arith Lia.
From Verif Require Import PyStr PyStrFacts Dict DictFacts NxtPath PathSpec PyVal NodeIO Runtime RuntimeSpec RuntimeProofs.
From Verif Require Layer.
From Verif Require Import StageRun StageRunSpec.
Import ListNotations.

Lemma session_none evs : session evs [] -> assignments evs.
Proof.
  remember [] as ran eqn:E. intros H. induction H as [|p a rest ran H IH|p inner ir rest ran H1 IH1 H2 IH2]; [constructor| |discriminate].
  constructor; [now exists p, a|now apply IH].
Qed.

(** ** Names that code spares *)

Section Spare.
Variables (node_of : pystr -> option (nat * list nat)) (enabled : pystr -> bool)
          (exec_order : pystr -> list pystr)
          (lines_of : list (dict pyval) -> pystr -> res (list pystr)) (meaning : list pystr -> option prog)
          (real : list (dict pyval) -> dict gval -> pystr -> pystr -> pyval -> res pyval)
          (deepcopy : pyval -> res (option pyval)) (str_of : pyval -> pystr) (builtins : list pystr).
Notation run := (Runtime.run node_of exec_order lines_of meaning real deepcopy builtins).
Notation visit := (Runtime.visit node_of enabled exec_order lines_of meaning real deepcopy builtins).
Notation visit_all := (Runtime.visit_all node_of enabled exec_order lines_of meaning real deepcopy builtins).
Notation execute_nodes := (Runtime.execute_nodes node_of enabled exec_order lines_of meaning real deepcopy str_of builtins).
Notation interp := (Runtime.interp node_of exec_order).
Notation runcode := (Runtime.runcode node_of exec_order).
Variable k : pystr.
Hypothesis Hk : k <> lit "self".

Definition sparing (p : pystr) : Prop :=
  forall o lines code, lines_of o p = Ok lines -> meaning lines = Some code -> spares k code.
Definition all_spare (evs : list event) : Prop := forall p, In (Enter p) evs -> sparing p.

(** From [st] to [st'] some events were logged, and, when [C] and all nodes
    entered spare the name, its value stays. *)
Definition keeps (C : Prop) (st st' : rt) : Prop :=
  exists evs, log st' = log st ++ evs /\
    (NoDup (dkeys (gl st)) -> NoDup (dkeys (gl st'))) /\
    (C -> all_spare evs -> NoDup (dkeys (gl st)) -> dget k (gl st') = dget k (gl st)).

Lemma keeps_trans (C D E : Prop) a b c : (E -> C) -> (E -> D) -> keeps C a b -> keeps D b c -> keeps E a c.
Proof.
  intros HC HD (e1 & L1 & N1 & S1) (e2 & L2 & N2 & S2). exists (e1 ++ e2). split; [|split].
  - now rewrite L2, L1, app_assoc.
  - auto.
  - intros H He Hn. rewrite S2; auto; [apply S1; auto|]; intros p Hp; apply He, in_or_app; auto.
Qed.
Lemma keeps_refl C st : keeps C st st.
Proof. exists []. rewrite app_nil_r. auto. Qed.
Lemma keeps_quiet C st st' : log st' = log st -> gl st' = gl st -> keeps C st st'.
Proof. intros El Eg. exists []. rewrite app_nil_r, Eg, El. auto. Qed.
Lemma keeps_gl (C : Prop) st g : (NoDup (dkeys (gl st)) -> NoDup (dkeys g)) -> (C -> NoDup (dkeys (gl st)) -> dget k g = dget k (gl st)) ->
  keeps C st (with_gl st g).
Proof. intros H1 H2. exists []. cbn. rewrite app_nil_r. auto. Qed.
Lemma keeps_weak (C D : Prop) st st' : (D -> C) -> keeps C st st' -> keeps D st st'.
Proof. intros H (e & L1 & N1 & S1). exists e. auto. Qed.

Definition call_keeps (call : list pystr -> list (pyval * pyval) -> rt -> rt * ended) : Prop :=
  forall ps params st, keeps True st (fst (call ps params st)).

Lemma interp_keeps call : call_keeps call -> forall p st, keeps (spares k p) st (fst (interp call p st)).
Proof.
  intros Hc. induction p as [r|x v p IH|x p IH|x q IH|a v p IH|a p IH|a q IH|t params q IH]; intros st; cbn [Runtime.interp].
  - destruct r; apply keeps_refl.
  - refine (keeps_trans (spares k (SetGlobal x v p)) (spares k p) _ _ _ _ (fun H => H) _ _ (IH _)).
    + intros H. now inversion H.
    + apply keeps_gl; [intros; now apply NoDup_dset|]. intros H _. inversion H; subst. now rewrite dget_dset_other.
  - destruct (dmem x (gl st)); [|apply keeps_refl].
    refine (keeps_trans (spares k (DelGlobal x p)) (spares k p) _ _ _ _ (fun H => H) _ _ (IH _)).
    + intros H. now inversion H.
    + apply keeps_gl; [intros; now apply NoDup_ddel|]. intros H _. inversion H; subst. now rewrite dget_ddel_other.
  - eapply keeps_weak; [|apply IH]. intros H. inversion H. auto.
  - destruct (self_frame st); [|apply keeps_refl].
    eapply keeps_trans with (C := True) (D := spares k p); [auto|intros H; now inversion H| |apply IH]. now apply keeps_quiet.
  - destruct (self_frame st); [|apply keeps_refl]. destruct (dmem a _); [|apply keeps_refl].
    eapply keeps_trans with (C := True) (D := spares k p); [auto|intros H; now inversion H| |apply IH]. now apply keeps_quiet.
  - destruct (self_frame st); [|apply keeps_refl]. eapply keeps_weak; [|apply IH]. intros H. inversion H. auto.
  - assert (Hgo : forall ps, keeps (spares k (Execute t params q)) st
      (fst match call ps params st with
      | (st0, OutOfFuel) => (st0, OutOfFuel)
      | (st0, Normal) => interp call (q None) st0
      | (st0, Exc r) => interp call (q (Some r)) st0
      end)).
    { intros ps. pose proof (Hc ps params st) as K. destruct (call ps params st) as (st1, e1). cbn [fst] in K.
      destruct e1 as [|r|].
      - eapply keeps_trans; [| |exact K|apply IH]; [auto|]. intros H. inversion H. auto.
      - eapply keeps_trans; [| |exact K|apply IH]; [auto|]. intros H. inversion H. auto.
      - eapply keeps_weak; [|exact K]. auto. }
    assert (Hno : keeps (spares k (Execute t params q)) st (fst (interp call (q (Some (Failure ValueError))) st))).
    { eapply keeps_weak; [|apply IH]. intros H. inversion H. auto. }
    destruct t as [[|p ps]|p]; [exact Hno|apply Hgo|]. destruct (node_of p); [apply Hgo|exact Hno].
Qed.

Lemma runcode_keeps call : call_keeps call -> forall p st, keeps (spares k p) st (fst (runcode call p st)).
Proof.
  intros Hc p st. pose proof (interp_keeps call Hc p st) as K. unfold Runtime.runcode.
  destruct (interp call p st) as (st1, [|[]|]); exact K.
Qed.

Lemma clean_keeps lines (g0 g : dict gval) : NoDup (dkeys g) ->
  dget k g = dget k g0 -> dget k (clean_globals lines (dkeys g0) g) = dget k g0.
Proof.
  intros Hg E. destruct (clean_globals_get lines (dkeys g0) g Hg k) as (A & B).
  destruct (in_dec (list_eq_dec N.eq_dec) k (dkeys g0)) as [I|I]; [rewrite A by auto; exact E|].
  apply dget_none in I as F. rewrite F in *. destruct (declaredb lines k) eqn:D.
  - rewrite A; [exact E|]. right. now apply declared_iff.
  - apply B; [exact I|]. intros Q. apply declared_iff in Q. congruence.
Qed.

Lemma run_keeps call : call_keeps call -> forall p c mro st, keeps (sparing p) st (fst (run call p c mro st)).
Proof.
  intros Hc p c mro st. unfold Runtime.run.
  destruct (lines_of (own st) p) as [lines|x] eqn:El; [|apply keeps_refl].
  destruct (load_attrs _ _ _ _ _ _ _ _) as [f|x]; [|apply keeps_refl].
  destruct (meaning lines) as [code|] eqn:Em; [|now apply keeps_quiet].
  set (st1 := with_cached _ _). cbn zeta.
  set (st2 := with_running (with_gl st1 _) true).
  pose proof (runcode_keeps call Hc code st2) as (evs & L3 & N3 & S3).
  assert (N2 : NoDup (dkeys (gl st)) -> NoDup (dkeys (gl st2))). { intros H. now apply NoDup_dset. }
  assert (G2 : dget k (gl st2) = dget k (gl st)). { apply dget_dset_other. exact (not_eq_sym Hk). }
  destruct (runcode call code st2) as (st3, e3). cbn [fst] in *.
  assert (K3 : keeps (sparing p) st st3).
  { exists evs. split; [exact L3|]. split; [auto|]. intros Hs He Hn. rewrite S3, G2; auto. exact (Hs _ _ _ El Em). }
  set (st4 := with_running (with_gl st3 _) false).
  assert (K4 : keeps (sparing p) st st4).
  { exists evs. split; [exact L3|]. split; [intros H; apply clean_nodup; auto|]. intros Hs He Hn. apply clean_keeps; [auto|].
    rewrite S3, G2; auto. exact (Hs _ _ _ El Em). }
  assert (Kp : forall e0, keeps (sparing p) st (fst (match push_back f (nth (length (frames st)) (frames st4) []) (own st4) c with
            | (o, Some x) => (with_own st4 o, Exc (Failure x)) | (o, None) => (with_own st4 o, e0) end))).
  { intros e0. destruct (push_back _ _ _ _) as (o, [x|]); exact K4. }
  destruct e3 as [|[]|]; first [exact K3|exact K4|apply Kp].
Qed.

Lemma visit_keeps call : call_keeps call -> forall p st, keeps True st (fst (visit call p st)).
Proof.
  intros Hc p st. unfold Runtime.visit. destruct (node_of p) as [(c, mro)|]; [|apply keeps_refl].
  destruct (enabled p); [|apply keeps_refl].
  set (st1 := with_log _ _). pose proof (run_keeps call Hc p c mro st1) as (evs & L2 & N2 & S2).
  destruct (run call p c mro st1) as (st2, e2). cbn [fst] in *.
  assert (K : forall tail st3, log st3 = log st2 ++ tail -> gl st3 = gl st2 -> keeps True st st3).
  { intros tail st3 El Eg. exists (Enter p :: evs ++ tail). split; [|split].
    - rewrite El, L2. unfold st1. cbn [with_log log]. now rewrite <- !app_assoc.
    - intros H. rewrite Eg. now apply N2.
    - intros _ Ha Hn. rewrite Eg. apply S2; [apply Ha; now left| |exact Hn].
      intros q Hq. apply Ha. right. apply in_or_app. now left. }
  assert (Kx : forall x e0, exit_time st2 p = x -> keeps True st (fst (let '(st3, x) := x in
            let st4 := with_log st3 (log st3 ++ [Leave p]) in match x with Some r => (st4, Exc r) | None => (st4, e0) end))).
  { intros (st3, x) e0 Ex. assert (log st3 = log st2 /\ gl st3 = gl st2) as (A & B).
    { unfold exit_time in Ex. destruct (dget p (times st2)) as [l|]; [|now injection Ex as <- _].
      destruct (close_first l); [|now injection Ex as <- _]. destruct (last l0 true); now injection Ex as <- _. }
    cbn zeta. destruct x; apply (K [Leave p]); cbn [fst with_log log gl]; congruence. }
  destruct e2 as [|r|]; [apply (Kx _ _ eq_refl)|apply (Kx _ _ eq_refl)|]. apply (K []); [now rewrite app_nil_r|reflexivity].
Qed.
Lemma visit_all_keeps call : call_keeps call -> forall ps st, keeps True st (fst (visit_all call ps st)).
Proof.
  intros Hc. induction ps as [|p ps IH]; intros st; cbn [Runtime.visit_all]; [apply keeps_refl|].
  pose proof (visit_keeps call Hc p st) as K. destruct (visit call p st) as (st1, [|r|]); [|exact K|exact K].
  eapply keeps_trans; [| |exact K|apply IH]; auto.
Qed.
Lemma params_keeps : forall params st, keeps True st (fst (set_runtime_parameters node_of str_of params st)).
Proof.
  induction params as [|kv t IH]; intros st; cbn; [apply keeps_refl|].
  destruct (set_parameter node_of str_of st kv) as [st1|e] eqn:E; [|apply keeps_refl].
  eapply keeps_trans with (C := True) (D := True); [auto|auto| |apply IH]. unfold set_parameter in E.
  destruct (fst kv) as [| | |s| | | |]; try (injection E as <-; apply keeps_refl).
  destruct (node_of (node_path_from_attr_path s)) as [(c, m)|]; [|injection E as <-; apply keeps_refl].
  destruct (attr_name_from_attr_path s) as [a|]; [|discriminate]. injection E as <-.
  exists [Assign (node_path_from_attr_path s) a]. cbn. auto.
Qed.
Lemma execute_keeps : forall fuel, call_keeps (execute_nodes fuel).
Proof.
  induction fuel as [|f IH]; intros ps params st; cbn [Runtime.execute_nodes]; [apply keeps_refl|].
  pose proof (params_keeps params st) as K. destruct (set_runtime_parameters node_of str_of params st) as (st1, [x|]); [exact K|].
  eapply keeps_trans; [| |exact K|apply visit_all_keeps; exact IH]; auto.
Qed.
End Spare.

(** ** The log does not matter *)

Section NoLog.
Variables (node_of : pystr -> option (nat * list nat)) (enabled : pystr -> bool)
          (exec_order : pystr -> list pystr)
          (lines_of : list (dict pyval) -> pystr -> res (list pystr)) (meaning : list pystr -> option prog)
          (real : list (dict pyval) -> dict gval -> pystr -> pystr -> pyval -> res pyval)
          (deepcopy : pyval -> res (option pyval)) (str_of : pyval -> pystr) (builtins : list pystr).
Notation run := (Runtime.run node_of exec_order lines_of meaning real deepcopy builtins).
Notation visit := (Runtime.visit node_of enabled exec_order lines_of meaning real deepcopy builtins).
Notation visit_all := (Runtime.visit_all node_of enabled exec_order lines_of meaning real deepcopy builtins).
Notation execute_nodes := (Runtime.execute_nodes node_of enabled exec_order lines_of meaning real deepcopy str_of builtins).
Notation interp := (Runtime.interp node_of exec_order).
Notation runcode := (Runtime.runcode node_of exec_order).

(** The same but for the log. *)
Record alike (a b : rt) : Prop := {
  a_gl : gl a = gl b; a_frames : frames a = frames b; a_own : own a = own b;
  a_cached : cached a = cached b; a_times : times a = times b; a_running : running a = running b
}.
Definition both (x y : rt * ended) : Prop := alike (fst x) (fst y) /\ snd x = snd y.

Lemma alike_refl a : alike a a.
Proof. now split. Qed.
Lemma alike_form a b : alike a b -> b = with_log a (log b).
Proof. destruct a, b. intros []. cbn in *. subst. reflexivity. Qed.
Lemma alike_log a l : alike a (with_log a l).
Proof. now split. Qed.

Definition call_alike (call : list pystr -> list (pyval * pyval) -> rt -> rt * ended) : Prop :=
  forall ps params a b, alike a b -> both (call ps params a) (call ps params b).

Ltac same := split; [now split|reflexivity].

Lemma interp_alike call : call_alike call -> forall p a b, alike a b -> both (interp call p a) (interp call p b).
Proof.
  intros Hc. induction p as [r|x v p IH|x p IH|x q IH|k v p IH|k p IH|k q IH|t params q IH]; intros s1 s2 H;
    rewrite (alike_form _ _ H); generalize (log s2); intros l; clear H s2; cbn [Runtime.interp];
    change (self_frame (with_log s1 l)) with (self_frame s1); cbn [with_log gl frames own].
  - destruct r; same.
  - apply IH. now split.
  - destruct (dmem x (gl s1)); [apply IH; now split|same].
  - apply IH. now split.
  - destruct (self_frame s1); [apply IH; now split|same].
  - destruct (self_frame s1); [|same]. destruct (dmem k _); [apply IH; now split|same].
  - destruct (self_frame s1); [apply IH; now split|same].
  - assert (Hgo : forall ps,
      both match call ps params s1 with
      | (st0, OutOfFuel) => (st0, OutOfFuel)
      | (st0, Normal) => interp call (q None) st0
      | (st0, Exc r) => interp call (q (Some r)) st0
      end match call ps params (with_log s1 l) with
      | (st0, OutOfFuel) => (st0, OutOfFuel)
      | (st0, Normal) => interp call (q None) st0
      | (st0, Exc r) => interp call (q (Some r)) st0
      end).
    { intros ps. destruct (Hc ps params _ _ (alike_log s1 l)) as (A & B).
      destruct (call ps params s1) as (t1, e1), (call ps params (with_log s1 l)) as (t2, e2). cbn in A, B. subst e2.
      destruct e1; [now apply IH|now apply IH|now split]. }
    destruct t as [[|p ps]|p]; [apply IH; now split|apply Hgo|]. destruct (node_of p); [apply Hgo|apply IH; now split].
Qed.
Lemma runcode_alike call : call_alike call -> forall p a b, alike a b -> both (runcode call p a) (runcode call p b).
Proof.
  intros Hc p a b H. destruct (interp_alike call Hc p a b H) as (A & B). unfold Runtime.runcode.
  destruct (interp call p a) as (t1, e1), (interp call p b) as (t2, e2). cbn in A, B. subst e2.
  destruct e1 as [|[]|]; now split.
Qed.
Lemma run_alike call : call_alike call -> forall p c mro a b, alike a b -> both (run call p c mro a) (run call p c mro b).
Proof.
  intros Hc p c mro s1 s2 H. rewrite (alike_form _ _ H). generalize (log s2). intros l. clear H s2.
  unfold Runtime.run. cbn [with_log own gl frames cached].
  destruct (lines_of (own s1) p) as [lines|x]; [|same].
  destruct (load_attrs _ _ _ _ _ _ _ _) as [f|x]; [|same].
  destruct (meaning lines) as [code|]; [|same]. cbn zeta.
  match goal with |- both match runcode call code ?a with _ => _ end match runcode call code ?b with _ => _ end =>
    destruct (runcode_alike call Hc code a b) as (A & B); [now split|];
    destruct (runcode call code a) as (t1, e1), (runcode call code b) as (t2, e2) end.
  cbn [fst snd] in A, B. subst e2. rewrite (alike_form _ _ A). generalize (log t2). intros l2. clear A t2.
  cbn [with_log with_gl with_running gl frames own cached].
  destruct e1 as [|[]|]; try same; (destruct (push_back _ _ _ _) as (o, [x|]); same).
Qed.
Lemma visit_alike call : call_alike call -> forall p a b, alike a b -> both (visit call p a) (visit call p b).
Proof.
  intros Hc p s1 s2 H. rewrite (alike_form _ _ H). generalize (log s2). intros l. clear H s2.
  unfold Runtime.visit. destruct (node_of p) as [(c, mro)|]; [|same]. destruct (enabled p); [|same].
  match goal with |- both match run call p c mro ?a with _ => _ end match run call p c mro ?b with _ => _ end =>
    destruct (run_alike call Hc p c mro a b) as (A & B); [now split|];
    destruct (run call p c mro a) as (t1, e1), (run call p c mro b) as (t2, e2) end.
  cbn [fst snd] in A, B. subst e2. rewrite (alike_form _ _ A). generalize (log t2). intros l2. clear A t2.
  unfold exit_time. cbn [with_log times].
  destruct e1 as [|r|]; [| |same];
    (destruct (dget p (times t1)) as [t|]; [|same]; destruct (close_first t) as [t'|]; [|same]; destruct (last t' true); same).
Qed.
Lemma visit_all_alike call : call_alike call -> forall ps a b, alike a b -> both (visit_all call ps a) (visit_all call ps b).
Proof.
  intros Hc. induction ps as [|p ps IH]; intros a b H; cbn [Runtime.visit_all]; [now split|].
  destruct (visit_alike call Hc p a b H) as (A & B). destruct (visit call p a) as (t1, e1), (visit call p b) as (t2, e2).
  cbn in A, B. subst e2. destruct e1; [now apply IH|now split|now split].
Qed.
Lemma params_alike : forall params a b, alike a b ->
  alike (fst (set_runtime_parameters node_of str_of params a)) (fst (set_runtime_parameters node_of str_of params b)) /\
  snd (set_runtime_parameters node_of str_of params a) = snd (set_runtime_parameters node_of str_of params b).
Proof.
  induction params as [|kv t IH]; intros s1 s2 H; cbn; [now split|].
  rewrite (alike_form _ _ H). generalize (log s2). intros l. clear H s2. unfold set_parameter.
  destruct (fst kv) as [| | |s| | | |]; try (apply IH; now split).
  destruct (node_of (node_path_from_attr_path s)) as [(c, m)|]; [|apply IH; now split].
  destruct (attr_name_from_attr_path s) as [x|]; [|same]. apply IH. now split.
Qed.
Lemma execute_alike : forall fuel, call_alike (execute_nodes fuel).
Proof.
  induction fuel as [|f IH]; intros ps params a b H; cbn [Runtime.execute_nodes]; [now split|].
  destruct (params_alike params a b H) as (A & B).
  destruct (set_runtime_parameters node_of str_of params a) as (t1, x1), (set_runtime_parameters node_of str_of params b) as (t2, x2).
  cbn in A, B. subst x2. destruct x1; [now split|]. now apply visit_all_alike.
Qed.
End NoLog.

(** ** The world's code and the start *)

Section Stage.
Variables (same same_name : pystr -> pystr -> bool) (bound : nat) (L : Layer.layer)
          (node_of : pystr -> option (nat * list nat))
          (lines_of : list (dict pyval) -> pystr -> res (list pystr)) (meaning : list pystr -> option prog)
          (real : list (dict pyval) -> dict gval -> pystr -> pystr -> pyval -> res pyval)
          (deepcopy : pyval -> res (option pyval)) (str_of : pyval -> pystr) (builtins : list pystr).
Notation exec_order := (StageRun.exec_order same same_name bound L).
Notation order_from := (StageRun.order_from same same_name bound L).
Notation enabled := (StageRun.enabled L).
Notation execute_nodes := (StageRun.execute_nodes same same_name bound L node_of lines_of meaning real deepcopy str_of builtins).
Notation world_code := (StageRun.world_code same same_name bound L node_of).
Notation run_world := (StageRun.run_world same same_name bound L node_of).
Notation setup := (StageRun.setup same same_name bound L node_of lines_of meaning real deepcopy str_of builtins).
Notation execute := (StageRun.execute same same_name bound L node_of lines_of meaning real deepcopy str_of builtins).
Notation start_path := (StageRun.start_path same same_name bound L node_of).
Notation moved := (moved node_of).
Notation call_ok := (call_ok node_of).

Lemma own_quiet c X st f : In c X -> quiet node_of X st (with_own st (update (own st) c f)).
Proof.
  intros H. apply quiet_own. intros j Hj. rewrite nth_update. destruct (Nat.eqb_spec j c); [|reflexivity]. now subst.
Qed.

Lemma world_moved call c mro : call_ok call -> forall p st st' e, world_code call c mro p st = (st', e) -> e <> OutOfFuel ->
  exists evs ran, moved [c] st st' evs ran.
Proof.
  intros Hc.
  assert (Hcall : forall ps params st st' e, call ps params st = (st', e) -> e <> OutOfFuel -> exists evs ran, moved [c] st st' evs ran).
  { intros ps params st st' e H He. destruct (Hc _ _ _ _ _ H He) as (evs & ran & M). exists evs, ran. eapply moved_weak; [|exact M]. intros ? []. }
  induction p as [r|k v p IH|k p IH|k q IH|a v p IH|a p IH|a q IH|t params q IH]; intros st st' e H He; cbn [StageRun.world_code] in H.
  - destruct r; injection H as <- <-; exists [], []; apply moved_refl.
  - destruct (IH _ _ _ H He) as (evs & ran & M). exists evs, ran. eapply quiet_then; [|exact M].
    apply quiet_gl. intros Hn. now apply NoDup_dset.
  - destruct (dmem k (gl st)); [|injection H as <- <-; exists [], []; apply moved_refl].
    destruct (IH _ _ _ H He) as (evs & ran & M). exists evs, ran. eapply quiet_then; [|exact M].
    apply quiet_gl. intros Hn. now apply NoDup_ddel.
  - eapply IH; eauto.
  - destruct (self_of st) as [|i|]; [| |injection H as <- <-; exists [], []; apply moved_refl].
    + destruct (IH _ _ _ H He) as (evs & ran & M). exists evs, ran. eapply quiet_then; [apply own_quiet; now left|exact M].
    + destruct (IH _ _ _ H He) as (evs & ran & M). exists evs, ran. eapply quiet_then; [apply quiet_frames|exact M].
  - destruct (self_of st) as [|i|]; [| |injection H as <- <-; exists [], []; apply moved_refl];
      (destruct (dmem a _); [|injection H as <- <-; exists [], []; apply moved_refl]).
    + destruct (IH _ _ _ H He) as (evs & ran & M). exists evs, ran. eapply quiet_then; [apply own_quiet; now left|exact M].
    + destruct (IH _ _ _ H He) as (evs & ran & M). exists evs, ran. eapply quiet_then; [apply quiet_frames|exact M].
  - destruct (self_of st) as [|i|]; [| |injection H as <- <-; exists [], []; apply moved_refl]; eapply IH; eauto.
  - assert (Hgo : forall ps,
      match call ps params st with
      | (st0, OutOfFuel) => (st0, OutOfFuel)
      | (st0, Normal) => world_code call c mro (q None) st0
      | (st0, Exc r) => world_code call c mro (q (Some r)) st0
      end = (st', e) -> exists evs ran, moved [c] st st' evs ran).
    { intros ps Hps. destruct (call ps params st) as (st1, e1) eqn:E. destruct e1 as [|r|].
      - destruct (Hcall _ _ _ _ _ E) as (e1 & r1 & M1); [discriminate|].
        destruct (IH _ _ _ _ Hps He) as (e2 & r2 & M2). exists (e1 ++ e2), (r1 ++ r2). eapply moved_trans; eauto.
      - destruct (Hcall _ _ _ _ _ E) as (e1 & r1 & M1); [discriminate|].
        destruct (IH _ _ _ _ Hps He) as (e2 & r2 & M2). exists (e1 ++ e2), (r1 ++ r2). eapply moved_trans; eauto.
      - injection Hps as <- <-. congruence. }
    destruct t as [[|p ps]|p].
    + eapply IH; eauto.
    + now apply (Hgo (p :: ps)).
    + destruct (node_of p); [now apply (Hgo (exec_order p))|eapply IH; eauto].
Qed.

Lemma run_world_moved call c mro : call_ok call -> forall p st st' e, run_world call c mro p st = (st', e) -> e <> OutOfFuel ->
  exists evs ran, moved [c] st st' evs ran.
Proof.
  intros Hc p st st' e H He. unfold StageRun.run_world in H. destruct (world_code call c mro p st) as (st1, e1) eqn:E.
  assert (st1 = st') as -> by (destruct e1 as [|[]|]; cbv iota in H; congruence).
  eapply world_moved; [exact Hc|exact E|]. intros ->. cbv iota in H. congruence.
Qed.

Lemma nodes_ok f : call_ok (execute_nodes f).
Proof. unfold StageRun.execute_nodes. apply execute_call_ok. Qed.

(** *** Setting up *)
Lemma console_nodup : NoDup (dkeys console_globals).
Proof.
  repeat (constructor; [intros Z; apply str_in_In in Z; vm_compute in Z; discriminate Z|]). constructor.
Qed.

(** What the log of setting up can be. *)
Definition setup_log (params : list (pyval * pyval)) (l : list event) (e : ended) : Prop :=
  exists set, assignments set /\
  match e with
  | Normal => exists inner ran, session inner ran /\ l = set ++ Enter (lit "/") :: inner ++ [Leave (lit "/")]
  | Exc r =>
      (l = set /\ ((r = Failure TypeError /\ exists key v, In (key, v) params /\ no_attribute node_of key) \/
                   (exists x, r = Failure x /\ exists o, lines_of o (lit "/") = Raise x) \/
                   (r = GraphError /\ exists o lines, lines_of o (lit "/") = Ok lines /\ meaning lines = None))) \/
      (exists inner ran, session inner ran /\ l = set ++ Enter (lit "/") :: inner)
  | OutOfFuel => True
  end.

Lemma setup_spec fuel o params st e c m : node_of (lit "/") = Some (c, m) ->
  setup fuel o params = (st, e) -> e <> OutOfFuel ->
  setup_log params (log st) e /\ (e = Normal -> NoDup (dkeys (gl st))) /\
  forall j, j <> c -> ~ touches node_of (log st) j -> nth j (own st) [] = nth j o [].
Proof.
  intros Hw H He. unfold StageRun.setup in H.
  destruct (set_runtime_parameters node_of str_of params (fresh o)) as (st1, x) eqn:Ep.
  destruct (params_moved node_of str_of _ _ _ _ Ep) as (set & M). assert (A : assignments set) by (apply session_none; apply M).
  assert (L1 : log st1 = set) by apply M.
  assert (O1 : forall j, ~ touches node_of set j -> nth j (own st1) [] = nth j o []). { intros j Hj. apply M; [intros []|exact Hj]. }
  destruct x as [x|].
  { injection H as <- <-. split; [|split; [discriminate|intros j _ Hj; apply O1; now rewrite <- L1]].
    exists set. split; [exact A|]. left. split; [exact L1|]. left.
    destruct (param_failure node_of str_of _ _ _ _ Ep) as (-> & Hk). split; [reflexivity|exact Hk]. }
  change WORLD with (lit "/") in H. rewrite Hw in H. cbn zeta in H.
  set (st2 := with_gl st1 console_globals) in H.
  assert (L2 : log st2 = set) by exact L1. assert (O2 : own st2 = own st1) by reflexivity.
  destruct (lines_of (own st2) (lit "/")) as [lines|x] eqn:El.
  2:{ injection H as <- <-. split; [|split; [discriminate|intros j _ Hj; apply O1; now rewrite <- L2]].
      exists set. split; [exact A|]. left. split; [exact L2|]. right. left. exists x. split; [reflexivity|]. now exists (own st2). }
  destruct (meaning lines) as [code|] eqn:Em.
  2:{ injection H as <- <-. split; [|split; [discriminate|intros j _ Hj; apply O1; now rewrite <- L2]].
      exists set. split; [exact A|]. left. split; [exact L2|]. right. right. split; [reflexivity|]. now exists (own st2), lines. }
  set (st3 := with_log st2 _) in H. destruct (run_world (execute_nodes fuel) c m code st3) as (st4, e4) eqn:Er.
  assert (He4 : e4 <> OutOfFuel). { intros ->. congruence. }
  destruct (run_world_moved _ _ _ (nodes_ok fuel) _ _ _ _ Er He4) as (inner & ran & M4).
  assert (L4 : log st4 = set ++ Enter (lit "/") :: inner).
  { rewrite (m_log _ _ _ _ _ _ M4). unfold st3. cbn [with_log log]. rewrite L2, <- app_assoc. reflexivity. }
  assert (O4 : forall j, j <> c -> ~ touches node_of (log st4) j -> nth j (own st4) [] = nth j o []).
  { intros j Hj Ht. rewrite (m_own _ _ _ _ _ _ M4).
    - change (own st3) with (own st1). apply O1. intros F. apply Ht. rewrite L4. apply touches_app. now left.
    - intros [F|[]]. now apply Hj.
    - intros F. apply Ht. rewrite L4. apply touches_app. right. change (Enter (lit "/") :: inner) with ([Enter (lit "/")] ++ inner).
      apply touches_app. now right. }
  assert (S4 : session inner ran) by apply M4.
  destruct e4 as [|r|].
  - injection H as <- <-. split; [|split].
    + exists set. split; [exact A|]. exists inner, ran. split; [exact S4|]. cbn [with_log log]. rewrite L4, <- app_assoc. reflexivity.
    + intros _. cbn [with_log gl]. apply (m_nodup _ _ _ _ _ _ M4). exact console_nodup.
    + intros j Hj Ht. cbn [with_log own]. apply O4; [exact Hj|]. intros F. apply Ht. cbn [with_log log]. apply touches_app. now left.
  - injection H as <- <-. split; [|split; [discriminate|exact O4]].
    exists set. split; [exact A|]. right. now exists inner, ran.
  - congruence.
Qed.

(** *** The start *)
Definition listed : list pystr := filter (fun k => negb (str_eqb k (lit "/"))) (dkeys (Layer.nodes L)).

Lemma flagged_spec o : forall ps, match flagged node_of o ps with
  | Ok r => (exists f, Forall (fun p => start_flag node_of o p (f p)) ps /\ r = filter f ps)
  | Raise e => e = AttributeError /\ exists p, In p ps /\ forall b, ~ start_flag node_of o p b
  end.
Proof.
  induction ps as [|p ps IH]; cbn [flagged].
  { exists (fun _ => true). now split. }
  destruct (node_of p) as [(c, mro)|] eqn:En.
  2:{ split; [reflexivity|]. exists p. split; [now left|]. intros b (c & m & v & E & _). congruence. }
  change START_POINT with (lit "_start_point"). destruct (attr_of o mro (lit "_start_point")) as [v|] eqn:Ea.
  2:{ split; [reflexivity|]. exists p. split; [now left|]. intros b (c' & m & v & E & F & _). congruence. }
  destruct (flagged node_of o ps) as [r|e]; cbn [bind].
  2:{ destruct IH as (-> & q & Hq & Hb). split; [reflexivity|]. exists q. split; [now right|exact Hb]. }
  destruct IH as (f & Hf & ->).
  exists (fun q => match node_of q with Some (_, m) => match attr_of o m (lit "_start_point") with Some w => truthy w | None => false end | None => false end).
  assert (Hall : Forall (fun q => start_flag node_of o q
     (match node_of q with Some (_, m) => match attr_of o m (lit "_start_point") with Some w => truthy w | None => false end | None => false end)) (p :: ps)).
  { constructor; [exists c, mro, v; rewrite En, Ea; auto|]. eapply Forall_impl; [|exact Hf].
    intros q (c' & m & w & E & F & G). exists c', m, w. rewrite E, F. auto. }
  split; [exact Hall|]. cbn [filter]. rewrite En, Ea.
  assert (forall q, In q ps -> f q = match node_of q with Some (_, m) => match attr_of o m (lit "_start_point") with Some w => truthy w | None => false end | None => false end) as Hq.
  { intros q Hq. rewrite Forall_forall in Hf. destruct (Hf q Hq) as (c' & m & w & E & F & G). now rewrite E, F. }
  rewrite (filter_ext_in _ _ _ Hq). reflexivity.
Qed.

Lemma flag_fun o p a b : start_flag node_of o p a -> start_flag node_of o p b -> a = b.
Proof. intros (c & m & v & E & F & G) (c' & m' & v' & E' & F' & G'). congruence. Qed.

Lemma filter_first {A} (f : A -> bool) : forall l x r, filter f l = x :: r ->
  exists a b, l = a ++ x :: b /\ f x = true /\ Forall (fun y => f y = false) a.
Proof.
  induction l as [|y l IH]; intros x r H; cbn in H; [discriminate|]. destruct (f y) eqn:E.
  - injection H as <- _. exists [], l. auto.
  - destruct (IH _ _ H) as (a & b & -> & Hx & Ha). exists (y :: a), b. auto.
Qed.

Lemma start_nodes_eq o : start_nodes same same_name bound L node_of o = flagged node_of o listed.
Proof. reflexivity. Qed.

Lemma start_begins s o p : start_path s o = Ok p -> begins node_of listed o s p.
Proof.
  intros H. assert (G : bind (start_nodes same same_name bound L node_of o)
                        (fun ps => match ps with [] => Raise ValueError | p :: _ => Ok p end) = Ok p ->
    exists before after, listed = before ++ p :: after /\ start_flag node_of o p true /\ Forall (fun q => start_flag node_of o q false) before).
  { clear H. rewrite start_nodes_eq. pose proof (flagged_spec o listed) as F.
    destruct (flagged node_of o listed) as [r|e]; cbn [bind]; [|discriminate]. destruct F as (f & Hf & ->).
    destruct (filter f listed) as [|q r] eqn:E; [discriminate|]. intros [= ->].
    destruct (filter_first _ _ _ _ E) as (a & b & El & Hp & Ha). exists a, b. split; [exact El|].
    rewrite El in Hf. apply Forall_app in Hf as (H1 & H2). inversion H2 as [|? ? H3 _]; subst. split; [now rewrite Hp in H3|].
    rewrite Forall_forall in *. intros y Hy. specialize (H1 y Hy). now rewrite (Ha y Hy) in H1. }
  destruct s as [|q|v]; cbn in H; [exact (G H)| |exact (G H)].
  destruct (node_of q) eqn:E; [|discriminate]. injection H as <-. split; congruence.
Qed.

Lemma start_fails s o e : start_path s o = Raise e -> (forall p, ~ begins node_of listed o s p \/ e = AttributeError) /\
  (e = ValueError \/ e = AttributeError /\ exists p, In p listed /\ forall b, ~ start_flag node_of o p b).
Proof.
  intros H.
  assert (G : bind (start_nodes same same_name bound L node_of o)
                        (fun ps => match ps with [] => Raise ValueError | p :: _ => Ok p end) = Raise e ->
    (e = ValueError /\ Forall (fun q => start_flag node_of o q false) listed) \/
    e = AttributeError /\ exists p, In p listed /\ forall b, ~ start_flag node_of o p b).
  { clear H. rewrite start_nodes_eq. pose proof (flagged_spec o listed) as F.
    destruct (flagged node_of o listed) as [r|x]; cbn [bind].
    2:{ intros [= <-]. now right. }
    destruct F as (f & Hf & ->). destruct (filter f listed) as [|q r] eqn:E; [|discriminate]. intros [= <-]. left. split; [reflexivity|].
    rewrite Forall_forall in *. intros q Hq. specialize (Hf q Hq). destruct (f q) eqn:Eq; [|exact Hf].
    assert (In q (filter f listed)) as I by now apply filter_In. rewrite E in I. destruct I. }
  assert (K : (e = ValueError /\ Forall (fun q => start_flag node_of o q false) listed) \/
      e = AttributeError /\ (exists p, In p listed /\ forall b, ~ start_flag node_of o p b) ->
     (forall p, ~ (exists before after, listed = before ++ p :: after /\ start_flag node_of o p true /\
           Forall (fun q => start_flag node_of o q false) before) \/ e = AttributeError) /\
     (e = ValueError \/ e = AttributeError /\ exists p, In p listed /\ forall b, ~ start_flag node_of o p b)).
  { intros [(-> & Hf)|(-> & Hx)]; [|auto]. split; [|auto]. intros p. left. intros (a & b & E & Ht & _).
    rewrite E in Hf. apply Forall_app in Hf as (_ & Hf). inversion Hf as [|? ? H3 _]; subst. pose proof (flag_fun _ _ _ _ Ht H3). discriminate. }
  destruct s as [|q|v]; cbn in H; [exact (K (G H))| |exact (K (G H))].
  destruct (node_of q) eqn:E; [discriminate|]. injection H as <-. split; [|now left]. intros p. left. intros (-> & F). congruence.
Qed.

(** *** The world's code when it executes nothing *)
Lemma world_tidy call c mro : ~ In c mro -> forall p, tidy p -> forall st, dget SELF (gl st) = Some (GOther 0) -> c < length (own st) ->
  exists g f r, world_eval (attr_of (own st) mro) p (gl st) (nth c (own st) []) = (g, f, r) /\
    world_code call c (c :: mro) p st = (with_own (with_gl st g) (update (own st) c (fun _ => f)), match r with None => Normal | Some x => Exc x end).
Proof.
  intros Hm.
  assert (Hsame : forall st, c < length (own st) -> with_own (with_gl st (gl st)) (update (own st) c (fun _ => nth c (own st) [])) = st).
  { intros [g fr o ca t ru l] Hi. unfold with_own, with_gl. cbn in *. now rewrite update_here. }
  assert (Hattr : forall o f a, attr_of (update o c f) mro a = attr_of o mro a).
  { intros o f a. revert Hm. induction mro as [|x m IH]; intros Hx; cbn; [reflexivity|]. rewrite nth_update.
    destruct (Nat.eqb_spec x c) as [->|]; [destruct Hx; now left|]. cbn. rewrite IH; [reflexivity|]. intros F. apply Hx. now right. }
  assert (Hev : forall b1 b2 p, (forall a, b1 a = b2 a) -> forall g f, world_eval b1 p g f = world_eval b2 p g f).
  { intros b1 b2 p Hb. induction p as [r|k v p IH|k p IH|k q IH|a v p IH|a p IH|a q IH|t params q IH]; intros g f; cbn; auto.
    - destruct (dmem k g); auto.
    - destruct (dmem a f); auto.
    - rewrite Hb. apply IH. }
  intros p Hp. induction Hp as [r|k v p Hk Hp IH|k p Hk Hp IH|k q Hq IH|a v p Hp IH|a p Hp IH|a q Hq IH]; intros st Hs Hi;
    assert (Hsf : self_of st = World) by (unfold self_of; now rewrite Hs).
  - exists (gl st), (nth c (own st) []), r. cbn. rewrite Hsame by exact Hi. split; [reflexivity|]. now destruct r.
  - cbn [world_eval StageRun.world_code]. apply (IH (with_gl st (dset k v (gl st)))); [|exact Hi]. cbn [with_gl gl].
    rewrite dget_dset_other; [exact Hs|exact Hk].
  - cbn [world_eval StageRun.world_code]. destruct (dmem k (gl st)) eqn:Em.
    + apply (IH (with_gl st (ddel k (gl st)))); [|exact Hi]. cbn [with_gl gl]. rewrite dget_ddel_other; [exact Hs|exact Hk].
    + eexists _, _, _. split; [reflexivity|]. rewrite Hsame by exact Hi. reflexivity.
  - cbn [world_eval StageRun.world_code]. apply IH; assumption.
  - cbn [world_eval StageRun.world_code]. rewrite Hsf. destruct (IH (with_own st (update (own st) c (dset a v)))) as (g & f' & r & E1 & E2).
    + exact Hs.
    + cbn. now rewrite update_length.
    + exists g, f', r. cbn [with_own own gl] in E1. rewrite nth_update_same in E1 by exact Hi.
      rewrite (Hev _ (attr_of (own st) mro)) in E1 by (intros; apply Hattr). split; [exact E1|]. rewrite E2.
      f_equal. unfold with_own, with_gl. cbn. f_equal. now rewrite update_twice.
  - cbn [world_eval StageRun.world_code]. rewrite Hsf. destruct (dmem a (nth c (own st) [])).
    2:{ eexists _, _, _. split; [reflexivity|]. rewrite Hsame by exact Hi. reflexivity. }
    destruct (IH (with_own st (update (own st) c (ddel a)))) as (g & f' & r & E1 & E2).
    + exact Hs.
    + cbn. now rewrite update_length.
    + exists g, f', r. cbn [with_own own gl] in E1. rewrite nth_update_same in E1 by exact Hi.
      rewrite (Hev _ (attr_of (own st) mro)) in E1 by (intros; apply Hattr). split; [exact E1|]. rewrite E2.
      f_equal. unfold with_own, with_gl. cbn. f_equal. now rewrite update_twice.
  - cbn [world_eval StageRun.world_code]. rewrite Hsf. cbn [attr_of]. apply IH; assumption.
Qed.

(** *** Parameters *)
Lemma world_alike call c mro : call_alike call -> forall p a b, alike a b -> both (world_code call c mro p a) (world_code call c mro p b).
Proof.
  intros Hc. induction p as [r|x v p IH|x p IH|x q IH|k v p IH|k p IH|k q IH|t params q IH]; intros s1 s2 H;
    rewrite (alike_form _ _ H); generalize (log s2); intros l; clear H s2; cbn [StageRun.world_code];
    change (self_of (with_log s1 l)) with (self_of s1); cbn [with_log gl frames own].
  - destruct r; split; now try split.
  - apply IH. now split.
  - destruct (dmem x (gl s1)); [apply IH; now split|split; now try split].
  - apply IH. now split.
  - destruct (self_of s1); [apply IH; now split|apply IH; now split|split; now try split].
  - destruct (self_of s1); [| |split; now try split]; (destruct (dmem k _); [apply IH; now split|split; now try split]).
  - destruct (self_of s1); [apply IH; now split|apply IH; now split|split; now try split].
  - assert (Hgo : forall ps,
      both match call ps params s1 with
      | (st0, OutOfFuel) => (st0, OutOfFuel)
      | (st0, Normal) => world_code call c mro (q None) st0
      | (st0, Exc r) => world_code call c mro (q (Some r)) st0
      end match call ps params (with_log s1 l) with
      | (st0, OutOfFuel) => (st0, OutOfFuel)
      | (st0, Normal) => world_code call c mro (q None) st0
      | (st0, Exc r) => world_code call c mro (q (Some r)) st0
      end).
    { intros ps. destruct (Hc ps params _ _ (alike_log s1 l)) as (A & B).
      destruct (call ps params s1) as (t1, e1), (call ps params (with_log s1 l)) as (t2, e2). cbn in A, B. subst e2.
      destruct e1; [now apply IH|now apply IH|now split]. }
    destruct t as [[|p ps]|p]; [apply IH; now split|apply Hgo|]. destruct (node_of p); [apply Hgo|apply IH; now split].
Qed.

Lemma params_only : forall params st, exists l, fst (set_runtime_parameters node_of str_of params st)
  = with_log (with_own st (own (fst (set_runtime_parameters node_of str_of params st)))) l.
Proof.
  induction params as [|kv t IH]; intros st; cbn; [exists (log st); now destruct st|].
  destruct (set_parameter node_of str_of st kv) as [st1|e] eqn:E; [|exists (log st); now destruct st].
  destruct (IH st1) as (l & El). exists l. rewrite El. cbn [with_log with_own own]. generalize (own (fst (set_runtime_parameters node_of str_of t st1))).
  intros o. unfold set_parameter in E. destruct (fst kv) as [| | |s| | | |]; try (injection E as <-; reflexivity).
  destruct (node_of (node_path_from_attr_path s)) as [(c, m)|]; [|injection E as <-; reflexivity].
  destruct (attr_name_from_attr_path s) as [a|]; [|discriminate]. now injection E as <-.
Qed.

Lemma setup_params fuel o params st : set_runtime_parameters node_of str_of params (fresh o) = (st, None) ->
  both (setup fuel o params) (setup fuel (own st) []).
Proof.
  intros E. unfold StageRun.setup. rewrite E. cbn [set_runtime_parameters].
  destruct (params_only params (fresh o)) as (l & El). rewrite E in El. cbn [fst] in El.
  clear E. revert El. generalize (own st) at 1. intros o1 ->.
  destruct (node_of WORLD) as [(c, mro)|]; [|split; now try split]. cbn zeta. cbn [with_gl with_log with_own fresh own].
  destruct (lines_of o1 WORLD) as [lines|x]; [|split; now try split].
  destruct (meaning lines) as [code|]; [|split; now try split].
  unfold StageRun.run_world. match goal with |- both match match world_code ?cl c mro code ?a with _ => _ end with _ => _ end
     match match world_code _ _ _ _ ?b with _ => _ end with _ => _ end =>
    destruct (world_alike cl c mro ltac:(unfold StageRun.execute_nodes; apply execute_alike) code a b) as (A & B); [now split|];
    destruct (world_code cl c mro code a) as (t1, e1), (world_code cl c mro code b) as (t2, e2) end.
  cbn [fst snd] in A, B. subst e2. rewrite (alike_form _ _ A). generalize (log t2). intros l2.
  destruct e1 as [|[]|]; split; now try split.
Qed.
End Stage.
