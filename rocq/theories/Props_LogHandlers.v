(** C81: where log records go. *)

From Coq Require Import String List NArith ZArith Bool Arith Lia.
From Verif Require Import PyStr PyStrFacts Dict DictFacts PyVal Legacy LogHandlers LogHandlersSpec LogHandlersProofs.
Import ListNotations.

(** After any calls, a record is written to a session log exactly once while the
    log is on, and never otherwise, whatever else is logged to and however
    verbose nxt is. *)
Theorem C81_files :
  forall env s0 es f l, initial_setup env = Ok s0 -> (10 <= l)%Z -> not_restarted f es ->
  copies (File f) l (run es s0) = if logging_to f es then 1 else 0.
Proof.
  intros env s0 es f l E Hl Nr. destruct (started env s0 E) as (S & _ & W & _). rewrite copies_hits by exact Hl.
  pose proof (files_run f l Hl es s0 S (W f l) Nr) as I. change (length (writes f l (run es s0)) = if logging_to f es then 1 else 0).
  destruct (logging_to f es); cbn [file_inv] in I; [destruct I as (i & _ & ->)|rewrite I]; reflexivity.
Qed.
Print Assumptions C81_files.

(** Nothing below the level DEBUG is written anywhere. *)
Theorem C81_floor : forall env s0 es l, initial_setup env = Ok s0 -> (l < 10)%Z -> log l (run es s0) = [].
Proof. intros env s0 es l _ Hl. unfold log. change DEBUG with 10%Z. now rewrite (proj2 (Z.ltb_lt _ _) Hl). Qed.
Print Assumptions C81_floor.

(** A verbosity that is no number and not "socket" raises, and changes nothing;
    in the environment it makes importing nxt fail. *)
Theorem C81_bad_level :
  forall t, t <> lit "socket" -> py_int t = None ->
  (forall s, set_verbosity (Text t) s = Raise ValueError) /\ initial_setup (Some t) = Raise ValueError.
Proof.
  intros t Ht Hi. assert (Q : str_eqb t (lit "socket") = false) by now apply str_eqb_neq.
  assert (R : forall s, set_verbosity (Text t) s = Raise ValueError) by (intros s; unfold set_verbosity; now rewrite Q, Hi).
  split; [exact R|]. unfold initial_setup. now rewrite R.
Qed.
Print Assumptions C81_bad_level.

Lemma times_snoc p es e : times p (es ++ [e]) = times p es + (if p e then 1 else 0).
Proof. unfold times. rewrite filter_app, app_length. cbn [filter]. now destruct (p e). Qed.
Lemma verbose_const e s : verbose_handler (after e s) = verbose_handler s.
Proof.
  destruct e as [v|f|f]; cbn [after]; [|reflexivity|unfold stop_session_log; now destruct (dget f (sessions s))].
  destruct (verbosity_cases v s _ eq_refl) as [[_ E]|[(_ & _ & E)|(z & _ & _ & [[_ E]|[[_ E]|[_ E]]])]]; cbn [after] in E; rewrite E; auto.
  - destruct (verbose_handler s) eqn:V; auto.
  - destruct (verbose_handler s) eqn:V; [destruct (Z.eqb z 1); auto|auto].
Qed.
Lemma run_verbose es s : verbose_handler (run es s) = verbose_handler s.
Proof. induction es as [|e es IH] using rev_ind; [reflexivity|]. now rewrite run_snoc, verbose_const. Qed.

(** Files do not matter for the other places. *)
Lemma file_events k l e s : sound s -> (forall f, k <> File f) -> (forall v, e <> Verbosity v) ->
  filter (hits k l (made (after e s))) (attached (after e s)) = filter (hits k l (made s)) (attached s).
Proof.
  intros S Hk He. destruct e as [v|f|f]; [now destruct (He v)| |].
  - change (made (after (Start f) s)) with (made (extended {| goes := File f; least := 0 |} s)).
    change (attached (after (Start f) s)) with (attached (extended {| goes := File f; least := 0 |} s)).
    rewrite extended_hits by exact S. unfold is_sink. cbn [goes]. destruct (sink_dec (File f) k) as [<-|]; [now destruct (Hk f)|].
    cbn [andb]. apply app_nil_r.
  - cbn [after]. unfold stop_session_log. destruct (dget f (sessions s)) as [i|] eqn:D; auto.
    destruct (s_session _ S f i D) as (h & N & G). apply (detach_other _ _ _ h); auto. rewrite G. intros <-. now destruct (Hk f).
Qed.

(** A record is sent over the socket once for each time this was asked for. *)
Theorem C81_remote :
  forall env s0 es l, initial_setup env = Ok s0 -> (10 <= l)%Z ->
  copies Remote l (run es s0) = times asks_socket ((match env with Some t => [Verbosity (Text t)] | None => [] end) ++ es).
Proof.
  intros env s0 es l E Hl. destruct (started env s0 E) as (S & _ & _ & _ & _).
  assert (B : copies Remote l s0 = times asks_socket (match env with Some t => [Verbosity (Text t)] | None => [] end)).
  { assert (Q : (l <? DEBUG)%Z = false) by (apply Z.ltb_ge; exact Hl). assert (Q0 : (0 <=? l)%Z = true) by (apply Z.leb_le; lia).
    unfold initial_setup in E. destruct env as [t|]; [|injection E as <-; unfold copies, log; rewrite Q; cbn; now rewrite Q0].
    unfold set_verbosity in E. unfold times. cbn [filter asks_socket]. destruct (str_eqb t (lit "socket")).
    - injection E as <-. unfold copies, log. rewrite Q. cbn. now rewrite Q0.
    - destruct (py_int t) as [z|]; [|discriminate]. destruct (Z.eqb z 0).
      + injection E as <-. unfold copies, log. rewrite Q. cbn. now rewrite Q0.
      + destruct (Z.ltb 0 z); [|injection E as <-; unfold copies, log; rewrite Q; cbn; now rewrite Q0].
        destruct (Z.eqb z 1); injection E as <-; unfold copies, log; rewrite Q; cbn; rewrite Q0; [destruct (Z.leb EXECINFO l)|]; reflexivity. }
  induction es as [|e es IH] using rev_ind; [now rewrite app_nil_r|]. rewrite app_assoc, times_snoc, <- IH, run_snoc.
  rewrite !copies_hits by exact Hl. pose proof (run_sound es s0 S) as S'. set (t := run es s0) in *. clearbody t.
  destruct e as [v|f|f]; [|rewrite file_events by (auto; discriminate); cbn [asks_socket]; lia|rewrite file_events by (auto; discriminate); cbn [asks_socket]; lia].
  destruct (verbosity_cases v t _ eq_refl) as [[A ->]|[(A & _ & ->)|(z & A & _ & [[_ ->]|[[_ ->]|[_ ->]]])]]; rewrite A; try lia.
  - rewrite extended_hits, app_length by exact S'. cbn [is_sink goes least]. assert (Q0 : (0 <=? l)%Z = true) by (apply Z.leb_le; lia). cbn. rewrite Q0. reflexivity.
  - destruct (verbose_handler t) as [i|] eqn:V; [|lia]. destruct (s_verbose _ S' i V) as (h & N & G). rewrite (detach_other _ _ _ h) by (auto; congruence). lia.
  - destruct (verbose_handler t) as [i|] eqn:V.
    + destruct (Z.eqb z 1); [|lia]. destruct (s_verbose _ S' i V) as (h & N & G). rewrite set_level_other; [lia|]. exists h. split; congruence.
    + rewrite extended_hits, app_length by exact S'. cbn. lia.
Qed.
Print Assumptions C81_remote.

(** The documented verbosities: 0 nothing, 1 from EXECINFO on, 2 everything.
    What asking for a verbosity [z] should show of a record of level [l]. *)
Definition shows (z l : Z) : bool := (Z.ltb 0 z && (negb (Z.eqb z 1) || Z.leb 18 l)).

(** One call, made once, when the environment does not say anything, does what
    the documentation says.  In general every call adds another output, and
    none is ever taken away. *)
Theorem C81_stderr_unset :
  forall env s0 es l, initial_setup env = Ok s0 -> (10 <= l)%Z ->
  match env with None => True | Some t => t = lit "socket" \/ exists z, py_int t = Some z /\ (z <= 0)%Z end ->
  copies Stderr l (run es s0) = times (asks_for (fun z => shows z l)) es.
Proof.
  intros env s0 es l E Hl He. destruct (started env s0 E) as (S & _ & _ & G & _).
  assert (V0 : verbose_handler s0 = None).
  { unfold initial_setup in E. destruct env as [t|]; [|injection E as <-; reflexivity].
    unfold set_verbosity in E. destruct (str_eqb t (lit "socket")) eqn:Q; [injection E as <-; reflexivity|].
    destruct He as [->|(z & Hz & Hn)]; [rewrite str_eqb_refl in Q; discriminate|]. rewrite Hz in E.
    destruct (Z.eqb z 0); [injection E as <-; reflexivity|]. rewrite (proj2 (Z.ltb_ge 0 z) Hn) in E. injection E as <-. reflexivity. }
  induction es as [|e es IH] using rev_ind.
  - cbn [run fold_left]. rewrite copies_hits by exact Hl.
    destruct (filter (hits Stderr l (made s0)) (attached s0)) as [|i t] eqn:F; [reflexivity|]. exfalso.
    assert (X : In i (filter (hits Stderr l (made s0)) (attached s0))) by (rewrite F; now left). apply filter_In in X as (_ & X). unfold hits in X.
    destruct (nth_error (made s0) i) as [h|] eqn:N; [|discriminate]. unfold is_sink in X. destruct (sink_dec (goes h) Stderr) as [K|]; [|discriminate].
    rewrite (G i h N K) in V0. discriminate.
  - rewrite times_snoc, <- IH, run_snoc. rewrite !copies_hits by exact Hl. pose proof (run_sound es s0 S) as S'.
    pose proof (run_verbose es s0) as V. rewrite V0 in V. set (t := run es s0) in *. clearbody t.
    destruct e as [v|f|f]; [|rewrite file_events by (auto; discriminate); cbn; lia|rewrite file_events by (auto; discriminate); cbn; lia].
    destruct (verbosity_cases v t _ eq_refl) as [[A ->]|[(A & A2 & ->)|(z & A & A2 & [[Hz ->]|[[-> ->]|[Hz ->]]])]]; unfold asks_for.
    + assert (A3 : asks (Verbosity v) = None) by (destruct v as [x|x]; cbn in *; [now rewrite A|discriminate]). rewrite A3.
      rewrite extended_hits, app_length by exact S'. cbn. lia.
    + rewrite A2. lia.
    + rewrite A2. unfold shows. rewrite (proj2 (Z.ltb_ge 0 z)) by lia. cbn. lia.
    + rewrite A2, V. cbn. lia.
    + rewrite A2, V, extended_hits, app_length by exact S'. unfold shows. rewrite (proj2 (Z.ltb_lt 0 z) Hz). cbn [is_sink goes least].
      assert (Q0 : (0 <=? l)%Z = true) by (apply Z.leb_le; lia). unfold is_sink. cbn [goes least]. destruct (sink_dec Stderr Stderr) as [_|N]; [|now destruct N].
      change EXECINFO with 18%Z. destruct (Z.eqb z 1); cbn [negb orb andb]; [destruct (Z.leb 18 l)|rewrite Q0]; reflexivity.
Qed.
Print Assumptions C81_stderr_unset.

(** With a verbosity in the environment there is one output at most: until a 0
    is asked for, after which there is none again; and from the first 1 on only
    records from EXECINFO on are shown. *)
Theorem C81_stderr_set :
  forall t z0 s0 es l, initial_setup (Some t) = Ok s0 -> t <> lit "socket" -> py_int t = Some z0 -> (0 < z0)%Z -> (10 <= l)%Z ->
  copies Stderr l (run es s0) =
    if existsb (asks_for (Z.eqb 0)) es then 0
    else if Z.leb 18 l || negb (existsb (asks_for (Z.eqb 1)) (Verbosity (Text t) :: es)) then 1 else 0.
Proof.
  intros t z0 s0 es l E Ht Hi Hz Hl. destruct (started _ s0 E) as (S & _ & _ & G & At).
  assert (Q : str_eqb t (lit "socket") = false) by now apply str_eqb_neq.
  set (one := existsb (asks_for (Z.eqb 1)) [Verbosity (Text t)]).
  assert (E0 : verbose_handler s0 = Some 1 /\ nth_error (made s0) 1 = Some {| goes := Stderr; least := if one then 18 else 0 |} /\ attached s0 = [0; 1] /\
    forall i h, nth_error (made s0) i = Some h -> goes h = Stderr -> i = 1).
  { assert (V : verbose_handler s0 = Some 1 /\ nth_error (made s0) 1 = Some {| goes := Stderr; least := if one then 18 else 0 |}).
    { unfold initial_setup, set_verbosity in E. rewrite Q, Hi in E.
      rewrite (proj2 (Z.eqb_neq z0 0)), (proj2 (Z.ltb_lt 0 z0)) in E by lia.
      assert (Eo : one = Z.eqb z0 1) by (unfold one, asks_for, asks; cbn [existsb]; rewrite Q, Hi, orb_false_r; apply Z.eqb_sym).
      rewrite Eo. destruct (Z.eqb z0 1); injection E as <-; split; reflexivity. }
    destruct V as (V & N). destruct (At 1 V) as (A & _). repeat split; auto. intros i h N' K. pose proof (G i h N' K) as X. rewrite V in X. now injection X. }
  destruct E0 as (V0 & N0 & A0 & U0).
  assert (I : verbose_handler (run es s0) = Some 1 /\
    nth_error (made (run es s0)) 1 = Some {| goes := Stderr; least := if existsb (asks_for (Z.eqb 1)) (Verbosity (Text t) :: es) then 18 else 0 |} /\
    (In 1 (attached (run es s0)) <-> existsb (asks_for (Z.eqb 0)) es = false) /\
    forall i h, nth_error (made (run es s0)) i = Some h -> goes h = Stderr -> i = 1).
  { induction es as [|e es IH] using rev_ind.
    - cbn [run fold_left]. rewrite A0. repeat split; auto. intros _. right. now left.
    - destruct IH as (V & N & A & U). rewrite run_snoc, verbose_const. split; [exact V|]. pose proof (run_sound es s0 S) as S'.
      set (s := run es s0) in *. clearbody s. rewrite app_comm_cons, !existsb_app.
      remember (existsb (asks_for (Z.eqb 1)) (Verbosity (Text t) :: es)) as b1 eqn:B1. clear B1.
      remember (existsb (asks_for (Z.eqb 0)) es) as b0 eqn:B0. clear B0. cbn [existsb].
      assert (Ext : forall h, goes h <> Stderr -> sound s -> nth_error (made (extended h s)) 1 = nth_error (made s) 1 /\ (In 1 (attached (extended h s)) <-> In 1 (attached s)) /\
                 forall i h0, nth_error (made (extended h s)) i = Some h0 -> goes h0 = Stderr -> i = 1).
      { intros h Hh _. assert (L : 1 < length (made s)) by (apply nth_error_Some; congruence). unfold extended, add_new. cbn [fst made attached]. split; [now apply nth_error_app1|]. split.
        - rewrite in_app_iff. cbn [In]. split; [intros [X|[X|[]]]; [exact X|lia]|auto].
        - intros i h0 Ni. destruct (Nat.lt_ge_cases i (length (made s))) as [Li|Li]; [rewrite nth_error_app1 in Ni by lia; eauto|].
          rewrite nth_error_app2 in Ni by lia. destruct (i - length (made s)) as [|[|n]]; cbn in Ni; try discriminate. injection Ni as <-. contradiction. }
      destruct e as [v|f|f].
      + destruct (verbosity_cases v s _ eq_refl) as [[K ->]|[(K & K2 & ->)|(z & K & K2 & [[Hz' ->]|[[-> ->]|[Hz' ->]]])]]; unfold asks_for.
        * assert (K3 : asks (Verbosity v) = None) by (destruct v as [x|x]; cbn in *; [now rewrite K|discriminate]). rewrite K3. cbn [orb]. rewrite !orb_false_r.
          destruct (Ext {| goes := Remote; least := 0 |}) as (X1 & X2 & X3); auto; [discriminate|]. rewrite X1, X2. auto.
        * rewrite K2. cbn [orb]. rewrite !orb_false_r. auto.
        * rewrite K2. rewrite (proj2 (Z.eqb_neq 1 z)), (proj2 (Z.eqb_neq 0 z)) by lia. cbn [orb]. rewrite !orb_false_r. auto.
        * rewrite K2, V. cbn [Z.eqb orb]. rewrite !orb_false_r, orb_true_r. split; [exact N|]. split; [|exact U].
          unfold detach. cbn [attached]. rewrite filter_In. cbn. split; [intros [_ X]; discriminate|discriminate].
        * rewrite K2, V. rewrite (proj2 (Z.eqb_neq 0 z)) by lia. cbn [orb]. rewrite (Z.eqb_sym 1 z), !orb_false_r. destruct (Z.eqb z 1) eqn:Z1.
          -- rewrite orb_true_r. unfold set_level. cbn [made attached]. split; [rewrite relevel_nth, N; reflexivity|]. split; [exact A|].
             intros i h. rewrite relevel_nth. destruct (nth_error (made s) i) as [h0|] eqn:Ni; [|discriminate]. cbn [option_map]. intros X Gh.
             apply (U i h0 Ni). injection X as <-. destruct (Nat.eqb i 1); exact Gh.
          -- rewrite orb_false_r. auto.
      + cbn [asks_for asks]. rewrite !orb_false_r. destruct (Ext {| goes := File f; least := 0 |}) as (X1 & X2 & X3); auto; [discriminate|].
        change (made (after (Start f) s)) with (made (extended {| goes := File f; least := 0 |} s)).
        change (attached (after (Start f) s)) with (attached (extended {| goes := File f; least := 0 |} s)). rewrite X1, X2. auto.
      + cbn [asks_for asks]. rewrite !orb_false_r. cbn [after]. unfold stop_session_log. destruct (dget f (sessions s)) as [i|] eqn:D; [|auto].
        unfold detach. cbn [made attached]. split; [exact N|]. split; [|exact U]. rewrite filter_In, <- A.
        destruct (s_session _ S' f i D) as (h & Ni & Gh). assert (i <> 1) by (intros ->; rewrite N in Ni; injection Ni as <-; discriminate).
        destruct (Nat.eqb_spec 1 i); [lia|]. cbn. tauto. }
  destruct I as (V & N & A & U). rewrite copies_hits by exact Hl. pose proof (run_sound es s0 S) as S'. set (s := run es s0) in *. clearbody s.
  assert (F : filter (hits Stderr l (made s)) (attached s) = if existsb (Nat.eqb 1) (attached s) && hits Stderr l (made s) 1 then [1] else []).
  { assert (H1 : forall i, hits Stderr l (made s) i = true -> i = 1).
    { intros i X. unfold hits in X. destruct (nth_error (made s) i) as [h|] eqn:Ni; [|discriminate]. unfold is_sink in X. destruct (sink_dec (goes h) Stderr) as [K|]; [eauto|discriminate]. }
    clear A; pose proof (s_nodup _ S') as Nd. induction (attached s) as [|i t' IHt]; [reflexivity|]. inversion Nd as [|? ? Ni Nt]; subst. cbn [filter existsb].
    destruct (hits Stderr l (made s) i) eqn:Hi'.
    - pose proof (H1 i Hi') as ->. rewrite Nat.eqb_refl, Hi'. cbn [orb andb]. f_equal. rewrite IHt by exact Nt.
      destruct (existsb (Nat.eqb 1) t') eqn:X; [|reflexivity]. apply existsb_exists in X as (j & J & X). apply Nat.eqb_eq in X as <-. contradiction.
    - rewrite IHt by exact Nt. destruct (Nat.eqb_spec 1 i) as [<-|]; [rewrite Hi', !andb_false_r; reflexivity|reflexivity]. }
  rewrite F. assert (X : existsb (Nat.eqb 1) (attached s) = negb (existsb (asks_for (Z.eqb 0)) es)).
  { apply eq_true_iff_eq. rewrite negb_true_iff, <- A, existsb_exists. split; [intros (j & J & X); apply Nat.eqb_eq in X as <-; exact J|intros J; exists 1; auto]. }
  rewrite X. destruct (existsb (asks_for (Z.eqb 0)) es); [reflexivity|]. cbn [negb andb]. unfold hits. rewrite N. unfold is_sink. cbn [goes least].
  destruct (sink_dec Stderr Stderr) as [_|K]; [|now destruct K]. cbn [andb].
  destruct (existsb (asks_for (Z.eqb 1)) (Verbosity (Text t) :: es)); cbn [negb orb]; [rewrite orb_false_r; destruct (Z.leb 18 l); reflexivity|].
  rewrite orb_true_r. now rewrite (proj2 (Z.leb_le 0 l)) by lia.
Qed.
Print Assumptions C81_stderr_set.

(** Findings. *)
Definition boot (env : option pystr) : st := match initial_setup env with Ok s => s | Raise _ => nothing end.
Definition verb (z : Z) : event := Verbosity (Num z).

(** Asking for silence after asking for output does not silence. *)
Theorem C81_silence_refuted : initial_setup None = Ok (boot None) /\ copies Stderr 20 (run [verb 1; verb 0] (boot None)) = 1.
Proof. split; reflexivity. Qed.
Print Assumptions C81_silence_refuted.
(** Asking twice shows every record twice. *)
Theorem C81_twice_refuted : initial_setup None = Ok (boot None) /\ copies Stderr 20 (run [verb 1; verb 1] (boot None)) = 2.
Proof. split; reflexivity. Qed.
Print Assumptions C81_twice_refuted.
(** With NXT_VERBOSE=1, asking for everything still shows the same. *)
Theorem C81_more_refuted : initial_setup (Some (lit "1")) = Ok (boot (Some (lit "1"))) /\
  copies Stderr 17 (run [verb 2] (boot (Some (lit "1")))) = 0.
Proof. split; vm_compute; reflexivity. Qed.
Print Assumptions C81_more_refuted.
(** And after silence nothing brings the output back. *)
Theorem C81_again_refuted : initial_setup (Some (lit "1")) = Ok (boot (Some (lit "1"))) /\
  copies Stderr 50 (run [verb 0; verb 2] (boot (Some (lit "1")))) = 0.
Proof. split; vm_compute; reflexivity. Qed.
Print Assumptions C81_again_refuted.
(** Two sessions logging to one file (the name is made of the second they start
    in) write every record twice, and go on once when the log is stopped. *)
Theorem C81_same_file_refuted : forall f,
  copies (File f) 20 (run [Start f; Start f] (boot None)) = 2 /\
  copies (File f) 20 (run [Start f; Start f; Stop f] (boot None)) = 1.
Proof.
  intros f. unfold copies.
  assert (A : log 20 (run [Start f; Start f] (boot None)) = [Nowhere; File f; File f]) by reflexivity.
  assert (B : log 20 (run [Start f; Start f; Stop f] (boot None)) = [Nowhere; File f]).
  { unfold run. cbn [fold_left after]. unfold stop_session_log at 1. unfold make_session_log at 1.
    cbn [add_new sessions]. rewrite dget_dset, str_eqb_refl. reflexivity. }
  rewrite A, B. split; rewrite count_occ_cons_neq by discriminate; rewrite !count_occ_cons_eq by reflexivity; reflexivity.
Qed.
Print Assumptions C81_same_file_refuted.

(** Example: a session that is started, stopped and started again beside
    another, with changes of verbosity. *)
Definition ex_events : list event :=
  [Start (lit "/tmp/a.log"); verb 2; Start (lit "/tmp/b.log"); Stop (lit "/tmp/a.log"); Verbosity (Text (lit "socket")); Start (lit "/tmp/a.log"); Stop (lit "/tmp/b.log")].
Example C81_sample :
  not_restarted (lit "/tmp/a.log") ex_events /\ logging_to (lit "/tmp/a.log") ex_events = true /\ logging_to (lit "/tmp/b.log") ex_events = false /\
  log 17 (run ex_events (boot (Some (lit "2")))) = [Nowhere; Stderr; Remote; File (lit "/tmp/a.log")] /\
  log 17 (run ex_events (boot None)) = [Nowhere; Stderr; Remote; File (lit "/tmp/a.log")].
Proof.
  split; [|repeat split; vm_compute; reflexivity]. intros a b E. unfold ex_events in E.
  do 7 (destruct a as [|? a]; [try discriminate; try reflexivity|injection E as <- E; try discriminate]); try (vm_compute; reflexivity).
  destruct a; discriminate.
Qed.
