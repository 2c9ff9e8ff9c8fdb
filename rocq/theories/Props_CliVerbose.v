(** C82: the verbosity a command asks for, in it and in the processes it starts. *)

From Coq Require Import String List NArith ZArith Bool Arith Lia.
From Verif Require Import PyStr PyStrFacts Dict DictFacts PyVal Legacy FileIOProofs Names NamesSpec NamesProofs LogHandlers LogHandlersSpec LogHandlersProofs Props_LogHandlers CliVerbose.
Import ListNotations.

(** A number reads back as itself. *)
Lemma fold_value s : Forall (fun c => (48 <= c <= 57)%N) s -> forall a,
  fold_left (fun a d => (a * 10 + d)%Z) (map (fun c => (Z.of_N c - 48)%Z) s) (Z.of_nat a) =
  Z.of_nat (fold_left (fun a c => 10 * a + digit_value c) s a).
Proof.
  induction 1 as [|c s Hc F IH]; intros a; [reflexivity|]. cbn [map fold_left]. rewrite <- IH. f_equal. unfold digit_value. lia.
Qed.
Lemma int_numeral s n : numeral s n -> py_int s = Some (Z.of_nat n).
Proof.
  intros (F & Hn & _ & E). assert (M : map (fun d => Z.to_N (48 + d)) (map (fun c => (Z.of_N c - 48)%Z) s) = s).
  { rewrite map_map. rewrite <- map_id. apply map_ext_in. intros c Hc. rewrite Forall_forall in F. pose proof (F c Hc). cbv beta in *. lia. }
  rewrite <- M at 1. rewrite py_int_decimal.
  - f_equal. rewrite E. exact (fold_value s F 0).
  - intros H. apply map_eq_nil in H. contradiction.
  - apply Forall_map. eapply Forall_impl; [|exact F]. intros c Hc. cbv beta in *. lia.
Qed.
Lemma int_dec n : py_int (dec n) = Some (Z.of_nat n).
Proof. apply int_numeral, dec_numeral. Qed.
Lemma dec_not_socket n : dec n <> lit "socket".
Proof. intros E. pose proof (int_dec n) as H. rewrite E in H. vm_compute in H. discriminate. Qed.
Lemma numeral_dec s n : numeral s n -> s <> lit "socket".
Proof. intros H E. apply int_numeral in H. rewrite E in H. vm_compute in H. discriminate. Qed.

Lemma run_one (a : asked) env s : asked_any a = true ->
  apply_verbose a env s = Ok (match env with None => Some (asked_text a) | Some _ => env end, run [Verbosity (asked_level a)] s).
Proof.
  intros H. unfold apply_verbose. rewrite H. unfold run. cbn [fold_left after]. unfold set_verbosity, asked_level.
  set (z := match a with Unasked => 0%Z | Count n => Z.of_nat n | Flag => 1%Z end).
  destruct (Z.eqb z 0); [destruct (verbose_handler s); reflexivity|]. destruct (Z.ltb 0 z); [|reflexivity].
  destruct (verbose_handler s); cbn [add_new]; destruct (Z.eqb z 1); reflexivity.
Qed.

(** With -v, -vv, ... and nothing in the environment a record is shown once, from
    EXECINFO on for -v and always for more; and the same in the processes the
    command starts. *)
Theorem C82_shows :
  forall n l, 0 < n -> (10 <= l)%Z ->
  exists text s child,
    command None (Count n) = Ok (Some text, s) /\ numeral text n /\ initial_setup (Some text) = Ok child /\
    copies Stderr l s = (if shows (Z.of_nat n) l then 1 else 0) /\
    copies Stderr l child = (if shows (Z.of_nat n) l then 1 else 0) /\
    copies Remote l s = 0 /\ copies Remote l child = 0.
Proof.
  intros n l Hn Hl. destruct (initial_setup None) as [s0|] eqn:E0; [|discriminate].
  assert (A : asked_any (Count n) = true) by (cbn; destruct n; [lia|reflexivity]).
  destruct (initial_setup (Some (dec n))) as [c|e] eqn:Ec.
  2: { exfalso. unfold initial_setup, set_verbosity in Ec. rewrite (proj2 (str_eqb_neq _ _) (dec_not_socket n)), int_dec in Ec.
       destruct (Z.eqb (Z.of_nat n) 0); [discriminate|]. destruct (Z.ltb 0 (Z.of_nat n)); [|discriminate].
       cbn [nothing add_new fst verbose_handler] in Ec. destruct (Z.eqb (Z.of_nat n) 1); discriminate. }
  exists (dec n), (run [verb (Z.of_nat n)] s0), c. split; [unfold command; rewrite E0; cbn [bind]; rewrite run_one by exact A; reflexivity|].
  split; [apply dec_numeral|]. split; [exact Ec|].
  assert (P : (0 < Z.of_nat n)%Z) by lia. repeat split.
  - rewrite (C81_stderr_unset None s0 _ l E0 Hl I). unfold times. cbn [filter]. unfold asks_for, verb, asks. now destruct (shows (Z.of_nat n) l).
  - pose proof (C81_stderr_set (dec n) (Z.of_nat n) c [] l Ec (dec_not_socket n) (int_dec n) P Hl) as H. cbn [run fold_left] in H. rewrite H.
    cbn [existsb]. unfold asks_for, asks. rewrite (proj2 (str_eqb_neq _ _) (dec_not_socket n)), int_dec. unfold shows.
    rewrite (proj2 (Z.ltb_lt 0 _) P), (Z.eqb_sym 1), orb_false_r. cbn [andb]. rewrite orb_comm. reflexivity.
  - rewrite (C81_remote None s0 _ l E0 Hl). reflexivity.
  - pose proof (C81_remote (Some (dec n)) c [] l Ec Hl) as H. cbn [run fold_left] in H. rewrite H. rewrite app_nil_r. unfold times. cbn [filter asks_socket].
    now rewrite (proj2 (str_eqb_neq _ _) (dec_not_socket n)).
Qed.
Print Assumptions C82_shows.

(** Without -v nothing is changed: both the command and what it starts show
    what the environment says, nothing when that is unset. *)
Theorem C82_unasked : forall env s, initial_setup env = Ok s -> command env Unasked = Ok (env, s).
Proof. intros env s E. unfold command. now rewrite E. Qed.
Print Assumptions C82_unasked.
Theorem C82_quiet : forall l, exists s, command None Unasked = Ok (None, s) /\ copies Stderr l s = 0 /\ copies Remote l s = 0.
Proof.
  intros l. eexists. split; [reflexivity|]. unfold copies, log. destruct (Z.ltb l DEBUG); [now split|]. cbn. destruct (Z.leb 0 l); now split.
Qed.
Print Assumptions C82_quiet.

(** A verbosity in the environment is kept for the processes started, whatever
    is asked for; in the command itself each record is shown once at most, all
    of them only if neither says 1. *)
Theorem C82_environment_first :
  forall t z n l, numeral t z -> 0 < z -> 0 < n -> (10 <= l)%Z ->
  exists s, command (Some t) (Count n) = Ok (Some t, s) /\
    copies Stderr l s = (if shows (Z.of_nat z) l && shows (Z.of_nat n) l then 1 else 0).
Proof.
  intros t z n l Ht Hz Hn Hl. pose proof (int_numeral t z Ht) as Hi. pose proof (numeral_dec t z Ht) as Hs.
  assert (A : asked_any (Count n) = true) by (cbn; destruct n; [lia|reflexivity]).
  destruct (initial_setup (Some t)) as [s0|e] eqn:E.
  2: { exfalso. unfold initial_setup, set_verbosity in E. rewrite (proj2 (str_eqb_neq _ _) Hs), Hi in E.
       destruct (Z.eqb (Z.of_nat z) 0); [discriminate|]. destruct (Z.ltb 0 (Z.of_nat z)); [|discriminate].
       cbn [nothing add_new fst verbose_handler] in E. destruct (Z.eqb (Z.of_nat z) 1); discriminate. }
  exists (run [verb (Z.of_nat n)] s0). split; [unfold command; rewrite E; cbn [bind]; rewrite run_one by exact A; reflexivity|].
  assert (P : (0 < Z.of_nat z)%Z) by lia. assert (P' : (0 < Z.of_nat n)%Z) by lia.
  rewrite (C81_stderr_set t (Z.of_nat z) s0 _ l E Hs Hi P Hl). cbn [existsb]. unfold asks_for, verb, asks. rewrite (proj2 (str_eqb_neq _ _) Hs), Hi.
  unfold shows. rewrite (proj2 (Z.ltb_lt 0 _) P), (proj2 (Z.ltb_lt 0 _) P'), !(Z.eqb_sym 1), (proj2 (Z.eqb_neq 0 (Z.of_nat n))) by lia. cbn [orb andb].
  rewrite orb_false_r. destruct (Z.eqb (Z.of_nat z) 1), (Z.eqb (Z.of_nat n) 1), (Z.leb 18 l); reflexivity.
Qed.
Print Assumptions C82_environment_first.

(** Finding: with NXT_VERBOSE=0 the flag works in the command but not in the
    processes it starts. *)
Theorem C82_zero_refuted : exists s child,
  command (Some (lit "0")) (Count 2) = Ok (Some (lit "0"), s) /\ initial_setup (Some (lit "0")) = Ok child /\
  copies Stderr 20 s = 1 /\ copies Stderr 20 child = 0.
Proof. eexists; eexists. split; [vm_compute; reflexivity|]. split; [vm_compute; reflexivity|]. split; vm_compute; reflexivity. Qed.
Print Assumptions C82_zero_refuted.

(** Finding: the flag of the old command line puts "True" into the environment,
    with which nxt cannot be imported by the processes started. *)
Theorem C82_legacy_refuted : exists text s, command None Flag = Ok (Some text, s) /\ initial_setup (Some text) = Raise ValueError.
Proof. eexists; eexists. split; [vm_compute; reflexivity|]. vm_compute. reflexivity. Qed.
Print Assumptions C82_legacy_refuted.

(** A server asked to log over the socket sends every record there once and
    shows none, whatever the environment was; one started without being asked
    follows the environment. *)
Theorem C82_server : forall up env l, (10 <= l)%Z ->
  (exists s, initial_setup (fst (server_environment true up env)) = Ok s /\ copies Remote l s = 1 /\ copies Stderr l s = 0) /\
  fst (server_environment false up env) = env.
Proof.
  intros up env l Hl. split; [|reflexivity]. destruct (initial_setup (Some (lit "socket"))) as [s|] eqn:E; [|discriminate].
  exists s. split; [exact E|]. split.
  - pose proof (C81_remote (Some (lit "socket")) s [] l E Hl) as H. exact H.
  - pose proof (C81_stderr_unset (Some (lit "socket")) s [] l E Hl (or_introl eq_refl)) as H. exact H.
Qed.
Print Assumptions C82_server.
(** A verbosity that was set is set again after a server was started. *)
Theorem C82_server_restores : forall socket t, server_environment socket true (Some t) = (if socket then Some (lit "socket") else Some t, (Some t, true)).
Proof. now intros []. Qed.
Print Assumptions C82_server_restores.
(** Finding: one that was not set is "socket" from then on, and so it is when
    the server does not come up, even if it was set; processes started later
    send their records to the socket and show none. *)
Theorem C82_server_leaves_refuted :
  snd (server_environment true true None) = (Some (lit "socket"), true) /\
  forall env, snd (server_environment true false env) = (Some (lit "socket"), false).
Proof. now split. Qed.
Print Assumptions C82_server_leaves_refuted.

Example C82_sample : exists s, command None (Count 1) = Ok (Some (lit "1"), s) /\ log 18 s = [Nowhere; Stderr] /\ log 17 s = [Nowhere].
Proof. eexists. split; [vm_compute; reflexivity|]. split; reflexivity. Qed.
