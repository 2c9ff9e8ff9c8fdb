(** C85: running graphs for a server over a socket. *)

From Coq Require Import String List NArith ZArith Bool Arith Lia.
From Verif Require Import PyStr PyVal Names NamesSpec NamesProofs SocketClient.
Import ListNotations.

(** ** What is sent can be told apart *)

Lemma digit_char n c : In c (dec n) -> (48 <= c <= 57)%N.
Proof. destruct (dec_numeral n) as (D & _). rewrite Forall_forall in D. intros I. exact (D _ I). Qed.
Lemma no_blank n : ~ In BLANK (dec n).
Proof. intros I. apply digit_char in I. unfold BLANK in I. lia. Qed.

Lemma cut_at_blank a b k j : ~ In BLANK a -> ~ In BLANK b -> a ++ repeat BLANK k = b ++ repeat BLANK j -> a = b.
Proof.
  revert b; induction a as [|x a IH]; intros [|y b] Na Nb E; [reflexivity| | |].
  - destruct k as [|k]; [discriminate|]. cbn in E. injection E as E _. subst y. exfalso. apply Nb. now left.
  - destruct j as [|j]; [discriminate|]. cbn in E. injection E as E _. subst x. exfalso. apply Na. now left.
  - cbn in E. injection E as -> E. f_equal. apply IH; [intros I; apply Na; now right|intros I; apply Nb; now right|exact E].
Qed.

Lemma value_grows s : forall a, a * 10 ^ length s <= fold_left (fun a c => 10 * a + digit_value c) s a.
Proof.
  induction s as [|c s IH]; intros a; [cbn; lia|].
  change (fold_left (fun a c => 10 * a + digit_value c) (c :: s) a) with (fold_left (fun a c => 10 * a + digit_value c) s (10 * a + digit_value c)).
  specialize (IH (10 * a + digit_value c)). change (length (c :: s)) with (S (length s)). rewrite Nat.pow_succ_r'. nia.
Qed.
Lemma dec_length n k : 1 <= k -> n < 10 ^ k -> length (dec n) <= k.
Proof.
  intros K L. destruct (dec_numeral n) as (D & N & Z & V). destruct (dec n) as [|c t]; [contradiction|].
  destruct Z as [Z|Z]; [rewrite Z; cbn; lia|]. cbn [hd] in Z.
  assert (C : 1 <= digit_value c). { inversion D; subst. unfold digit_value. lia. }
  pose proof (value_grows t (digit_value c)) as G. change (n = fold_left (fun a c => 10 * a + digit_value c) t (10 * 0 + digit_value c)) in V.
  replace (10 * 0 + digit_value c) with (digit_value c) in V by lia. rewrite <- V in G.
  cbn [length]. destruct (le_lt_dec (S (length t)) k) as [|H]; [assumption|exfalso].
  assert (10 ^ k <= 10 ^ length t) by (apply Nat.pow_le_mono_r; lia). nia.
Qed.
Lemma header_length n : n < 10 ^ HEADER_SIZE -> length (header n) = HEADER_SIZE.
Proof. intros L. unfold header. rewrite app_length, repeat_length. pose proof (dec_length n HEADER_SIZE ltac:(unfold HEADER_SIZE; lia) L). lia. Qed.
Lemma header_inj n m : header n = header m -> n = m.
Proof. intros E. apply dec_inj. exact (cut_at_blank _ _ _ _ (no_blank n) (no_blank m) E). Qed.

Lemma app_same_length (A : Type) (a b r q : list A) : length a = length b -> a ++ r = b ++ q -> a = b /\ r = q.
Proof.
  revert b; induction a as [|x a IH]; intros [|y b] L E; try discriminate L; [now split|].
  cbn in E. injection E as -> E. injection L as L. destruct (IH _ L E) as (-> & ->). now split.
Qed.

(** Of messages shorter than 10^10 bytes, the first one of a stream and what
    follows it are known from the stream. *)
Theorem C85_first : forall m r m' r', length m < 10 ^ 10 -> length m' < 10 ^ 10 ->
  frame m ++ r = frame m' ++ r' -> m = m' /\ r = r'.
Proof.
  intros m r m' r' L L' E. unfold frame in E. rewrite <- !app_assoc in E.
  destruct (app_same_length _ _ _ _ _ (eq_trans (header_length _ L) (eq_sym (header_length _ L'))) E) as (Eh & Er).
  exact (app_same_length _ _ _ _ _ (header_inj _ _ Eh) Er).
Qed.
Print Assumptions C85_first.

(** So two series of messages that give the same stream are the same. *)
Theorem C85_stream : forall ms ms', Forall (fun m => length m < 10 ^ 10) ms -> Forall (fun m => length m < 10 ^ 10) ms' ->
  flat_map frame ms = flat_map frame ms' -> ms = ms'.
Proof.
  assert (NE : forall m r, frame m ++ r <> []).
  { intros m r E. unfold frame, header in E. destruct (dec_numeral (length m)) as (_ & N & _). destruct (dec (length m)); [now apply N|discriminate E]. }
  induction ms as [|m ms IH]; intros [|m' ms'] F F' E; [reflexivity| | |].
  - symmetry in E. now apply NE in E.
  - now apply NE in E.
  - inversion_clear F as [|? ? L Ls]. inversion_clear F' as [|? ? L' Ls']. destruct (C85_first m _ m' _ L L' E) as (-> & E'). f_equal. now apply IH.
Qed.
Print Assumptions C85_stream.

Example C85_frame_sample : frame (lit "hello") = lit "5         hello".
Proof. reflexivity. Qed.

(** ** Commands *)

Section Commands.
Context {Data Stage Runtime : Type}.
Variables (make_stage : Data -> res Stage) (compose : Stage -> res Runtime)
          (exec : Stage -> option (list pystr) -> Runtime -> pyval -> Runtime * option failure).
Notation step := (SocketClient.step Stage Runtime).
Notation client := (SocketClient.client Stage Runtime).
Notation event := (SocketClient.event Stage Runtime).
Notation waiting := (SocketClient.waiting Stage Runtime).
Notation obey := (SocketClient.obey Data Stage Runtime make_stage compose exec).
Notation obey_all := (SocketClient.obey_all Data Stage Runtime make_stage compose exec).

(** The server is told to wait first, and last that it need not any more. *)
Definition enclosed (t : list event) : Prop := exists u, t = Sent _ _ (Wait true) :: u ++ [Sent _ _ (Wait false)].
Lemma waiting_encloses (body : step) s : enclosed (snd (fst (waiting true false body s))).
Proof.
  unfold SocketClient.waiting, send_wait_msg, next, send, recv, skip.
  destruct (replies _ _ s) as [|[] rs];
    match goal with |- context [body ?x] => destruct (body x) as [[s1 t1] r1] end;
    destruct (replies _ _ s1) as [|[] rs1]; cbn [fst snd app];
    match goal with
    | |- enclosed (_ :: _ :: ?t1 ++ [_; _]) => exists (Sent _ _ (Wait false) :: t1 ++ [Sent _ _ (Wait false)]); cbn; now rewrite <- app_assoc
    | |- enclosed (_ :: _ :: ?t1 ++ [_]) => exists (Sent _ _ (Wait false) :: t1); reflexivity
    | |- enclosed (_ :: ?t1 ++ [_; _]) => exists (t1 ++ [Sent _ _ (Wait false)]); cbn; now rewrite <- app_assoc
    | |- enclosed (_ :: ?t1 ++ [_]) => exists t1; reflexivity
    end.
Qed.

(** Whatever the command, its outcome and the server's answers: the server is
    told to wait first and is released last. *)
Theorem C85_released : forall c s, enclosed (snd (fst (obey true false c s))).
Proof. intros [read p|read|order parameters] s; apply waiting_encloses. Qed.

(** ** The connection does not matter *)

(** The same client, but for what the server is going to answer. *)
Definition alike (s s' : client) : Prop :=
  filepath _ _ s = filepath _ _ s' /\ exec_order _ _ s = exec_order _ _ s' /\ stage _ _ s = stage _ _ s' /\ runtime_layer _ _ s = runtime_layer _ _ s'.
(** The graphs that were run. *)
Definition ran (t : list event) : list event := filter (fun e => match e with Ran _ _ _ _ _ _ => true | _ => false end) t.
Lemma ran_app t t' : ran (t ++ t') = ran t ++ ran t'.
Proof. apply filter_app. Qed.
Definition agree (a b : client * list event * option failure) : Prop :=
  alike (fst (fst a)) (fst (fst b)) /\ ran (snd (fst a)) = ran (snd (fst b)) /\ snd a = snd b.
Definition agrees (a b : step) : Prop := forall s s', alike s s' -> agree (a s) (b s').

Lemma agrees_next a b a' b' : agrees a a' -> agrees b b' -> agrees (next _ _ a b) (next _ _ a' b').
Proof.
  intros A B s s' E. specialize (A s s' E). unfold agree, next in *. destruct (a s) as [[s1 t1] r1], (a' s') as [[s2 t2] r2]. cbn [fst snd] in A.
  destruct A as (A1 & A2 & ->). destruct r2; cbn [fst snd]; [auto|]. specialize (B s1 s2 A1). unfold agree in B. destruct (b s1) as [[s3 t3] r3], (b' s2) as [[s4 t4] r4]. cbn [fst snd] in *.
  destruct B as (B1 & B2 & ->). rewrite !ran_app, A2, B2. auto.
Qed.
Lemma wait_quiet c b s s' : alike s s' ->
  exists s1 t1, send_wait_msg Stage Runtime c false b s = (s1, t1, None) /\ alike s1 s' /\ ran t1 = [].
Proof.
  intros A. unfold send_wait_msg, next, send, recv, skip. destruct c; [|eexists _, _; split; [reflexivity|split; [exact A|reflexivity]]].
  destruct (replies _ _ s) as [|[] rs]; (eexists _, _; split; [reflexivity|]); (split; [exact A|reflexivity]).
Qed.
Lemma agrees_waiting c body body' : agrees body body' -> agrees (waiting c false body) (waiting false false body').
Proof.
  intros B s s' E. unfold SocketClient.waiting at 1. destruct (wait_quiet c true s s' E) as (s1 & t1 & -> & A1 & R1).
  unfold SocketClient.waiting, send_wait_msg at 2, skip. specialize (B s1 s' A1). unfold agree in *. destruct (body s1) as [[s2 t2] r2], (body' s') as [[s3 t3] r3]. cbn [fst snd] in B. destruct B as (B1 & B2 & ->).
  destruct (wait_quiet c false s2 s3 B1) as (s4 & t4 & -> & A4 & R4). unfold send_wait_msg, skip. cbn [fst snd]. rewrite !ran_app, R1, R4, B2. cbn. auto.
Qed.
Lemma agrees_change f : (forall s s', alike s s' -> alike (f s) (f s')) -> agrees (change Stage Runtime f) (change Stage Runtime f).
Proof. intros F s s' E. unfold agree, change. cbn. auto. Qed.
Lemma agrees_fails e : agrees (fails Stage Runtime e) (fails Stage Runtime e).
Proof. intros s s' E. unfold agree, fails. cbn. auto. Qed.
Lemma agrees_skip : agrees (skip Stage Runtime) (skip Stage Runtime).
Proof. intros s s' E. unfold agree, skip. cbn. auto. Qed.
Ltac alike_by := intros ? ? (? & ? & ? & ?); unfold alike; cbn; auto.
Lemma agrees_rebuild c : agrees (rebuild_comp Stage Runtime compose c false) (rebuild_comp Stage Runtime compose false false).
Proof.
  apply agrees_waiting. intros s s' E. pose proof E as (_ & _ & Es & _). rewrite <- Es. destruct (stage _ _ s) as [g|]; [|now apply agrees_skip].
  destruct (compose g); [apply agrees_change; [alike_by|exact E]|now apply agrees_fails].
Qed.
Lemma agrees_open c read p : agrees (open_file Data Stage Runtime make_stage compose c false read p) (open_file Data Stage Runtime make_stage compose false false read p).
Proof.
  intros s s' E. unfold open_file. destruct (read p) as [d|e]; [|now apply agrees_fails]. destruct (make_stage d) as [g|e]; [|now apply agrees_fails].
  apply agrees_next; [apply agrees_change; alike_by|apply agrees_rebuild|exact E].
Qed.
Lemma agrees_execute v : agrees (execute Stage Runtime exec v) (execute Stage Runtime exec v).
Proof.
  intros s s' E. pose proof E as (E1 & E2 & E3 & E4). unfold execute. rewrite <- E2, <- E3, <- E4.
  destruct (stage _ _ s) as [g|]; [|now apply agrees_fails]. destruct (runtime_layer _ _ s) as [r|]; [|now apply agrees_fails].
  destruct (exec g _ r v) as [r' f]. split; [|split; reflexivity]. unfold alike. cbn. destruct E as (_ & _ & Es & _). auto.
Qed.
Lemma agrees_nodes c order pv : agrees (run_nodes Stage Runtime compose exec c false order pv) (run_nodes Stage Runtime compose exec false false order pv).
Proof.
  apply agrees_next; [destruct order; [apply agrees_skip|apply agrees_change; alike_by]|].
  intros s s' E. pose proof E as (_ & _ & E3 & E4). rewrite <- E3, <- E4. destruct (stage _ _ s); [|now apply agrees_skip]. destruct pv; [|now apply agrees_fails].
  destruct (runtime_layer _ _ s); [now apply agrees_execute|]. apply agrees_next; [apply agrees_rebuild|apply agrees_execute|exact E].
Qed.
Lemma agrees_run c order pv : agrees (run Stage Runtime compose exec c false order pv) (run Stage Runtime compose exec false false order pv).
Proof.
  apply agrees_waiting. intros s s' E. pose proof (agrees_nodes c order pv s s' E) as A. unfold agree in *.
  destruct (run_nodes _ _ _ _ c false order pv s) as [[s1 t1] r1], (run_nodes _ _ _ _ false false order pv s') as [[s2 t2] r2]. cbn [fst snd] in A. destruct A as (A1 & A2 & ->).
  destruct r2 as [[]|]; cbn [fst snd]; auto. unfold send. destruct c; cbn [fst snd]; rewrite !ran_app, A2; auto.
Qed.
Lemma agrees_refresh c read : agrees (refresh Data Stage Runtime make_stage compose c false read) (refresh Data Stage Runtime make_stage compose false false read).
Proof.
  apply agrees_waiting. intros s s' E. pose proof E as (E1 & _). rewrite <- E1. destruct (filepath _ _ s) as [[|]|]; [now apply agrees_skip| |now apply agrees_skip]. now apply agrees_open.
Qed.
Lemma agrees_obey c x : agrees (obey c false x) (obey false false x).
Proof.
  destruct x as [read p|read|order pv]; [|apply agrees_refresh|apply agrees_run].
  apply agrees_waiting, agrees_next; [apply agrees_change; alike_by|apply agrees_open].
Qed.
Lemma agrees_all c cs : forall s s', alike s s' -> alike (obey_all c false cs s) (obey_all false false cs s').
Proof. induction cs as [|x cs IH]; intros s s' E; [exact E|]. cbn [SocketClient.obey_all]. apply IH. exact (proj1 (agrees_obey c x s s' E)). Qed.

(** With a server that answers anything or nothing, every command after any
    commands runs the same graphs from the same state, ends with the same
    exception or none, and leaves the same client as without a server. *)
Theorem C85_connection : forall cs x rs rs',
  agree (obey true false x (obey_all true false cs (new_client _ _ rs))) (obey false false x (obey_all false false cs (new_client _ _ rs'))).
Proof. intros cs x rs rs'. apply agrees_obey, agrees_all. unfold alike, new_client. cbn. auto. Qed.

(** ** What is run *)

(** The order in force after [said] was asked for. *)
Definition in_force (before : option (list pystr)) (said : list pystr) : option (list pystr) :=
  match said with [] => before | _ => Some said end.
(** The order in force and the state of the graph after runs of [g]. *)
Fixpoint carried (g : Stage) (o : option (list pystr)) (r : Runtime) (runs : list (list pystr * pyval)) : option (list pystr) * Runtime :=
  match runs with
  | [] => (o, r)
  | (said, v) :: t => carried g (in_force o said) (fst (exec g (in_force o said) r v)) t
  end.
Definition as_commands (runs : list (list pystr * pyval)) : list (command Data) := map (fun x => Run _ (fst x) (Ok (snd x))) runs.

Lemma run_alone said v g o r s : stage _ _ s = Some g -> runtime_layer _ _ s = Some r -> exec_order _ _ s = o ->
  exists s', obey false false (Run _ said (Ok v)) s = (s', [Ran _ _ g (in_force o said) r v], match snd (exec g (in_force o said) r v) with Some GraphError => None | f => f end) /\
  stage _ _ s' = Some g /\ runtime_layer _ _ s' = Some (fst (exec g (in_force o said) r v)) /\ exec_order _ _ s' = in_force o said /\ filepath _ _ s' = filepath _ _ s.
Proof.
  intros Es Er Eo. unfold SocketClient.obey, run, SocketClient.waiting, send_wait_msg, skip, run_nodes, next, change, execute, send.
  destruct said as [|x said].
  - unfold in_force, skip. rewrite Es, Er, Eo. destruct (exec g o r v) as [r' [[]|]]; cbn [fst snd app]; (eexists; split; [reflexivity|]); cbn; auto.
  - unfold in_force. cbn [stage runtime_layer exec_order with_order]. rewrite Es, Er. destruct (exec g _ r v) as [r' [[]|]]; cbn [fst snd app]; (eexists; split; [reflexivity|]); cbn; auto.
Qed.
Lemma runs_alone runs : forall g o r s, stage _ _ s = Some g -> runtime_layer _ _ s = Some r -> exec_order _ _ s = o ->
  stage _ _ (obey_all false false (as_commands runs) s) = Some g /\
  (exec_order _ _ (obey_all false false (as_commands runs) s), runtime_layer _ _ (obey_all false false (as_commands runs) s))
  = (fst (carried g o r runs), Some (snd (carried g o r runs))).
Proof.
  induction runs as [|[said v] runs IH]; intros g o r s Es Er Eo; [cbn; now rewrite Eo, Er|].
  cbn [as_commands map SocketClient.obey_all carried fst snd]. destruct (run_alone said v g o r s Es Er Eo) as (s' & -> & E1 & E2 & E3 & _). cbn [fst snd]. exact (IH g _ _ s' E1 E2 E3).
Qed.

(** After any commands, a file is loaded that can be read and composed, and the
    graph is run any number of times, whatever comes of it.  Then another run
    runs the graph of that file, once; it goes on from what the runs since the
    loading have left; and it runs the nodes last asked for.  A GraphError is
    kept from the server's command, any other exception is not. *)
Theorem C85_runs : forall connected cs rs read p d g r runs said v,
  read p = Ok d -> make_stage d = Ok g -> compose g = Ok r ->
  forall s0, s0 = obey_all connected false cs (new_client _ _ rs) ->
  let o := fst (carried g (exec_order _ _ s0) r runs) in
  let from := snd (carried g (exec_order _ _ s0) r runs) in
  forall s t f, obey connected false (Run _ said (Ok v)) (obey_all connected false (Load _ read p :: as_commands runs) s0) = (s, t, f) ->
  ran t = [Ran _ _ g (in_force o said) from v] /\
  runtime_layer _ _ s = Some (fst (exec g (in_force o said) from v)) /\
  f = match snd (exec g (in_force o said) from v) with Some GraphError => None | f => f end /\
  stage _ _ s = Some g /\ filepath _ _ s = Some p.
Proof.
  intros c cs rs read p d g r runs said v Er Em Ec s0 -> o from s t f E.
  set (s1 := obey_all c false cs (new_client _ _ rs)) in *.
  pose proof (agrees_obey c (Run _ said (Ok v)) _ _ (agrees_all c (Load _ read p :: as_commands runs) s1 s1 ltac:(unfold alike; auto))) as A.
  rewrite E in A. clear E. cbn [SocketClient.obey_all] in A.
  assert (L : exists s2, fst (fst (obey false false (Load _ read p) s1)) = s2 /\ stage _ _ s2 = Some g /\ runtime_layer _ _ s2 = Some r /\ exec_order _ _ s2 = exec_order _ _ s1 /\ filepath _ _ s2 = Some p).
  { unfold SocketClient.obey, load, SocketClient.waiting, send_wait_msg, skip, next, change, open_file. rewrite Er, Em.
    unfold rebuild_comp, SocketClient.waiting, send_wait_msg, skip, next, change. cbn [stage with_stage]. rewrite Ec. cbn. eexists; split; [reflexivity|]. cbn. auto. }
  destruct L as (s2 & L & L1 & L2 & L3 & L4). rewrite L in A.
  assert (K : forall runs s, filepath _ _ s = Some p -> (exists r, runtime_layer _ _ s = Some r) -> stage _ _ s = Some g -> filepath _ _ (obey_all false false (as_commands runs) s) = Some p).
  { clear. induction runs as [|[said v] runs IH]; intros s Ef [r Er] Es; [exact Ef|]. cbn [as_commands map SocketClient.obey_all fst snd].
    destruct (run_alone said v g _ r s Es Er eq_refl) as (s' & -> & E1 & E2 & _ & E3). cbn [fst]. apply IH; [congruence|eauto|exact E1]. }
  specialize (K runs s2 L4 (ex_intro _ r L2) L1).
  destruct (runs_alone runs g _ r s2 L1 L2 L3) as (R1 & R2). injection R2 as R2 R3.
  destruct (run_alone said v g _ _ _ R1 R3 R2) as (s' & A' & B1 & B2 & _ & B4). rewrite A' in A. destruct A as ((A1 & _ & A3 & A4) & A5 & A6). cbn [fst snd] in A1, A3, A4, A5, A6.
  split; [exact A5|]. split; [now rewrite A4|]. split; [exact A6|]. split; [now rewrite A3|]. rewrite A1, B4. exact K.
Qed.

(** ** A GraphError is told to the server *)

Definition errs (t : list event) : nat := length (filter (fun e => match e with Sent _ _ Err => true | _ => false end) t).
Lemma errs_app t t' : errs (t ++ t') = errs t + errs t'.
Proof. unfold errs. now rewrite filter_app, app_length. Qed.
Lemma errs_wait b s : errs (snd (fst (send_wait_msg Stage Runtime true false b s))) = 0.
Proof. unfold send_wait_msg, next, send, recv, skip. destruct (replies _ _ s) as [|[] rs]; reflexivity. Qed.
Lemma wait_none b s : snd (send_wait_msg Stage Runtime true false b s) = None.
Proof. unfold send_wait_msg, next, send, recv, skip. destruct (replies _ _ s) as [|[] rs]; reflexivity. Qed.

(** The server is told of an error once when the run fails with a GraphError, and
    never otherwise. *)
Theorem C85_error : forall said v g r s s' t f,
  stage _ _ s = Some g -> runtime_layer _ _ s = Some r ->
  obey true false (Run _ said (Ok v)) s = (s', t, f) ->
  errs t = match snd (exec g (in_force (exec_order _ _ s) said) r v) with Some GraphError => 1 | _ => 0 end.
Proof.
  intros said v g r s s' t f Es Er E. unfold SocketClient.obey, run, SocketClient.waiting in E.
  pose proof (errs_wait true s) as W1. pose proof (wait_none true s) as N1.
  assert (K : alike (fst (fst (send_wait_msg _ _ true false true s))) s).
  { destruct (wait_quiet true true s s ltac:(unfold alike; auto)) as (s1 & t1 & -> & A & _). exact A. }
  destruct (send_wait_msg _ _ true false true s) as [[s1 t1] r1]. cbn [fst snd] in W1, N1, K. subst r1. destruct K as (_ & K2 & K3 & K4).
  assert (G : exists s2 t2 f2, run_nodes Stage Runtime compose exec true false said (Ok v) s1 = (s2, t2, f2) /\ errs t2 = 0 /\ f2 = snd (exec g (in_force (exec_order _ _ s) said) r v)).
  { unfold run_nodes, next, change, skip, execute. destruct said as [|x said]; cbn [stage runtime_layer exec_order with_order in_force]; rewrite ?K2, ?K3, ?K4, ?Es, ?Er.
    - destruct (exec g (exec_order _ _ s) r v) as [r' f']. eexists _, _, _. split; [reflexivity|]. now split.
    - destruct (exec g (Some (x :: said)) r v) as [r' f']. eexists _, _, _. split; [reflexivity|]. now split. }
  destruct G as (s2 & t2 & f2 & G & G1 & G2). rewrite G in E. rewrite <- G2.
  destruct f2 as [[e| |]|]; unfold send in E; cbv beta iota zeta in E;
    pose proof (errs_wait false s2) as W3; destruct (send_wait_msg _ _ true false false s2) as [[s3 t3] r3]; cbn [fst snd] in W3; injection E as _ E _; subst t; rewrite !errs_app; change (errs [Sent Stage Runtime Err]) with 1; lia.
Qed.

(** ** Loading that fails *)

(** A file that cannot be read, or is no graph, leaves the loaded graph and its
    state, but for the path that a refresh reads from. *)
Theorem C85_unreadable : forall connected read p s s' t f,
  (exists e, read p = Raise e) \/ (exists d e, read p = Ok d /\ make_stage d = Raise e) ->
  obey connected false (Load _ read p) s = (s', t, f) ->
  f <> None /\ ran t = [] /\ stage _ _ s' = stage _ _ s /\ runtime_layer _ _ s' = runtime_layer _ _ s /\ exec_order _ _ s' = exec_order _ _ s /\ filepath _ _ s' = Some p.
Proof.
  intros c read p s s' t f B E. pose proof (agrees_obey c (Load _ read p) s s ltac:(unfold alike; auto)) as A. rewrite E in A. clear E.
  assert (L : exists e, obey false false (Load _ read p) s = (with_file _ _ p s, [], Some (Exn e))).
  { unfold SocketClient.obey, load, SocketClient.waiting, send_wait_msg, skip, next, change, open_file.
    destruct B as [[e B]|(d & e & B & B')]; rewrite B, ?B'; exists e; reflexivity. }
  destruct L as (e & L). rewrite L in A. destruct A as ((A1 & A2 & A3 & A4) & A5 & A6). cbn in *. subst f. repeat split; auto. discriminate.
Qed.

(** ** Python 3 *)

(** With a server and Python 3, no command does anything. *)
Theorem C85_python3_refuted : forall c s, obey true true c s = (s, [], Some (Exn TypeError)).
Proof. intros [read p|read|order parameters] s; reflexivity. Qed.
End Commands.

(** ** A small graph *)

(** A graph is a number, and cannot be composed when that is 0; running adds it
    and the number of nodes to what was there; running "/bad" alone fails and
    running "/end" alone leaves the graph. *)
Definition toy_compose (g : nat) : res nat := match g with 0 => Raise ValueError | S _ => Ok 0 end.
Definition toy_exec (g : nat) (o : option (list pystr)) (r : nat) (v : pyval) : nat * option failure :=
  match o with
  | None => (r, Some (Exn TypeError))
  | Some l => (r + g + length l, if str_eqb (concat l) (lit "/bad") then Some GraphError else if str_eqb (concat l) (lit "/end") then Some ExitGraph else None)
  end.
Definition toy_read (p : pystr) : res nat := if str_eqb p (lit "zero") then Ok 0 else if str_eqb p (lit "none") then Raise IOError else Ok (length p).
Notation toy := (SocketClient.obey nat nat nat Ok toy_compose toy_exec).
Notation toy_all := (SocketClient.obey_all nat nat nat Ok toy_compose toy_exec).

(** A file that cannot be composed: the next run runs the new graph from what the
    runs of the old one have left. *)
Theorem C85_uncomposed_refuted : exists Data Stage Runtime make_stage compose exec cs read p d g,
  read p = Ok d /\ make_stage d = Ok g /\ (exists e, compose g = Raise e) /\
  forall rs, exists s t f from v, let s0 := obey_all Data Stage Runtime make_stage compose exec true false cs (new_client _ _ rs) in
  runtime_layer _ _ s0 = Some from /\ stage _ _ s0 <> Some g /\
  obey _ _ _ make_stage compose exec true false (Run _ [lit "/n"] (Ok v)) (fst (fst (obey _ _ _ make_stage compose exec true false (Load _ read p) s0))) = (s, t, f) /\
  In (Ran _ _ g (Some [lit "/n"]) from v) t /\ f = None.
Proof.
  exists nat, nat, nat, Ok, toy_compose, toy_exec, [Load _ toy_read (lit "four"); Run _ [lit "/n"] (Ok VNone)], toy_read, (lit "zero"), 0, 0.
  do 2 (split; [reflexivity|]). split; [now exists ValueError|]. intros rs.
  set (cs := [Load _ toy_read (lit "four"); Run _ [lit "/n"] (Ok VNone)]).
  pose proof (agrees_all Ok toy_compose toy_exec true cs (new_client _ _ rs) (new_client _ _ []) ltac:(unfold alike, new_client; cbn; auto)) as A0.
  cbv zeta. set (s0 := toy_all true false cs (new_client _ _ rs)) in *.
  pose proof (agrees_obey Ok toy_compose toy_exec true (Load _ toy_read (lit "zero")) _ _ A0) as A1.
  destruct A1 as (A1 & _).
  pose proof (agrees_obey Ok toy_compose toy_exec true (Run _ [lit "/n"] (Ok VNone)) _ _ A1) as A2.
  destruct (toy true false (Run _ [lit "/n"] (Ok VNone)) _) as [[s t] f] eqn:E. destruct A2 as (_ & A2 & A3).
  exists s, t, f, 5, VNone. destruct A0 as (_ & _ & A0s & A0r). split; [exact A0r|]. split; [rewrite A0s; discriminate|]. split; [exact E|].
  cbn [snd fst] in A2, A3. split; [|rewrite A3; vm_compute; reflexivity].
  assert (I : In (Ran nat nat 0 (Some [lit "/n"]) 5 VNone) (ran t)) by (rewrite A2; vm_compute; now left). unfold ran in I. apply filter_In in I. tauto.
Qed.
Print Assumptions C85_uncomposed_refuted.

(** A run that leaves the graph on purpose ends the server's command with an
    exception, and no error is told. *)
Theorem C85_exit_refuted : exists Data Stage Runtime make_stage compose exec cs order v,
  forall connected rs, snd (obey Data Stage Runtime make_stage compose exec connected false (Run _ order (Ok v)) (obey_all _ _ _ make_stage compose exec connected false cs (new_client _ _ rs))) = Some ExitGraph.
Proof.
  exists nat, nat, nat, Ok, toy_compose, toy_exec, [Load _ toy_read (lit "four")], [lit "/end"], VNone. intros c rs.
  pose proof (agrees_all Ok toy_compose toy_exec c [Load _ toy_read (lit "four")] (new_client _ _ rs) (new_client _ _ []) ltac:(unfold alike, new_client; cbn; auto)) as A.
  exact (proj2 (proj2 (agrees_obey Ok toy_compose toy_exec c (Run _ [lit "/end"] (Ok VNone)) _ _ A))).
Qed.
Print Assumptions C85_exit_refuted.

(** Two files and runs of them, one of which fails. *)
Example C85_sample :
  let s := toy_all true false [Load _ toy_read (lit "four"); Run _ [lit "/n"; lit "/m"] (Ok VNone); Load _ toy_read (lit "seven"); Run _ [] (Ok VNone)] (new_client _ _ [Okay; Empty; Broken]) in
  toy true false (Run _ [lit "/bad"] (Ok VNone)) s =
  (with_runtime _ _ 13 (with_order _ _ [lit "/bad"] s),
   [Sent _ _ (Wait true); Ran _ _ 5 (Some [lit "/bad"]) 7 VNone; Sent _ _ Err; Sent _ _ (Wait false)], None) /\
  snd (toy true false (Load _ toy_read (lit "none")) s) = Some (Exn IOError) /\ snd (toy true false (Load _ toy_read (lit "zero")) s) = Some (Exn ValueError).
Proof. vm_compute. auto. Qed.

Print Assumptions C85_released.
Print Assumptions C85_connection.
Print Assumptions C85_runs.
Print Assumptions C85_error.
Print Assumptions C85_unreadable.
Print Assumptions C85_python3_refuted.
