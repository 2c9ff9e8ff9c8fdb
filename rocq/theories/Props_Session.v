(** C56: what a session keeps loaded, which graph it hands out for a path, and
    what becomes of the rpc server, for every history of calls. *)

From Coq Require Import String List NArith ZArith Bool Arith Lia.
From Verif Require Import PyStr PyStrFacts NamesSpec Session SessionSpec SessionProofs.
Import ListNotations.

Section Statements.
Variable normcase : pystr -> pystr.
Let step := step normcase.
Let run := run normcase.

(** A preferred name that is not empty always leads to a name no loaded graph
    has: the preferred one if it is free, or else the first free one among the
    preferred one followed by 1, 2, …  *)
Theorem C56_unused_name s name : name <> [] ->
  exists r, (exists enough, forall fuel, enough <= fuel -> get_unused_graph_name s fuel name = Some r) /\
    free_name s r /\ (free_name s name -> r = name) /\
    (~ free_name s name -> first_free (free_name s) name 0 r).
Proof.
  intros N. destruct (unused_name s name N) as (r & H & K). exists r. split; [|exact K].
  exists (length (loaded s) + 2). intros fuel L. apply H. lia.
Qed.

(** With an empty preferred name that no graph has, the search never ends. *)
Theorem C56_empty_name_refuted s : free_name s [] ->
  forall fuel, get_unused_graph_name s fuel [] = None.
Proof. apply unused_empty. Qed.

(** What each call does to the loaded graphs.  A uid that is not in use when
    the graph is opened is added at the end; nothing else changes.  *)
Theorem C56_loaded s c :
  (forall f t, loads normcase s c f t -> new_uid s t ->
     exists g, holds f g /\ loaded (snd (step s c)) = loaded s ++ [(t, g)]) /\
  (forall t, c = NewFile t -> new_uid s t ->
     exists g, g_name g = lit "untitled" /\ g_layers g = [[]] /\
       fst (step s c) = Graph t /\ loaded (snd (step s c)) = loaded s ++ [(t, g)]) /\
  (forall uid, c = UnloadFile uid ->
     without_uid uid (loaded s) (loaded (snd (step s c))) /\
     (new_uid s uid -> fst (step s c) = NotLoaded) /\ (~ new_uid s uid -> fst (step s c) = Done)) /\
  ((forall f t, ~ loads normcase s c f t) -> (forall t, c <> NewFile t) ->
   (forall uid, c <> UnloadFile uid) -> (forall uid n, c <> SetName uid n) ->
   (forall uid p, c <> SetPath uid p) -> loaded (snd (step s c)) = loaded s).
Proof.
  split; [|split; [|split]].
  - intros f t L N. exists (stage_of_file f). split; [apply stage_of_file_holds|].
    unfold step. rewrite (step_loads normcase s c f t L). now apply put_new.
  - intros t -> N. exists (stage_of_name UNTITLED). unfold step. rewrite step_new.
    repeat split. cbn [snd set_loaded loaded]. now apply put_new.
  - intros uid ->. unfold without_uid, step. cbn [Session.step]. unfold unload_file.
    destruct (filter (fun r => Z.eqb (fst r) uid) (loaded s)) as [|r l] eqn:E.
    + split; [|split; [reflexivity|]].
      * cbn [snd]. symmetry. rewrite <- app_nil_r. induction (loaded s) as [|x l IH]; [reflexivity|].
        cbn in E |- *. destruct (Z.eqb (fst x) uid); [discriminate|]. cbn. f_equal. now apply IH.
      * intros X. exfalso. apply X. intros g I.
        assert (J : In (uid, g) (filter (fun r => Z.eqb (fst r) uid) (loaded s)))
          by (apply filter_In; split; [exact I|apply Z.eqb_refl]).
        rewrite E in J. exact J.
    + split; [reflexivity|split; [|reflexivity]]. intros N. exfalso.
      assert (J : In r (filter (fun r => Z.eqb (fst r) uid) (loaded s))) by (rewrite E; now left).
      apply filter_In in J as (J & F). destruct r as [k g]. cbn in F. apply Z.eqb_eq in F as ->.
      exact (N g J).
  - intros L NN NU NS NP. unfold step. destruct c; cbn [Session.step].
    + exfalso. exact (NN t eq_refl).
    + destruct f as [x|]; [|reflexivity]. exfalso. apply (L x t). now left.
    + exfalso. exact (NU uid eq_refl).
    + unfold save_file. destruct (loaded s) eqn:E; exact E.
    + apply get_stage_loaded. intros x -> U. apply (L x t). right. eauto.
    + rewrite execute_graph_eq, execute_loaded. apply get_stage_loaded. intros x -> U.
      apply (L x t). right. exists path. split; [exact U|]. right. left. eauto.
    + rewrite execute_nodes_eq, execute_loaded. apply get_stage_loaded. intros x -> U.
      apply (L x t). right. exists path. split; [exact U|]. right. right. eauto.
    + exfalso. exact (NS uid n eq_refl).
    + exfalso. exact (NP uid p eq_refl).
    + apply start_loaded.
    + apply shutdown_loaded.
Qed.

(** After any history no two loaded graphs share a uid.  *)
Theorem C56_uids r v cs : NoDup (map fst (loaded (run (new_session r v) cs))).
Proof. apply run_uids. constructor. Qed.

(** A graph opened at a clock reading that another graph already has as its uid
    takes its place: the other graph is not loaded any more. *)
Theorem C56_same_reading_refuted r v cs f t :
  let s := run (new_session r v) cs in
  loaded (snd (step s (LoadFile (Some f) t))) <> [] /\
  forall g, In (t, g) (loaded (snd (step s (LoadFile (Some f) t)))) -> holds f g.
Proof.
  cbn zeta. cbn [step Session.step load_file snd set_loaded loaded]. split.
  - intros E. pose proof (put_in t (stage_of_file f) (loaded (run (new_session r v) cs))) as I.
    rewrite E in I. exact I.
  - intros g I. apply put_lost in I; [|apply C56_uids]. subst g. apply stage_of_file_holds.
Qed.

(** A new graph is meant to get a name no loaded graph has.  In fact it is
    always called "untitled": any two new graphs have the same name. *)
Theorem C56_new_name_refuted s t t' : new_uid s t -> new_uid s t' -> t <> t' ->
  exists g g', loaded (run s [NewFile t; NewFile t']) = loaded s ++ [(t, g); (t', g')] /\
    g_name g = lit "untitled" /\ g_name g' = lit "untitled".
Proof.
  intros N N' D. exists (stage_of_name UNTITLED), (stage_of_name UNTITLED).
  unfold run, Session.run. cbn [fold_left]. rewrite !step_new. cbn [snd set_loaded loaded].
  rewrite (put_new t) by exact N. rewrite put_new; [|].
  - rewrite <- app_assoc. repeat split.
  - intros g' I. apply in_app_or in I as [I|[I|[]]]; [exact (N' _ I)|congruence].
Qed.

(** get_stage hands out the first loaded graph filed under the normalised path
    and changes nothing; if there is none it loads the file. *)
Theorem C56_get_stage s p f t :
  (forall pre uid g post, loaded s = pre ++ (uid, g) :: post -> g_path g = normcase p ->
     (forall u h, In (u, h) pre -> g_path h <> normcase p) ->
     step s (GetStage p f t) = (Graph uid, s)) /\
  (unfiled s (normcase p) -> step s (GetStage p f t) = step s (LoadFile f t)) /\
  (f = None -> unfiled s (normcase p) -> step s (GetStage p f t) = (OpenFailed, s)).
Proof.
  split; [|split].
  - intros pre uid g post E P N. exact (get_stage_finds normcase s p f t pre uid g post E P N).
  - intros U. exact (get_stage_loads normcase s p f t U).
  - intros -> U. exact (get_stage_loads normcase s p None t U).
Qed.

(** "If the file is not already loaded, it will be": but no file counts as
    loaded.  As long as no file has an entry '_filepath' (no saved file has one)
    and nobody sets a path, get_stage loads the file again each time, and hands
    out a different graph each time. *)
Theorem C56_never_found_refuted r v cs p f t t' : Forall pathless cs ->
  normcase p <> lit "untitled.nxt" -> f_own_path f = None ->
  let s := run (new_session r v) cs in
  new_uid s t -> new_uid s t' -> t <> t' ->
  fst (step s (GetStage p (Some f) t)) = Graph t /\
  fst (step (snd (step s (GetStage p (Some f) t))) (GetStage p (Some f) t')) = Graph t' /\
  exists g, holds f g /\
    loaded (run s [GetStage p (Some f) t; GetStage p (Some f) t']) = loaded s ++ [(t, g); (t', g)].
Proof.
  intros P Np O s N N' D.
  assert (U : all_untitled s) by (apply run_untitled; [exact P|intros ? ? []]).
  assert (F : unfiled s (normcase p)) by (intros u g I E; apply Np; rewrite <- E; exact (U u g I)).
  set (s1 := snd (step s (GetStage p (Some f) t))).
  assert (E1 : step s (GetStage p (Some f) t) = load_file s (Some f) t) by (exact (get_stage_loads normcase s p _ t F)).
  assert (U1 : all_untitled s1) by (apply step_untitled; [exact O|exact U]).
  assert (F1 : unfiled s1 (normcase p)) by (intros u g I E; apply Np; rewrite <- E; exact (U1 u g I)).
  assert (E2 : step s1 (GetStage p (Some f) t') = load_file s1 (Some f) t') by (exact (get_stage_loads normcase s1 p _ t' F1)).
  split; [now rewrite E1|]. split; [now rewrite E2|].
  exists (stage_of_file f). split; [apply stage_of_file_holds|].
  change (run s [GetStage p (Some f) t; GetStage p (Some f) t']) with (snd (step s1 (GetStage p (Some f) t'))).
  rewrite E2. cbn [load_file snd set_loaded loaded].
  assert (L1 : loaded s1 = loaded s ++ [(t, stage_of_file f)]).
  { unfold s1. rewrite E1. cbn [load_file snd set_loaded loaded]. now apply put_new. }
  rewrite L1, put_new.
  - now rewrite <- app_assoc.
  - intros g I. apply in_app_or in I as [I|[I|[]]]; [exact (N' _ I)|congruence].
Qed.

(** And under "untitled.nxt" it hands out the graph that was loaded first,
    whatever file that came from. *)
Theorem C56_wrong_graph_refuted r v cs p f t uid g rest : Forall pathless cs ->
  normcase p = lit "untitled.nxt" ->
  let s := run (new_session r v) cs in
  loaded s = (uid, g) :: rest -> step s (GetStage p f t) = (Graph uid, s).
Proof.
  intros P E s L. apply (get_stage_finds normcase s p f t [] uid g rest L); [|intros ? ? []].
  rewrite E. assert (U : all_untitled s) by (apply run_untitled; [exact P|intros ? ? []]).
  apply (U uid g). rewrite L. now left.
Qed.

(** save_file never saves: it raises as soon as any graph is loaded, and answers
    False otherwise.  The session stays as it was. *)
Theorem C56_save_refuted s p q :
  snd (step s (SaveFile p q)) = s /\ fst (step s (SaveFile p q)) <> Bool true /\
  (loaded s <> [] -> fst (step s (SaveFile p q)) = BadKey).
Proof.
  unfold step. cbn [Session.step]. unfold save_file.
  destruct (loaded s) eqn:E; repeat split; try discriminate. congruence.
Qed.

(** Executing never leaves a server behind: from a session that starts with no
    server, after every history of calls, failed ones too, no server runs, if
    nobody starts one directly, servers answer before the fifth check or never
    and obey, and the graphs given to execute_nodes compose. *)
Theorem C56_no_server_left v cs : Forall tame cs ->
  running (run (new_session false v) cs) = false /\ owned (run (new_session false v) cs) = false.
Proof.
  intros T. destruct (run_quiet normcase (new_session false v) cs T) as (O & R).
  - split; reflexivity.
  - split; [exact R|exact O].
Qed.

(** A server that somebody else runs is never shut down. *)
Theorem C56_other_server_kept v cs :
  running (run (new_session true v) cs) = true /\ owned (run (new_session true v) cs) = false.
Proof.
  destruct (run_foreign normcase (new_session true v) cs) as (O & R).
  - split; reflexivity.
  - split; [exact R|exact O].
Qed.

(** A server is left running, for good, in each of three cases.  First: it
    answers at the fifth check.  The call fails although the server is there. *)
Theorem C56_fifth_check_refuted s f t fails b cs p : owned s = false -> running s = false ->
  standalone b = true -> port_free b = true -> answers b = Some 5 -> unfiled s (normcase p) ->
  let c := ExecuteGraph p (Some f) t true fails b in
  fst (step s c) = ServerFailed /\ running (run (snd (step s c)) cs) = true.
Proof.
  intros O R S P A U c.
  assert (E : step s c = (ServerFailed, {| loaded := put t (stage_of_file f) (loaded s); owned := false;
                                          running := true; verbosity := verbosity s |})).
  { unfold step, c. cbn [Session.step]. rewrite execute_graph_eq, get_stage_loads by exact U.
    cbn [load_file execute]. rewrite graph_at_put. unfold start_rpc_server.
    cbn [set_loaded running owned verbosity loaded]. rewrite S, R, P, A, O. reflexivity. }
  rewrite E. split; [reflexivity|]. apply run_foreign. split; reflexivity.
Qed.

(** Second: the graph given to execute_nodes calls graphs and does not compose;
    the session keeps the server, and the next execution that needs a server
    makes it forget it. *)
Theorem C56_build_fails_refuted s f t fails b k p : owned s = false -> running s = false ->
  standalone b = true -> port_free b = true -> answers b = Some k -> k < 5 ->
  unfiled s (normcase p) -> (forall g, holds f g -> calls_graphs g) ->
  let c := ExecuteNodes p (Some f) t true fails b in
  fst (step s c) = GraphFailed /\ running (snd (step s c)) = true /\ owned (snd (step s c)) = true.
Proof.
  intros O R S P A L U C c. unfold step, c. cbn [Session.step].
  rewrite execute_nodes_eq, get_stage_loads by exact U.
  cbn [load_file execute]. rewrite graph_at_put. unfold start_rpc_if_needed.
  rewrite (proj2 (needs_iff (stage_of_file f)) (C _ (stage_of_file_holds f))).
  unfold start_rpc_server.
  cbn [set_loaded running owned verbosity loaded]. rewrite S, R, P, wait_ends, A. cbn [negb].
  destruct (Nat.leb_spec 5 k); [lia|]. repeat split.
Qed.

(** Third: the session owns a running server, and executes anything that needs
    a server.  It does not own the server afterwards, and no later call of the
    session shuts it down. *)
Theorem C56_forgotten_server_refuted s f t fails b p cs : running s = true -> standalone b = true ->
  unfiled s (normcase p) ->
  let s' := snd (step s (ExecuteGraph p (Some f) t true fails b)) in
  owned s' = false /\ running (run s' cs) = true.
Proof.
  intros R S U s'.
  assert (F : foreign s').
  { unfold s', step. cbn [Session.step]. rewrite execute_graph_eq, get_stage_loads by exact U.
    cbn [load_file execute]. rewrite graph_at_put. unfold start_rpc_server.
    cbn [set_loaded running owned verbosity loaded]. rewrite S, R. cbn [negb snd].
    split; reflexivity. }
  split; [apply F|]. apply run_foreign. exact F.
Qed.

(** A local execution asks for a server exactly when a layer of the graph has
    one of the two nodes that call graphs: with the port taken by a stranger it
    fails for those graphs and runs for all others. *)
Theorem C56_server_needed s f t fails b p : running s = false -> standalone b = true ->
  port_free b = false -> unfiled s (normcase p) ->
  let r := fst (step s (ExecuteGraph p (Some f) t false fails b)) in
  forall g, holds f g ->
    (calls_graphs g -> r = ServerFailed) /\
    (~ calls_graphs g -> r = if fails then GraphFailed else Done).
Proof.
  intros R S P U r g H.
  assert (E : calls_graphs g <-> calls_graphs (stage_of_file f)).
  { unfold calls_graphs. destruct H as (_ & _ & _ & _ & ->). reflexivity. }
  rewrite E. clear E.
  unfold r, step. cbn [Session.step]. rewrite execute_graph_eq, get_stage_loads by exact U.
  cbn [load_file execute]. rewrite graph_at_put. unfold start_rpc_if_needed.
  destruct (existsb _ (g_layers (stage_of_file f))) eqn:E.
  - split; [|intros N; exfalso; apply N; now apply needs_iff].
    intros _. unfold start_rpc_server. cbn [set_loaded running owned verbosity loaded].
    rewrite S, R, P. reflexivity.
  - split; [|reflexivity]. intros C. apply needs_iff in C. congruence.
Qed.

(** The verbosity variable is left alone by every call but a start with socket
    logging.  That one puts back a value that was set if the server answers in
    time; otherwise it leaves "socket" behind. *)
Theorem C56_verbosity s c :
  ((forall b, c <> StartServer true b) -> verbosity (snd (step s c)) = verbosity s) /\
  (forall b v, c = StartServer true b -> verbosity s = Some v -> fst (step s c) = Done ->
     verbosity (snd (step s c)) = Some v).
Proof.
  split; [apply step_verbosity|]. intros b v -> V. unfold step. cbn [Session.step]. unfold start_rpc_server.
  destruct (standalone b), (running s), (port_free b); cbn [negb]; try (intros; exact V).
  destruct (wait_count _ _ _ =? _); [discriminate|]. intros _. cbn. now rewrite V.
Qed.

Theorem C56_verbosity_refuted s b k : running s = false -> standalone b = true -> port_free b = true ->
  answers b = Some k -> (verbosity s = None \/ 5 <= k) ->
  verbosity (snd (step s (StartServer true b))) = Some (lit "socket").
Proof.
  intros R S P A D. unfold step. cbn [Session.step]. unfold start_rpc_server.
  rewrite R, S, P, wait_ends, A. cbn [negb]. destruct (Nat.leb_spec 5 k); [reflexivity|].
  destruct D as [D|D]; [|lia]. cbn. now rewrite D.
Qed.

End Statements.

(** *** The hypotheses can be met *)

Definition ex_file : file :=
  {| f_alias := None; f_own_path := None; f_base := lit "a.nxt";
     f_layers := [[lit "/"; lit "/n"]; [lit "/"; lit "/_sub_graph"]] |}.
Definition ex_calm : behaviour :=
  {| standalone := true; port_free := true; answers := Some 2; obeys := true |}.
Definition ex_slow : behaviour :=
  {| standalone := true; port_free := true; answers := Some 5; obeys := true |}.
Definition ex_same (p : pystr) : pystr := p.
Definition ex_calls : list call :=
  [NewFile 1; ExecuteGraph (lit "a.nxt") (Some ex_file) 2 false true ex_calm;
   UnloadFile 1; ExecuteNodes (lit "a.nxt") (Some ex_file) 3 false false ex_calm;
   GetStage (lit "b.nxt") None 4].

Example C56_ex_tame : Forall tame ex_calls /\ Forall pathless ex_calls.
Proof.
  assert (P : prompt ex_calm) by (split; [reflexivity|intros k E; injection E as <-; repeat constructor]).
  unfold ex_calls. split.
  - apply Forall_cons; [exact I|]. apply Forall_cons; [exact P|]. apply Forall_cons; [exact I|].
    apply Forall_cons; [split; [reflexivity|exact P]|]. apply Forall_cons; [exact I|]. apply Forall_nil.
  - apply Forall_cons; [exact I|]. apply Forall_cons; [reflexivity|]. apply Forall_cons; [exact I|].
    apply Forall_cons; [reflexivity|]. apply Forall_cons; [exact I|]. apply Forall_nil.
Qed.
Example C56_ex_run : map fst (loaded (Session.run ex_same (new_session false None) ex_calls)) = [2; 3]%Z.
Proof. vm_compute. reflexivity. Qed.
Example C56_ex_needs : forall g, holds ex_file g -> calls_graphs g.
Proof.
  intros g (_ & _ & _ & _ & E). exists [lit "/"; lit "/_sub_graph"]. rewrite E. split.
  - right. now left.
  - right. right. now left.
Qed.
Example C56_ex_unused :
  get_unused_graph_name (Session.run ex_same (new_session false None) [NewFile 1]) 5 (lit "untitled")
  = Some (lit "untitled1").
Proof. vm_compute. reflexivity. Qed.
(** The third case of a forgotten server is reached by the second. *)
Example C56_ex_leak :
  let s := Session.run ex_same (new_session false None)
    [ExecuteNodes (lit "a.nxt") (Some ex_file) 1 true false ex_calm] in
  running s = true /\ owned s = true /\ unfiled s (lit "a.nxt").
Proof.
  cbn zeta. split; [vm_compute; reflexivity|]. split; [vm_compute; reflexivity|].
  intros uid g I. vm_compute in I. destruct I as [E|[]]. injection E as <- <-. vm_compute. discriminate.
Qed.
Example C56_ex_slow : fst (Session.step ex_same (new_session false None)
    (ExecuteGraph (lit "a.nxt") (Some ex_file) 1 true false ex_slow)) = ServerFailed.
Proof. vm_compute. reflexivity. Qed.

Print Assumptions C56_unused_name.
Print Assumptions C56_empty_name_refuted.
Print Assumptions C56_loaded.
Print Assumptions C56_uids.
Print Assumptions C56_same_reading_refuted.
Print Assumptions C56_new_name_refuted.
Print Assumptions C56_get_stage.
Print Assumptions C56_never_found_refuted.
Print Assumptions C56_wrong_graph_refuted.
Print Assumptions C56_save_refuted.
Print Assumptions C56_no_server_left.
Print Assumptions C56_other_server_kept.
Print Assumptions C56_fifth_check_refuted.
Print Assumptions C56_build_fails_refuted.
Print Assumptions C56_forgotten_server_refuted.
Print Assumptions C56_server_needed.
Print Assumptions C56_verbosity.
Print Assumptions C56_verbosity_refuted.
