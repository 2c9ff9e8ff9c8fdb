(** C75: executing a graph in another context. *)

From Coq Require Import String List NArith ZArith Bool Arith Lia.
From Verif Require Import PyStr PyStrFacts Dict DictFacts PyVal Cli Headless HeadlessSpec.
Import ListNotations.

(** A context is found by its name: the first one registered with it, so that
    registering another with the same name changes nothing. *)
Theorem C75_context :
  forall known name,
  match find_context_by_name known name with
  | Some c => first_named known name c
  | None => Forall (fun c => c_name c <> name) known
  end.
Proof.
  induction known as [|c t IH]; intros name; [constructor|]. cbn [find_context_by_name]. destruct (str_eqb (c_name c) name) eqn:E.
  - apply str_eqb_eq in E. exists [], t. repeat split; [exact E|constructor].
  - assert (Hn : c_name c <> name) by (intros F; rewrite F, str_eqb_refl in E; discriminate). specialize (IH name).
    destruct (find_context_by_name t name) as [x|].
    + destruct IH as (b & a & -> & Hx & Hb). exists (c :: b), a. repeat split; [exact Hx|]. now constructor.
    + now constructor.
Qed.
Theorem C75_registered_first :
  forall known c c' name, find_context_by_name known name = Some c ->
  find_context_by_name (register_context known c') name = Some c.
Proof.
  unfold register_context. induction known as [|x t IH]; intros c c' name H; [discriminate|]. cbn [app find_context_by_name] in *.
  destruct (str_eqb (c_name x) name); [exact H|now apply IH].
Qed.
Theorem C75_registered :
  forall known c, (forall x, In x known -> c_name x <> c_name c) ->
  find_context_by_name (register_context known c) (c_name c) = Some c.
Proof.
  unfold register_context. induction known as [|x t IH]; intros c H; cbn [app find_context_by_name].
  - now rewrite str_eqb_refl.
  - destruct (str_eqb (c_name x) (c_name c)) eqn:E; [apply str_eqb_eq in E; destruct (H x); [now left|exact E]|].
    apply IH. intros y Hy. apply H. now right.
Qed.

Lemma rooted_no_dash p : rooted p -> startswith (lit "-") p = false /\ str_in p [lit "-p"; lit "--parameters"] = false /\ str_eqb p (lit "--") = false.
Proof. intros (r & ->). repeat split. Qed.

Lemma parse_values l : Forall rooted l -> forall path acc, parse_exec l (Some path) (Some acc) = Some (path, acc ++ l).
Proof.
  induction 1 as [|t l Ht _ IH]; intros path acc; cbn [parse_exec]; [now rewrite app_nil_r|].
  destruct (rooted_no_dash t Ht) as (A & B & _). rewrite A, B, IH, <- app_assoc. reflexivity.
Qed.
Lemma no_dashes l : Forall (fun a => a <> lit "--") l -> from_dashes l = None.
Proof.
  induction 1 as [|a l Ha _ IH]; [reflexivity|]. cbn [from_dashes]. destruct (str_eqb a (lit "--")) eqn:E; [apply str_eqb_eq in E; contradiction|exact IH].
Qed.
Lemma dashes_after l r : Forall (fun a => a <> lit "--") l -> from_dashes (l ++ lit "--" :: r) = Some (lit "--" :: r).
Proof.
  induction 1 as [|a l Ha _ IH]; [reflexivity|]. cbn [app from_dashes]. destruct (str_eqb a (lit "--")) eqn:E; [apply str_eqb_eq in E; contradiction|exact IH].
Qed.
Lemma rooted_ne p : rooted p -> p <> lit "--".
Proof. intros (r & ->). discriminate. Qed.

Section Props.
Variables (expand : pystr -> res pystr) (slashes : pystr -> pystr) (temp_cache temp_parameters script : pystr)
          (isfile : pystr -> bool) (load : pystr -> res pyval).
Let exec_in_headless := Headless.exec_in_headless expand slashes temp_cache temp_parameters script.

(** The process that is started executes the context's graph and hands it the
    graph to execute, the file for the results, the file that holds the given
    parameters as JSON, and the start node if the context's executable is called
    without arguments of its own.  The answer is the file for the results. *)
Theorem C75_handed_over :
  forall known file start cache ps name args pf out,
  exec_in_headless known file start cache ps name = Started args pf out ->
  exists c context_graph graph,
    first_named known name c /\ c_exe c <> [] /\ expand (c_graph c) = Ok context_graph /\ context_graph <> [] /\ expand file = Ok graph /\
    out = slashes (match cache with [] => temp_cache | _ => cache end) /\
    pf = (match ps with [] => None | _ => Some (slashes temp_parameters, json_norm (VDict ps)) end) /\
    hd [] args = c_exe c /\
    (rooted (slashes context_graph) -> rooted graph -> rooted out -> rooted (slashes temp_parameters) -> (start <> [] -> rooted start) -> rooted script ->
     ~ In (lit "--") (c_args c) -> c_exe c <> lit "--" ->
     command isfile load (shown c args) =
     Some (slashes context_graph,
           Given ([(lit "/.graph_file", VStr graph); (lit "/.cache_file", VStr out)]
                  ++ match ps with [] => [] | _ => [(lit "/.parameters_file", VStr (slashes temp_parameters))] end
                  ++ match c_args c, start with [], _ :: _ => [(lit "/enter/call_graph._start", VStr start)] | _, _ => [] end))).
Proof.
  intros known file start cache ps name args pf out H. unfold exec_in_headless, Headless.exec_in_headless in H.
  pose proof (C75_context known name) as Hc. destruct (find_context_by_name known name) as [c|]; [|discriminate].
  destruct (c_exe c) as [|x0 xs] eqn:Ex; [discriminate|].
  destruct (expand (c_graph c)) as [[|g0 g]|] eqn:Eg; try discriminate.
  set (cg := g0 :: g) in *. cbv zeta in H.
  set (pf0 := match ps with [] => None | _ => Some (slashes temp_parameters, json_norm (VDict ps)) end).
  set (out0 := slashes match cache with [] => temp_cache | _ => cache end) in *.
  destruct (expand file) as [graph|e] eqn:Ef.
  2:{ destruct ps as [|q ps]; [discriminate|]. destruct (json_ok (VDict (q :: ps))); discriminate. }
  assert (E : args = call_args script c (cli_args (slashes cg) graph out0 (option_map fst pf0)) start /\ pf = pf0 /\ out = out0).
  { unfold pf0. destruct ps as [|q ps]; [|destruct (json_ok (VDict (q :: ps))); [|discriminate]]; injection H as <- <- <-; auto. }
  destruct E as (-> & -> & ->). clear H. exists c, cg, graph.
  split; [exact Hc|]. split; [rewrite Ex; discriminate|]. split; [exact Eg|]. split; [discriminate|]. split; [reflexivity|]. split; [reflexivity|]. split; [reflexivity|].
  split; [unfold call_args; destruct (c_args c); reflexivity|].
  intros R1 R2 R3 R4 R5 R6 Hd He.
  set (vals := [lit "/.graph_file"; graph; lit "/.cache_file"; out0] ++ match option_map fst pf0 with Some f => [lit "/.parameters_file"; f] | None => [] end).
  assert (Rv : Forall rooted vals).
  { unfold vals. apply Forall_app. split.
    - repeat constructor; try assumption; eexists; reflexivity.
    - unfold pf0. destruct ps; cbn [option_map fst]; repeat constructor; try assumption; eexists; reflexivity. }
  assert (Ec : cli_args (slashes cg) graph out0 (option_map fst pf0) = lit "exec" :: slashes cg :: lit "-p" :: vals) by reflexivity.
  rewrite Ec. clear Ec.
  assert (P : forall l, Forall rooted l -> parse_exec (slashes cg :: lit "-p" :: l) None None = Some ([slashes cg], l)).
  { intros l Hl. cbn [parse_exec]. destruct (rooted_no_dash _ R1) as (A & B & _). rewrite A, B.
    change (str_in (lit "-p") [lit "-p"; lit "--parameters"]) with true. cbv iota. now rewrite parse_values. }
  unfold shown, call_args, command. destruct (c_args c) as [|a0 more] eqn:Ea.
  - set (st := match start with [] => [] | _ => [lit "/enter/call_graph._start"; start] end).
    assert (Rs : Forall rooted st).
    { unfold st. destruct start; repeat constructor; [eexists; reflexivity|]. apply R5. discriminate. }
    change (tl ([c_exe c; script] ++ (lit "exec" :: slashes cg :: lit "-p" :: vals) ++ st)) with (script :: lit "exec" :: slashes cg :: lit "-p" :: (vals ++ st)).
    unfold arguments. rewrite no_dashes.
    2:{ constructor; [now apply rooted_ne|]. constructor; [discriminate|]. constructor; [now apply rooted_ne|]. constructor; [discriminate|].
        apply Forall_app. split; (eapply Forall_impl; [|eassumption]); apply rooted_ne. }
    cbn [tl]. change (str_eqb (lit "exec") (lit "exec")) with true. cbv iota. rewrite P by (apply Forall_app; now split). cbn [nth].
    unfold vals, st, pf0. destruct ps as [|q ps], start as [|s start]; reflexivity.
  - change ([c_exe c] ++ (a0 :: more) ++ [script; lit "--"] ++ lit "exec" :: slashes cg :: lit "-p" :: vals)
      with ((c_exe c :: a0 :: more) ++ script :: lit "--" :: lit "exec" :: slashes cg :: lit "-p" :: vals).
    replace ((c_exe c :: a0 :: more) ++ script :: lit "--" :: lit "exec" :: slashes cg :: lit "-p" :: vals)
      with ((c_exe c :: (a0 :: more) ++ [script]) ++ lit "--" :: lit "exec" :: slashes cg :: lit "-p" :: vals).
    2:{ cbn [app]. rewrite <- app_assoc. reflexivity. }
    unfold arguments. rewrite dashes_after.
    2:{ constructor; [exact He|]. apply Forall_app. split; [|repeat constructor; now apply rooted_ne].
        apply Forall_forall. intros y Hy ->. exact (Hd Hy). }
    cbn [tl]. change (str_eqb (lit "exec") (lit "exec")) with true. cbv iota. rewrite P by exact Rv. cbn [nth].
    unfold vals, pf0. destruct ps as [|q ps]; reflexivity.
Qed.

(** It is refused, and no process is started, exactly when the name is unknown,
    the context has no executable or no graph, a path cannot be expanded or the
    parameters are no JSON. *)
Theorem C75_refused :
  forall known file start cache ps name,
  match exec_in_headless known file start cache ps name with
  | UnknownContext => Forall (fun c => c_name c <> name) known
  | NoExe => exists c, first_named known name c /\ c_exe c = []
  | NoContextGraph => exists c, first_named known name c /\ expand (c_graph c) = Ok []
  | Error e => exists c, first_named known name c /\
      (expand (c_graph c) = Raise e \/ expand file = Raise e \/ e = TypeError /\ json_ok (VDict ps) = false)
  | Started _ _ _ => json_ok (VDict ps) = true
  end.
Proof.
  intros known file start cache ps name. unfold exec_in_headless, Headless.exec_in_headless. pose proof (C75_context known name) as Hc.
  destruct (find_context_by_name known name) as [c|]; [|exact Hc]. destruct (c_exe c) eqn:Ex; [now exists c|].
  destruct (expand (c_graph c)) as [[|g0 g]|e] eqn:Eg; [now exists c| |exists c; split; [exact Hc|now left]]. cbv zeta.
  destruct ps as [|q ps]; [destruct (expand file) eqn:Ef; [reflexivity|exists c; split; [exact Hc|right; now left]]|].
  destruct (json_ok (VDict (q :: ps))) eqn:Ej; [|exists c; split; [exact Hc|right; right; now split]].
  destruct (expand file) eqn:Ef; [reflexivity|exists c; split; [exact Hc|right; now left]].
Qed.
End Props.

(** ** Samples *)

Definition py : context := {| c_name := lit "python"; c_exe := lit "/bin/python"; c_graph := lit "ctx.nxt"; c_args := [] |}.
Definition blender : context := {| c_name := lit "blender"; c_exe := lit "/bin/blender"; c_graph := lit "b.nxt"; c_args := [lit "-b"; lit "--python"] |}.
Definition s_exec start name :=
  exec_in_headless (fun p => Ok (lit "/g/" ++ p)) (fun p => p) (lit "/tmp/c") (lit "/tmp/p") (lit "/nxt/cli.py")
    [py; blender] (lit "a.nxt") start [] [(lit "/n.x", VInt 3%Z)] name.
Definition s_command (c : context) (a : answer) :=
  match a with Started args _ _ => command (fun _ => false) (fun _ => Raise IOError) (shown c args) | _ => None end.

Example C75_sample :
  s_command py (s_exec (lit "/n") (lit "python")) =
  Some (lit "/g/ctx.nxt", Given [(lit "/.graph_file", VStr (lit "/g/a.nxt")); (lit "/.cache_file", VStr (lit "/tmp/c"));
                                (lit "/.parameters_file", VStr (lit "/tmp/p")); (lit "/enter/call_graph._start", VStr (lit "/n"))]) /\
  s_exec (lit "/n") (lit "maya") = UnknownContext /\
  first_named [py; blender] (lit "blender") blender /\
  rooted (lit "/g/ctx.nxt") /\ ~ In (lit "--") (c_args blender).
Proof.
  split; [reflexivity|]. split; [reflexivity|]. split; [|split].
  - exists [py], []. repeat split. repeat constructor. discriminate.
  - eexists. reflexivity.
  - cbn. intuition discriminate.
Qed.

(** ** What a user may expect but does not hold *)

(** The start node does not reach a context whose executable takes arguments:
    what it executes does not depend on the start node. *)
Theorem C75_start_refuted :
  ~ (forall expand slashes tc tp script known file start start' cache ps name args args' pf pf' out out',
     exec_in_headless expand slashes tc tp script known file start cache ps name = Started args pf out ->
     exec_in_headless expand slashes tc tp script known file start' cache ps name = Started args' pf' out' ->
     start <> start' -> args <> args').
Proof.
  intros H. refine (H (fun p => Ok (lit "/g/" ++ p)) (fun p => p) (lit "/tmp/c") (lit "/tmp/p") (lit "/nxt/cli.py")
    [py; blender] (lit "a.nxt") (lit "/n") (lit "/m") [] [] (lit "blender") _ _ _ _ _ _ eq_refl eq_refl _ eq_refl). discriminate.
Qed.

Print Assumptions C75_context.
Print Assumptions C75_registered_first.
Print Assumptions C75_registered.
Print Assumptions C75_handed_over.
Print Assumptions C75_refused.
Print Assumptions C75_start_refuted.
