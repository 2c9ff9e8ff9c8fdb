(** C72: running a piece of code on a node. *)

From Coq Require Import String List NArith ZArith Bool Arith Lia.
From Verif Require Import PyStr PyStrFacts Dict DictFacts NxtPath PathSpec PyVal NodeIO Runtime RuntimeSpec RuntimeProofs.
From Verif Require Layer.
From Verif Require Import StageRun StageRunSpec StageRunProofs Snippet SnippetSpec SnippetProofs.
From Verif Require Props_StageRun.
Import ListNotations.

Section Props.
(** Any composed layer, any meaning of code lines, any evaluation of attributes
    and resolving of text. *)
Variables (same same_name : pystr -> pystr -> bool) (bound : nat) (L : Layer.layer)
          (node_of : pystr -> option (nat * list nat))
          (lines_of : list (dict pyval) -> pystr -> res (list pystr)) (meaning : list pystr -> option prog)
          (real : list (dict pyval) -> dict gval -> pystr -> pystr -> pyval -> res pyval)
          (deepcopy : pyval -> res (option pyval)) (str_of : pyval -> pystr) (builtins : list pystr)
          (resolve : list (dict pyval) -> pystr -> pystr -> res pystr).
Let snippet := Snippet.snippet same same_name bound L node_of lines_of meaning real deepcopy str_of builtins resolve.
Let snippet_on_composed := Snippet.snippet_on_composed same same_name bound L node_of lines_of meaning real deepcopy str_of builtins resolve.

(** A piece of code that executes no node does what executing the node would
    do if that code were its own, disabled or not: what it computes decides
    everything.  Nothing else runs. *)
Theorem C72_as_its_code :
  forall fuel p text x text' lines c mro st code f g f' r,
  node_of p = Some (c, mro) -> resolve (own st) p text = Ok text' ->
  text' = x :: lines -> meaning (split 10%N text') = Some code -> tidy code ->
  load_attrs real deepcopy (own st) (gl st) p mro (names_of builtins (own st) mro) [] = Ok f ->
  NoDup (dkeys (gl st)) -> all_ended (times st) p -> c < length (own st) ->
  eval code (dset (lit "self") (GFrame (length (frames st))) (gl st)) f = (g, f', r) ->
  r <> Some Interrupt -> (kept r = true -> incl (dkeys f) (dkeys f')) ->
  exists st', snippet fuel p text st = (st', snippet_end r) /\
    (forall k, (In k (dkeys (gl st)) \/ declared (split 10%N text') k) -> dget k (gl st') = dget k g) /\
    (forall k, ~ In k (dkeys (gl st)) -> ~ declared (split 10%N text') k -> dget k (gl st') = None) /\
    frames st' = frames st ++ [f'] /\
    (forall k a, dget a (nth k (own st') []) =
       if Nat.eqb k c && kept r then pushed f f' a (dget a (nth k (own st) [])) else dget a (nth k (own st) [])) /\
    dget p (cached st') = Some (length (frames st)) /\ (forall q, q <> p -> dget q (cached st') = dget q (cached st)) /\
    running st' = false /\ all_ended (times st') p /\ log st' = log st ++ [Enter p; Leave p].
Proof.
  intros fuel p text x text' lines c mro st code f g f' r Hn Hr Ht Hm Hty Hl Hnd Ha Hc He Hi Hk.
  set (lines' := custom_lines lines_of text').
  destruct (one_node node_of (fun _ => true) (exec_order same same_name bound L) lines' meaning real deepcopy str_of builtins
              fuel p c mro st (split 10%N text') code f g f' r Hn eq_refl) as (st' & E & R); try assumption.
  { unfold lines', custom_lines. rewrite Ht. reflexivity. }
  exists st'. split; [|exact R]. clear R.
  cbn [Runtime.execute_nodes set_runtime_parameters Runtime.visit_all] in E. unfold Runtime.visit in E. rewrite Hn in E. cbv iota zeta in E.
  unfold snippet, Snippet.snippet. rewrite Hr, Hn. fold lines'. cbv zeta.
  set (st1 := with_log _ _) in *.
  rewrite (tidy_run node_of _ lines' meaning real deepcopy builtins
             (Runtime.execute_nodes node_of (fun _ => true) (exec_order same same_name bound L) lines' meaning real deepcopy str_of builtins fuel)
             (StageRun.execute_nodes same same_name bound L node_of lines_of meaning real deepcopy str_of builtins fuel)
             p c mro st1 (split 10%N text') code) in E; [|unfold lines', custom_lines; rewrite Ht; reflexivity|exact Hm|exact Hty].
  destruct (Runtime.run _ _ _ _ _ _ _ _ _ _ _ _) as (st2, e2).
  pose proof (close_exit st2 p) as C. destruct (exit_time st2 p) as (st3, y). cbn [fst snd] in C.
  assert (Hseen : seen r <> Exc (Failure TypeError) /\ (forall x, seen r <> Exc (Failure x)) /\ seen r <> OutOfFuel).
  { destruct r as [[]|]; cbn; repeat split; congruence. }
  destruct Hseen as (S1 & S2 & S3).
  assert (e2 <> OutOfFuel) by (intros ->; congruence).
  destruct (close_time st2 p) as [st3'|z].
  - destruct C as (-> & [-> | ->]).
    + destruct e2 as [|[]|]; try congruence; cbv iota in *; injection E as <- E; destruct r as [[]|]; cbn in E; try congruence; cbn; congruence.
    + destruct e2 as [|[]|]; cbv iota in *; congruence.
  - injection C as -> ->. specialize (S2 z). destruct e2 as [|[]|]; cbv iota in *; congruence.
Qed.

(** Whatever the code: the node runs once and nothing else at its level, leaving
    the node or the graph early is never raised, and only the attributes of nodes
    that ran or were given parameters change. *)
Theorem C72_runs_the_node :
  forall fuel p text text' st st' e, node_of p <> None -> resolve (own st) p text = Ok text' ->
  snippet fuel p text st = (st', e) -> e <> OutOfFuel ->
  e <> Exc ExitNode /\ e <> Exc ExitGraph /\
  exists evs, log st' = log st ++ evs /\ session evs [p] /\
  forall k, (forall q m, node_of q = Some (k, m) -> ~ In (Enter q) evs /\ forall a, ~ In (Assign q a) evs) ->
  nth k (own st') [] = nth k (own st) [].
Proof.
  intros fuel p text text' st st' e Hn Hr H He. destruct (node_of p) as [(c, mro)|] eqn:En; [|now destruct Hn].
  destruct (snippet_visit _ _ _ _ _ _ _ _ _ _ _ _ _ _ _ _ _ _ _ _ _ En Hr H He) as (e' & V & D & N1 & N2). split; [exact N1|]. split; [exact N2|].
  assert (Fe : e' <> OutOfFuel). { destruct D as [->|[(-> & _)| ->]]; congruence. }
  destruct (visit_cases _ _ _ _ _ _ _ _ _ (call_good _ _ _ _ _ _ _ _ _ _ _ _) _ _ _ _ V Fe) as [(F & _)|[(n & _ & F & _)|(n & _ & _ & _ & evs & M)]]; [congruence|discriminate|].
  exists evs. split; [apply M|]. split; [apply M|]. intros k Hk. apply M; [intros []|]. intros (q & m & Hq & Ht). destruct (Hk _ _ Hq) as (H1 & H2).
  destruct Ht as [Ht|(a & Ht)]; [contradiction|]. now apply (H2 a).
Qed.

(** When it ends normally or with an error of the code, the names the code binds
    do not stay among the globals, but those it declares global. *)
Theorem C72_globals :
  forall fuel p text x text' st st' e, resolve (own st) p text = Ok (x :: text') ->
  snippet fuel p text st = (st', e) -> e = Normal \/ e = Exc GraphError -> NoDup (dkeys (gl st)) ->
  forall k, In k (dkeys (gl st')) -> In k (dkeys (gl st)) \/ declared (split 10%N (x :: text')) k.
Proof.
  intros fuel p text x text' st st' e Hr H He Hnd k Hk. unfold snippet, Snippet.snippet in H. rewrite Hr in H.
  assert (Ct : forall s s', close_time s p = Ok s' -> gl s' = gl s).
  { intros s s' E. unfold close_time in E. destruct (dget p (times s)) as [l|]; [|discriminate]. destruct (close_first l); [|discriminate]. injection E as <-. reflexivity. }
  destruct (node_of p) as [(c, mro)|].
  2:{ destruct (close_time (enter_time st p) p) as [s|y] eqn:E; injection H as <- <-; left; [|exact Hk]. rewrite (Ct _ _ E) in Hk. exact Hk. }
  cbv zeta in H. set (st1 := with_log _ _) in H. destruct (Runtime.run _ _ _ _ _ _ _ _ _ _ _ _) as (st2, e2) eqn:Er.
  assert (Q : gl st' = gl st2 /\ e2 <> OutOfFuel /\ e2 <> Exc Interrupt).
  { assert (e2 <> OutOfFuel) by (intros ->; injection H as <- <-; destruct He; discriminate).
    destruct (close_time st2 p) as [s|y] eqn:E.
    - rewrite <- (Ct _ _ E). destruct e2 as [|[]|]; try congruence; cbv iota in H; injection H as <- <-; split; try reflexivity; split; destruct He; congruence.
    - destruct e2 as [|[]|]; try congruence; cbv iota in H; injection H as <- <-; destruct He; congruence. }
  destruct Q as (Q & F & Hi). rewrite Q in Hk.
  destruct (run_globals _ _ _ _ _ _ _ _ (call_good _ _ _ _ _ _ _ _ _ _ _ _) _ _ _ _ _ _ Er F Hi Hnd k Hk) as [A|(lines & A & B)]; [now left|].
  right. cbn [custom_lines] in A. injection A as <-. exact B.
Qed.

(** When the text cannot be resolved nothing changes. *)
Theorem C72_unresolved :
  forall fuel p text st x, resolve (own st) p text = Raise x -> snippet fuel p text st = (st, Exc (Failure x)).
Proof. intros fuel p text st x H. unfold snippet, Snippet.snippet. now rewrite H. Qed.

(** On a composed layer the world's code runs first, and nothing runs if it
    fails: it is the snippet on what executing the layer from / leaves. *)
Theorem C72_on_composed :
  forall fuel p text o, node_of (lit "/") <> None ->
  snippet_on_composed (S fuel) p text o =
  match StageRun.execute same same_name bound L node_of lines_of meaning real deepcopy str_of builtins (S fuel) (From (lit "/")) [] o with
  | (st, Normal) => snippet (S fuel) p text st
  | r => r
  end.
Proof.
  intros fuel p text o Hw. unfold snippet_on_composed, Snippet.snippet_on_composed, StageRun.execute. cbn [start_path].
  destruct (node_of (lit "/")) as [w|]; [|now destruct Hw].
  assert (Ew : StageRun.order_from same same_name bound L (lit "/") = Some []) by reflexivity. rewrite Ew. clear Ew.
  destruct (setup _ _ _ _ _ _ _ _ _ _ _ _ _ _) as (st, e). destruct e; reflexivity.
Qed.
End Props.

(** ** Samples: the graph of C70's samples *)

Import Props_StageRun.

(** Resolving fails on "?" and keeps any other text; the snippet "s" runs [s]. *)
Definition g_resolve (_ : list (dict pyval)) (_ text : pystr) : res pystr :=
  if str_eqb text (lit "?") then Raise TypeError else Ok text.
Definition g_snippet (w d s : prog) (p text : pystr) (o : list (dict pyval)) :=
  Snippet.snippet_on_composed by_value by_value 9 (g_layer None) g_node (fun _ p => Ok [p])
    (fun lines => match lines with
                  | [p] => Some (if str_eqb p (lit "/") then w else if str_eqb p (lit "/d") then d
                                 else if str_eqb p (lit "s") then s else Stop None)
                  | _ => None end)
    (fun _ _ _ _ v => Ok v) (fun v => Ok (Some v)) (fun v => lit "?") [] g_resolve 5 p text o.

(** The disabled /a/c: the snippet sees the name of the world's code and
    executes /a/b. *)
Example C72_sample :
  let w := SetGlobal (lit "n") (GVal (VInt 3)) skip in
  let s := GetGlobal (lit "n") (fun v => match v with
             | Some (GVal v) => SetAttr (lit "_start_point") v (Execute (Paths [lit "/a/b"]) [] (fun _ => Stop (Some ExitGraph)))
             | _ => skip end) in
  let r := g_snippet w skip s (lit "/a/c") (lit "s") g_own in
  snd r = Normal /\ entered (fst r) = [lit "/"; lit "/a/c"; lit "/a/b"].
Proof. vm_compute. repeat split. Qed.
Example C72_code_sample :
  let s := GetAttr (lit "y") (fun v => match v with
             | Some v => SetAttr (lit "y") (VInt 9) (SetGlobal (lit "t") (GVal v) (Stop (Some (Failure KeyError)))) | None => skip end) in
  let s' := GetAttr (lit "y") (fun v => match v with
             | Some v => SetAttr (lit "y") (VInt 9) (SetGlobal (lit "t") (GVal v) skip) | None => skip end) in
  tidy s /\ tidy s' /\
  snd (g_snippet skip skip s (lit "/a") (lit "s") g_own) = Exc GraphError /\
  snd (g_snippet skip skip s' (lit "/a") (lit "s") g_own) = Normal /\
  own (fst (g_snippet skip skip s (lit "/a") (lit "s") g_own)) = g_own /\
  nth 1 (own (fst (g_snippet skip skip s' (lit "/a") (lit "s") g_own))) [] = (lit "y", VInt 9) :: flag false.
Proof.
  split; [|split; [|vm_compute; repeat split]]; constructor; intros [v|]; repeat (constructor; try discriminate).
Qed.
Example C72_unresolved_sample :
  snd (g_snippet skip skip skip (lit "/a") (lit "?") g_own) = Exc (Failure TypeError).
Proof. reflexivity. Qed.

(** ** What a user may expect but does not hold *)

(** Running an empty snippet runs the node's own code. *)
Theorem C72_empty_refuted :
  ~ (forall d, snd (g_snippet skip d skip (lit "/d") [] g_own) = snd (g_snippet skip skip skip (lit "/d") [] g_own)).
Proof. intros H. specialize (H (Stop (Some (Failure KeyError)))). vm_compute in H. discriminate H. Qed.

Print Assumptions C72_as_its_code.
Print Assumptions C72_runs_the_node.
Print Assumptions C72_globals.
Print Assumptions C72_unresolved.
Print Assumptions C72_on_composed.
Print Assumptions C72_empty_refuted.
