(** Running a piece of code is visiting the node with other code. *)

From Coq Require Import String List NArith ZArith Bool Arith Lia.
From Verif Require Import PyStr PyStrFacts Dict DictFacts NxtPath PyVal NodeIO Runtime RuntimeSpec RuntimeProofs.
From Verif Require Layer.
From Verif Require Import StageRun Snippet SnippetSpec.
Import ListNotations.

Section Run.
Variables (node_of : pystr -> option (nat * list nat)) (exec_order : pystr -> list pystr)
          (lines_of : list (dict pyval) -> pystr -> res (list pystr)) (meaning : list pystr -> option prog)
          (real : list (dict pyval) -> dict gval -> pystr -> pystr -> pyval -> res pyval)
          (deepcopy : pyval -> res (option pyval)) (builtins : list pystr).
Let run := Runtime.run node_of exec_order lines_of meaning real deepcopy builtins.

(** Code that executes no node does the same whatever executing a node does. *)
Lemma tidy_run call call' p c mro st lines code :
  lines_of (own st) p = Ok lines -> meaning lines = Some code -> tidy code ->
  run call p c mro st = run call' p c mro st.
Proof.
  intros Hl Hm Ht. unfold run, Runtime.run. rewrite Hl. destruct (load_attrs _ _ _ _ _ _ _ _) as [f|]; [|reflexivity]. cbv zeta. rewrite Hm.
  match goal with |- context [Runtime.runcode _ _ call code ?s] => set (st2 := s) end.
  enough (E : Runtime.runcode node_of exec_order call code st2 = Runtime.runcode node_of exec_order call' code st2) by now rewrite E.
  unfold Runtime.runcode.
  assert (S2 : dget SELF (gl st2) = Some (GFrame (length (frames st)))) by apply dget_dset_same.
  assert (L2 : length (frames st) < length (frames st2)). { unfold st2. cbn. rewrite app_length. cbn. lia. }
  destruct (tidy_eval node_of exec_order call _ code Ht st2 S2 L2) as (g & f' & r & E1 & E2 & _).
  destruct (tidy_eval node_of exec_order call' _ code Ht st2 S2 L2) as (g' & f'' & r' & E1' & E2' & _).
  rewrite E1 in E1'. injection E1' as <- <- <-. now rewrite E2, E2'.
Qed.

Lemma run_globals call : call_ok node_of call -> forall p c mro st st' e, run call p c mro st = (st', e) ->
  e <> OutOfFuel -> e <> Exc Interrupt -> NoDup (dkeys (gl st)) ->
  forall k, In k (dkeys (gl st')) -> In k (dkeys (gl st)) \/ exists lines, lines_of (own st) p = Ok lines /\ declared lines k.
Proof.
  intros Hc p c mro st st2 e2 Er He2 Hi2 Hnd k Hk. unfold run, Runtime.run in Er.
  destruct (lines_of (own st) p) as [lines|x] eqn:El; [|injection Er as <- <-; now left].
  destruct (load_attrs _ _ _ _ _ _ _ _) as [f|]; [|injection Er as <- <-; now left].
  destruct (meaning lines) as [code|]; [|injection Er as <- <-; now left].
  match type of Er with context [Runtime.runcode _ _ call code ?s] => set (st2' := s) in Er; destruct (Runtime.runcode node_of exec_order call code st2') as (st3, e3) eqn:E3 end.
  assert (Hclean : gl st2 = clean_globals lines (dkeys (gl st)) (gl st3) -> e3 <> OutOfFuel ->
     In k (dkeys (gl st)) \/ (exists lines0, Ok lines = Ok lines0 /\ declared lines0 k)).
  { intros E He3. rewrite E in Hk. destruct (runcode_moved _ _ _ Hc _ _ _ _ E3 He3) as (evs & ran & M).
    rewrite clean_globals_spec in Hk.
    - unfold dkeys in Hk. apply in_map_iff in Hk as ((k', v) & <- & Hk). apply filter_In in Hk as (_ & Hk). cbn in Hk.
      apply orb_true_iff in Hk as [Hk|Hk]; [left; now apply str_in_In|right]. exists lines. split; [reflexivity|]. now apply declared_iff.
    - apply (m_nodup _ _ _ _ _ _ M). unfold st2'. cbn. now apply NoDup_dset. }
  destruct e3 as [|r3|].
  - destruct (push_back _ _ _ _) as (o, [x|]); injection Er as <- <-; apply Hclean; [reflexivity|discriminate|reflexivity|discriminate].
  - destruct r3; try (destruct (push_back _ _ _ _) as (o, [x|]); injection Er as <- <-; apply Hclean; [reflexivity|discriminate|reflexivity|discriminate]).
    + injection Er as <- <-. congruence.
    + injection Er as <- <-. apply Hclean; [reflexivity|discriminate].
  - injection Er as <- <-. congruence.
Qed.
End Run.

Lemma close_exit st p : match close_time st p with
  | Ok st' => fst (exit_time st p) = st' /\ (snd (exit_time st p) = None \/ snd (exit_time st p) = Some (Failure TypeError))
  | Raise x => exit_time st p = (st, Some (Failure x))
  end.
Proof.
  unfold exit_time, close_time. destruct (dget p (times st)) as [l|]; [|reflexivity]. destruct (close_first l) as [l'|]; [|reflexivity].
  destruct (last l' true); cbn; auto.
Qed.

Section Stage.
Variables (same same_name : pystr -> pystr -> bool) (bound : nat) (L : Layer.layer)
          (node_of : pystr -> option (nat * list nat))
          (lines_of : list (dict pyval) -> pystr -> res (list pystr)) (meaning : list pystr -> option prog)
          (real : list (dict pyval) -> dict gval -> pystr -> pystr -> pyval -> res pyval)
          (deepcopy : pyval -> res (option pyval)) (str_of : pyval -> pystr) (builtins : list pystr)
          (resolve : list (dict pyval) -> pystr -> pystr -> res pystr).
Let snippet := Snippet.snippet same same_name bound L node_of lines_of meaning real deepcopy str_of builtins resolve.
Let call := execute_nodes same same_name bound L node_of lines_of meaning real deepcopy str_of builtins.
Let lines' := custom_lines lines_of.
Let visit text := Runtime.visit node_of (fun _ => true) (exec_order same same_name bound L) (lines' text) meaning real deepcopy builtins.

Lemma call_good fuel : call_ok node_of (call fuel).
Proof. unfold call, StageRun.execute_nodes. apply execute_call_ok. Qed.

Lemma snippet_visit fuel p text text' st st' e c mro : node_of p = Some (c, mro) -> resolve (own st) p text = Ok text' ->
  snippet fuel p text st = (st', e) -> e <> OutOfFuel ->
  exists e', visit text' (call fuel) p st = (st', e') /\
    (e' = e \/ e' = Exc ExitGraph /\ e = Normal \/ e' = Exc (Failure TypeError)) /\ e <> Exc ExitNode /\ e <> Exc ExitGraph.
Proof.
  intros Hn Hr H He. unfold snippet, Snippet.snippet in H. rewrite Hr, Hn in H. cbv zeta in H. fold call lines' in H.
  unfold visit, Runtime.visit. rewrite Hn. cbv iota zeta.
  destruct (Runtime.run _ _ _ _ _ _ _ _ _ _ _ _) as (st2, e2).
  assert (F : e2 <> OutOfFuel) by (intros ->; congruence).
  pose proof (close_exit st2 p) as C. destruct (exit_time st2 p) as (st3, x). cbn [fst snd] in C.
  destruct (close_time st2 p) as [st3'|y].
  - destruct C as (-> & [-> | ->]).
    + destruct e2 as [|[]|]; try congruence; cbv iota in *; injection H as <- <-; eexists; repeat split; auto; congruence.
    + destruct e2 as [|[]|]; try congruence; cbv iota in *; injection H as <- <-; eexists; repeat split; auto; congruence.
  - injection C as -> ->. destruct e2 as [|[]|]; try congruence; cbv iota in *; injection H as <- <-; eexists; repeat split; auto; congruence.
Qed.
End Stage.
