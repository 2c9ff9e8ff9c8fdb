(** C87: errors name the node and the line of its code. *)

From Coq Require Import String List NArith ZArith Bool Arith Lia.
From Verif Require Import PyStr PyStrFacts GraphErrors.
Import ListNotations.

(** Line number [k], from 1, of a text. *)
Definition line_of (text : pystr) (k : nat) : option pystr := nth_error (split NL text) (pred k).
(** Lines that are one line each. *)
Definition single (lines : list pystr) : Prop := Forall (fun l => ~ In NL l) lines.

Lemma compiled_lines lines : single lines -> split NL (fst (get_node_code [] lines)) = lit "# Blank Line" :: lines.
Proof. intros S. cbn [get_node_code fst]. apply split_join; [discriminate|]. constructor; [vm_compute; intuition discriminate|exact S]. Qed.

Lemma item_nat lines i : item lines (Z.of_nat i) = nth_error lines i.
Proof. unfold item. replace (Z.of_nat i <? 0)%Z with false by (symmetry; apply Z.ltb_ge; lia). now rewrite Nat2Z.id. Qed.

(** ** One node *)

(** When compiled line [k] of a node's code fails, what is reported is the number
    of that line in the node's code, and its text. *)
Theorem C87_line : forall path lines k s cause, single lines -> 2 <= k -> line_of (fst (get_node_code [] lines)) k = Some s ->
  report_at {| node_path := path; running_lines := snd (get_node_code [] lines) |} k cause = Report path (Z.of_nat (k - 1)) s cause /\
  nth_error lines (k - 2) = Some s /\ syntax_lineno k = Z.of_nat (k - 1).
Proof.
  intros path lines k s cause Sg L E. unfold line_of in E. rewrite (compiled_lines lines Sg) in E. destruct k as [|[|k]]; [lia..|]. cbn [pred nth_error] in E.
  unfold report_at, syntax_lineno. cbn [node_path running_lines get_node_code snd].
  replace (Z.of_nat (S (S k)) - 1 - 1)%Z with (Z.of_nat k) by lia. rewrite item_nat, E. replace (S (S k) - 2) with k by lia. split; [f_equal; lia|]. split; [exact E|lia].
Qed.
Print Assumptions C87_line.

(** The line before the node's code never fails, so every failure is covered:
    line i of the code is compiled line i + 1. *)
Theorem C87_every_line : forall lines i, single lines -> i < length lines -> line_of (fst (get_node_code [] lines)) (i + 2) = nth_error lines i.
Proof. intros lines i Sg _. unfold line_of. rewrite (compiled_lines lines Sg). now replace (pred (i + 2)) with (S i) by lia. Qed.
Print Assumptions C87_every_line.
Example C87_line_sample : single [lit "a = 1"; lit "b = c"] /\ line_of (fst (get_node_code [] [lit "a = 1"; lit "b = c"])) 3 = Some (lit "b = c") /\
  report_at {| node_path := lit "/n"; running_lines := snd (get_node_code [] [lit "a = 1"; lit "b = c"]) |} 3 None = Report (lit "/n") 2 (lit "b = c") None.
Proof. split; [repeat constructor; vm_compute; intuition discriminate|]. split; reflexivity. Qed.

(** A line that resolves to several: the text of another line is reported, or
    none is found. *)
Theorem C87_resolved_refuted : exists lines k s k' s', 2 <= k /\ line_of (fst (get_node_code [] lines)) k = Some s /\ 2 <= k' /\ line_of (fst (get_node_code [] lines)) k' = Some s' /\
  (forall path cause, exists l, report_at {| node_path := path; running_lines := snd (get_node_code [] lines) |} k cause = Report path (Z.of_nat (k - 1)) l cause /\ l <> s /\ In l lines) /\
  (forall path cause, report_at {| node_path := path; running_lines := snd (get_node_code [] lines) |} k' cause = Report path (Z.of_nat (k' - 1)) (lit "LINE NOT FOUND") cause).
Proof.
  exists [lit "a = [" ++ [NL] ++ lit "]"; lit "b = c"], 3, (lit "]"), 4, (lit "b = c").
  split; [lia|]. split; [reflexivity|]. split; [lia|]. split; [reflexivity|]. split.
  - intros path cause. exists (lit "b = c"). split; [reflexivity|]. split; [discriminate|]. right. now left.
  - intros path cause. reflexivity.
Qed.
Print Assumptions C87_resolved_refuted.

(** ** A snippet *)

(** The lines of a snippet are reported one too low, with the text of the line
    before; the first one as line 0 with the text of the last. *)
Theorem C87_snippet_refuted : forall path code lines k s cause, code <> [] -> 1 <= k -> line_of (fst (get_node_code code lines)) k = Some s ->
  exists l, report_at {| node_path := path; running_lines := snd (get_node_code code lines) |} k cause = Report path (Z.of_nat k - 1) l cause /\
  (2 <= k -> line_of code (k - 1) = Some l) /\ (k = 1 -> line_of code (length (split NL code)) = Some l).
Proof.
  intros path code lines k s cause Ne L E.
  assert (G : get_node_code code lines = (code, split NL code)) by (destruct code; [contradiction|reflexivity]). rewrite G in *. cbn [fst snd] in *.
  unfold report_at. cbn [node_path running_lines]. unfold line_of in *. destruct k as [|[|k]]; [lia| |].
  - change (Z.of_nat 1 - 1 - 1)%Z with (-1)%Z. unfold item. change (-1 <? 0)%Z with true. cbv iota zeta.
    assert (N : split NL code <> []) by apply split_nonempty. destruct (split NL code) as [|x l] eqn:Es; [contradiction|].
    replace (Z.of_nat (length (x :: l)) + -1 <? 0)%Z with false by (symmetry; apply Z.ltb_ge; cbn [length]; lia).
    replace (Z.to_nat (Z.of_nat (length (x :: l)) + -1)) with (length l) by (cbn [length]; lia).
    destruct (nth_error (x :: l) (length l)) as [y|] eqn:Ey; [|apply nth_error_None in Ey; cbn [length] in Ey; lia].
    exists y. split; [reflexivity|]. split; [lia|]. intros _. cbn [length pred]. exact Ey.
  - replace (Z.of_nat (S (S k)) - 1 - 1)%Z with (Z.of_nat k) by lia. rewrite item_nat. cbn [pred] in E.
    destruct (nth_error (split NL code) k) as [y|] eqn:Ey.
    + exists y. split; [reflexivity|]. split; [intros _; now replace (pred (S (S k) - 1)) with k by lia|lia].
    + apply nth_error_None in Ey. assert (Q : nth_error (split NL code) (S k) <> None) by congruence. apply nth_error_Some in Q. lia.
Qed.
Print Assumptions C87_snippet_refuted.
Example C87_snippet_sample : let code := lit "a = 1" ++ [NL] ++ lit "b = c" in
  line_of (fst (get_node_code code [])) 2 = Some (lit "b = c") /\
  report_at {| node_path := lit "/n"; running_lines := snd (get_node_code code []) |} 2 None = Report (lit "/n") 1 (lit "a = 1") None /\
  report_at {| node_path := lit "/n"; running_lines := snd (get_node_code code []) |} 1 None = Report (lit "/n") 0 (lit "b = c") None.
Proof. split; [reflexivity|]. split; reflexivity. Qed.

(** ** Nodes that execute others *)

Definition path_of (p : prog) : pystr := match p with Prog path _ _ _ => path end.
Definition code_of (p : prog) : list pystr := match p with Prog _ lines _ _ => lines end.
(** A run without an error. *)
Inductive fine : prog -> Prop :=
| fine_all path lines steps : all_fine steps -> fine (Prog path lines None steps)
with all_fine : list (nat * option prog) -> Prop :=
| fine_none : all_fine []
| fine_more k p t : fine p -> all_fine t -> all_fine ((k, Some p) :: t).
(** Running [p], the code of [q] fails at its compiled line [k], after it has
    executed [before], or cannot be compiled. *)
Inductive fails : prog -> prog -> nat -> list (nat * option prog) -> Prop :=
| fails_here path lines before k rest : all_fine before -> fails (Prog path lines None (before ++ (k, None) :: rest)) (Prog path lines None (before ++ (k, None) :: rest)) k before
| fails_syntax path lines k steps : fails (Prog path lines (Some k) steps) (Prog path lines (Some k) steps) k []
| fails_below path lines before j p rest q k b : all_fine before -> fails p q k b -> fails (Prog path lines None (before ++ (j, Some p) :: rest)) q k b.
(** The report at the bottom. *)
Fixpoint innermost (r : report) : report := match r with Report _ _ _ None => r | Report _ _ _ (Some c) => innermost c end.

Definition go : list (nat * option prog) -> console -> console * option report :=
  fix go (steps : list (nat * option prog)) (c : console) : console * option report :=
    match steps with
    | [] => (c, None)
    | (k, None) :: _ => (c, Some (report_at c k None))
    | (k, Some q) :: t =>
        match run q c with
        | (c, None) => go t c
        | (c, Some r) => (c, Some (report_at c k (Some r)))
        end
    end.
Lemma run_go path lines steps c : run (Prog path lines None steps) c = go steps {| node_path := path; running_lines := lines |}.
Proof. reflexivity. Qed.

Scheme fine_ind2 := Induction for fine Sort Prop with all_fine_ind2 := Induction for all_fine Sort Prop.
Lemma fine_runs p : fine p -> forall c, snd (run p c) = None.
Proof.
  apply (fine_ind2 (fun p _ => forall c, snd (run p c) = None) (fun steps _ => forall c, snd (go steps c) = None)).
  - intros path lines steps _ IH c. rewrite run_go. apply IH.
  - reflexivity.
  - intros k q t _ IHp _ IHt c. cbn [go]. specialize (IHp c). destruct (run q c) as [c' [r|]]; [discriminate|]. apply IHt.
Qed.
Lemma all_fine_runs steps : all_fine steps -> forall c, snd (go steps c) = None.
Proof.
  induction 1 as [|k p t Fp Ft IH]; intros c; [reflexivity|]. cbn [go]. pose proof (fine_runs p Fp c) as E. destruct (run p c) as [c' [r|]]; [discriminate|]. apply IH.
Qed.
Lemma go_app before rest : all_fine before -> forall c, go (before ++ rest) c = go rest (fst (go before c)).
Proof.
  induction 1 as [|k p t Fp Ft IH]; intros c; [reflexivity|]. cbn [app go]. pose proof (fine_runs p Fp c) as E. destruct (run p c) as [c' [r|]]; [discriminate|]. apply IH.
Qed.

(** The innermost report gives the line number in the code that failed; and, if
    that code had executed nothing before, its node and the text of the line. *)
Theorem C87_innermost : forall p q k before c, fails p q k before -> exists c' r l node text, run p c = (c', Some r) /\ innermost r = Report node l text None /\ l = (Z.of_nat k - 1)%Z /\
  (before = [] -> single (code_of q) -> 2 <= k -> forall s, line_of (fst (get_node_code [] (code_of q))) k = Some s -> node = path_of q /\ text = s).
Proof.
  intros p q k before c F. revert c. induction F as [path lines before k rest A|path lines k steps|path lines before j p rest q k b A F IH]; intros c.
  - rewrite run_go, go_app by exact A. cbn [go]. eexists _, _, _, _, _. split; [reflexivity|]. split; [reflexivity|]. split; [reflexivity|].
    intros -> Sg L s E. cbn [go fst code_of path_of] in *. destruct (C87_line path lines k s None Sg L E) as (R & _). cbn [get_node_code snd] in R. unfold report_at in R. cbn [node_path running_lines] in R. injection R as _ R. now split.
  - cbn [run]. eexists _, _, _, _, _. split; [reflexivity|]. split; [reflexivity|]. split; [reflexivity|].
    intros _ _ _ s E. cbn [code_of path_of] in *. split; [reflexivity|]. unfold line_of in E. now apply nth_error_nth.
  - rewrite run_go, go_app by exact A. cbn [go]. destruct (IH (fst (go before {| node_path := path; running_lines := lines |}))) as (c' & r & l & node & text & E & I & El & Q). rewrite E.
    eexists _, _, _, _, _. split; [reflexivity|]. split; [exact I|]. split; [exact El|exact Q].
Qed.
Print Assumptions C87_innermost.

(** Every run is fine and reports nothing, or fails somewhere and reports it. *)
Theorem C87_either : forall p c, (fine p /\ snd (run p c) = None) \/ (exists q k before, fails p q k before) /\ snd (run p c) <> None.
Proof.
  assert (D : forall p, fine p \/ exists q k before, fails p q k before).
  { fix D 1. intros [path lines [k|] steps]; [right; eexists _, _, _; apply fails_syntax|].
    assert (S : all_fine steps \/ exists before k, all_fine before /\ ((exists rest, steps = before ++ (k, None) :: rest) \/ (exists p rest q j b, steps = before ++ (k, Some p) :: rest /\ fails p q j b))).
    { induction steps as [|[k [p|]] t IH]; [left; constructor| |].
      - destruct (D p) as [Fp|(q & j & b & Fp)].
        + destruct IH as [A|(before & i & A & [(rest & E)|(p' & rest & q & j & b & E & F)])]; [left; now constructor|right..].
          * exists ((k, Some p) :: before), i. split; [now constructor|]. left. exists rest. now rewrite E.
          * exists ((k, Some p) :: before), i. split; [now constructor|]. right. exists p', rest, q, j, b. split; [now rewrite E|exact F].
        + right. exists [], k. split; [constructor|]. right. exists p, t, q, j, b. now split.
      - right. exists [], k. split; [constructor|]. left. now exists t. }
    destruct S as [A|(before & k & A & [(rest & ->)|(p & rest & q & j & b & -> & F)])]; [left; now constructor|right..].
    - eexists _, _, _. now apply fails_here.
    - eexists _, _, _. apply fails_below; [exact A|exact F]. }
  intros p c. destruct (D p) as [F|(q & k & b & F)]; [left; split; [exact F|now apply fine_runs]|right].
  split; [eauto|]. destruct (C87_innermost p q k b c F) as (c' & r & _ & _ & _ & -> & _). discriminate.
Qed.
Print Assumptions C87_either.

(** After a node has executed another one, its own errors are reported as that
    node's: with that node's path and the text of one of its lines. *)
Definition inner : prog := Prog (lit "/inner") [lit "x = 1"; lit "y = 2"] None [].
Definition outer : prog := Prog (lit "/outer") [lit "execute(['/inner'])"; lit "z = w"] None [(2, Some inner); (3, None)].
Theorem C87_after_execute_refuted : exists p k before, fails p p k before /\ single (code_of p) /\ 2 <= k /\
  forall c, exists c' node text, run p c = (c', Some (Report node (Z.of_nat (k - 1)) text None)) /\ node <> path_of p /\ ~ In text (code_of p).
Proof.
  exists outer, 3, [(2, Some inner)]. split; [exact (fails_here (lit "/outer") _ [(2, Some inner)] 3 [] ltac:(repeat constructor))|].
  split; [repeat constructor; vm_compute; intuition discriminate|]. split; [lia|].
  intros c. exists {| node_path := lit "/inner"; running_lines := [lit "x = 1"; lit "y = 2"] |}, (lit "/inner"), (lit "y = 2"). split; [reflexivity|]. split; [discriminate|]. vm_compute. intuition discriminate.
Qed.
Print Assumptions C87_after_execute_refuted.

(** The same when the node executed fails: the outer report, about the line with
    the call, is in the name of the inner node. *)
Definition broken : prog := Prog (lit "/inner") [lit "x = 1"; lit "y = u"] None [(3, None)].
Definition caller : prog := Prog (lit "/outer") [lit "execute(['/inner'])"] None [(2, Some broken)].
Theorem C87_caller_refuted : fails caller broken 3 [] /\ forall c, exists c' text,
  run caller c = (c', Some (Report (path_of broken) 1 text (Some (Report (path_of broken) 2 (lit "y = u") None)))) /\ ~ In text (code_of caller).
Proof.
  split; [exact (fails_below (lit "/outer") _ [] 2 broken [] broken 3 [] ltac:(constructor) (fails_here (lit "/inner") _ [] 3 [] ltac:(constructor)))|].
  intros c. eexists _, _. split; [reflexivity|]. vm_compute. intuition discriminate.
Qed.
Print Assumptions C87_caller_refuted.

(** Unless that node cannot be compiled: it has not been started then, and both
    reports are right. *)
Theorem C87_uncompiled : forall path lines j s rest qp ql k t steps c, single lines -> 2 <= j -> line_of (fst (get_node_code [] lines)) j = Some s -> 1 <= k -> line_of (fst (get_node_code [] ql)) k = Some t ->
  snd (run (Prog path lines None ((j, Some (Prog qp ql (Some k) steps)) :: rest)) c) = Some (Report path (Z.of_nat (j - 1)) s (Some (Report qp (Z.of_nat k - 1) t None))).
Proof.
  intros path lines j s rest qp ql k t steps c Sg L E _ F. rewrite run_go. cbn [go run snd]. unfold syntax_report, syntax_lineno, line_of in *. rewrite (nth_error_nth _ _ _ F).
  destruct (C87_line path lines j s (Some (Report qp (Z.of_nat k - 1) t None)) Sg L E) as (R & _). cbn [get_node_code snd] in R. now rewrite R.
Qed.
Print Assumptions C87_uncompiled.
Example C87_uncompiled_sample : forall c, snd (run (Prog (lit "/outer") [lit "execute(['/inner'])"] None [(2, Some (Prog (lit "/inner") [lit "x = 1"; lit "y = ="] (Some 3) []))]) c) =
  Some (Report (lit "/outer") 1 (lit "execute(['/inner'])") (Some (Report (lit "/inner") 2 (lit "y = =") None))).
Proof. reflexivity. Qed.
