(** Model of how an error in a node's code is reported: get_node_code
    (nxt/stage.py 2326-2360), the console (nxt/runtime.py 63-90 and 94-106) and
    what run sets in it (nxt/stage.py 4092-4106).

    Simplifications: a code is what it does, a list of compiled lines that raise
    or call [execute] (a loop gives many); lines end at '\n' only; errors
    of [execute] itself, ExitNode and ExitGraph are left out; of a report, the
    further frames of the traceback and the text of the exception are left out
    (an exception that is itself a report is kept: its text is in the report). *)

From Coq Require Import String List NArith ZArith Bool.
From Verif Require Import PyStr.
Import ListNotations.

Definition NL : N := 10%N.

(** stage.py 2337-2347 and 2360: the text compiled, and the lines kept. *)
Definition get_node_code (custom_code : pystr) (code_lines : list pystr) : pystr * list pystr :=
  match custom_code with
  | [] => (join [NL] (lit "# Blank Line" :: code_lines), code_lines)
  | _ => (custom_code, split NL custom_code)
  end.

(** [lines[i]]; None is the IndexError. *)
Definition item (lines : list pystr) (i : Z) : option pystr :=
  if (i <? 0)%Z
  then let j := (Z.of_nat (length lines) + i)%Z in if (j <? 0)%Z then None else nth_error lines (Z.to_nat j)
  else nth_error lines (Z.to_nat i).

(** What the console knows of what runs (runtime.py 53-54, 56; stage.py 4095-4096). *)
Record console := { node_path : pystr; running_lines : list pystr }.
(** Where an error is said to be, and the report it was caused by (runtime.py
    94-99). *)
Inductive report := Report (node : pystr) (lineno : Z) (bad_line : pystr) (cause : option report).

(** runtime.py 67-76, for the compiled line [k] of the frame of the code. *)
Definition report_at (c : console) (k : nat) (cause : option report) : report :=
  let lineno := (Z.of_nat k - 1)%Z in
  Report (node_path c) lineno (match item (running_lines c) (lineno - 1) with Some l => l | None => lit "LINE NOT FOUND" end) cause.

(** stage.py 2350-2359: a syntax error at the compiled line [k]. *)
Definition syntax_lineno (k : nat) : Z := (Z.of_nat k - 1)%Z.
(** The report of it (runtime.py 108-115); the text is the one Python gives, of
    the compiled line. *)
Definition syntax_report (path text : pystr) (k : nat) : report :=
  Report path (syntax_lineno k) (nth (pred k) (split NL text) []) None.

(** A node's path, its lines, the compiled line at which its code cannot be
    compiled, and what its code does: [(k, None)] raises at the compiled line k,
    [(k, Some p)] executes p from there. *)
Inductive prog := Prog (path : pystr) (code_lines : list pystr) (bad : option nat) (steps : list (nat * option prog)).

(** stage.py 4092-4106 and 3989-3996: the console afterwards, and the report. *)
Fixpoint run (p : prog) (c : console) : console * option report :=
  match p with
  | Prog path code_lines (Some k) _ => (c, Some (syntax_report path (fst (get_node_code [] code_lines)) k))
  | Prog path code_lines None steps =>
      (fix go (steps : list (nat * option prog)) (c : console) : console * option report :=
         match steps with
         | [] => (c, None)
         | (k, None) :: _ => (c, Some (report_at c k None))
         | (k, Some q) :: t =>
             match run q c with
             | (c, None) => go t c
             | (c, Some r) => (c, Some (report_at c k (Some r)))
             end
         end) steps {| node_path := path; running_lines := snd (get_node_code [] code_lines) |}
  end.
