(** Model of running nodes: execute_nodes, run, clean_globals,
    set_runtime_parameters (nxt/stage.py 3793-3847, 3930-3954, 4058-4142), the
    execute function node code can call (3986-3997), Console.runcode
    (nxt/runtime.py 63-80) and the cache layer's part in it (nxt_layer.py
    996-1033; times in detail are CacheTimes.v).

    Node code is Python: a list of lines means a program ([prog]) over the
    things it can reach, the shared globals, the attributes of [self] and
    [execute]; which program a list of lines means is a parameter.  Values are
    plain data.  Resolving tokens, evaluating an attribute to a Python value
    and deep copying are parameters that may raise (any such error is called a
    Failure here).  run_as_global, which only
    an editor sets, is False; the meta attributes run writes (line 4082) and
    the cached code are not modelled. *)

From Coq Require Import String List NArith ZArith Bool Arith.
From Verif Require Import PyStr Dict NxtPath PyVal NodeIO.
Import ListNotations.

(** ** clean_globals, stage.py 4125-4142 *)

Definition comment_line (l : pystr) : bool :=
  startswith (lit "#") l || startswith (lit "'") l || startswith [34%N] l.

Section Globals.
Context {V : Type}.
Definition clean_globals (code_lines : list pystr) (good_keys : list pystr) (g : dict V) : dict V :=
  let code_lines := filter (fun l => negb (comment_line l)) code_lines in
  let cur_keys := dkeys g in
  let sus_keys := filter (fun k => negb (str_in k good_keys)) cur_keys in
  let safe_keys := good_keys ++
    filter (fun k => existsb (fun line => contains (lit "global " ++ k) line) code_lines) sus_keys in
  fold_left (fun g k => ddel k g) (filter (fun k => negb (str_in k safe_keys)) cur_keys) g.
End Globals.

(** ** What code can do *)

(** A value among the globals: plain data, a frame node, or another object. *)
Inductive gval := GVal (v : pyval) | GFrame (id : nat) | GOther (id : nat).

(** What can be raised out of code or out of the functions here. *)
Inductive raised := ExitNode | ExitGraph | Interrupt | GraphError | InvalidNode (p : pystr) | Failure (e : exn).

Inductive target := Paths (l : list pystr) | Start (p : pystr).

Inductive prog :=
| Stop (r : option raised)
| SetGlobal (k : pystr) (v : gval) (rest : prog)
| DelGlobal (k : pystr) (rest : prog)
| GetGlobal (k : pystr) (rest : option gval -> prog)
| SetAttr (a : pystr) (v : pyval) (rest : prog)
| DelAttr (a : pystr) (rest : prog)
| GetAttr (a : pystr) (rest : option pyval -> prog)
| Execute (t : target) (params : list (pyval * pyval)) (rest : option raised -> prog).

(** The log: a node is entered, left, an attribute of it set by a parameter. *)
Inductive event := Enter (p : pystr) | Leave (p : pystr) | Assign (p a : pystr).

(** The runtime layer: the console's globals, the frame nodes made so far, the
    own attributes of every class in the composed layer, the cached frame of
    each path, whether the last run of each path ended, the running flag, and
    the log of entered and left nodes. *)
Record rt := {
  gl : dict gval;
  frames : list (dict pyval);
  own : list (dict pyval);
  cached : dict nat;
  times : dict (list bool);
  running : bool;
  log : list event
}.

Definition with_gl (st : rt) (g : dict gval) : rt :=
  {| gl := g; frames := frames st; own := own st; cached := cached st; times := times st; running := running st; log := log st |}.
Definition with_frames (st : rt) (f : list (dict pyval)) : rt :=
  {| gl := gl st; frames := f; own := own st; cached := cached st; times := times st; running := running st; log := log st |}.
Definition with_own (st : rt) (o : list (dict pyval)) : rt :=
  {| gl := gl st; frames := frames st; own := o; cached := cached st; times := times st; running := running st; log := log st |}.
Definition with_cached (st : rt) (c : dict nat) : rt :=
  {| gl := gl st; frames := frames st; own := own st; cached := c; times := times st; running := running st; log := log st |}.
Definition with_times (st : rt) (t : dict (list bool)) : rt :=
  {| gl := gl st; frames := frames st; own := own st; cached := cached st; times := t; running := running st; log := log st |}.
Definition with_running (st : rt) (b : bool) : rt :=
  {| gl := gl st; frames := frames st; own := own st; cached := cached st; times := times st; running := b; log := log st |}.
Definition with_log (st : rt) (l : list event) : rt :=
  {| gl := gl st; frames := frames st; own := own st; cached := cached st; times := times st; running := running st; log := l |}.

Fixpoint update {A} (l : list A) (i : nat) (f : A -> A) : list A :=
  match l, i with
  | [], _ => []
  | x :: t, 0 => f x :: t
  | x :: t, S j => x :: update t j f
  end.

(** [a == b] on plain data: True equals 1 and False equals 0; dicts ignore the
    order of keys. *)
Definition b2z (b : bool) : Z := if b then 1%Z else 0%Z.
Fixpoint py_eqb (a b : pyval) : bool :=
  match a, b with
  | VNone, VNone => true
  | VBool x, VBool y => Bool.eqb x y
  | VInt x, VInt y => Z.eqb x y
  | VBool x, VInt y | VInt y, VBool x => Z.eqb (b2z x) y
  | VStr x, VStr y => str_eqb x y
  | VList x, VList y | VTuple x, VTuple y =>
      (fix go x y := match x, y with
                     | [], [] => true
                     | a :: x, b :: y => py_eqb a b && go x y
                     | _, _ => false
                     end) x y
  | VDict x, VDict y =>
      Nat.eqb (length x) (length y) &&
      forallb (fun kv => match dget (fst kv) y with Some w => py_eqb (snd kv) w | None => false end) x
  | VObj i, VObj j => Nat.eqb i j
  | _, _ => false
  end.

Inductive ended := Normal | Exc (r : raised) | OutOfFuel.

(** ** Times: an entry per run, true when it has an exit time *)

(** nxt_layer.py 996-1003 *)
Definition enter_time (st : rt) (p : pystr) : rt :=
  with_times st (dset p (dget_def p [] (times st) ++ [false]) (times st)).
(** nxt_layer.py 1005-1018: the first entry without exit time. *)
Fixpoint close_first (l : list bool) : option (list bool) :=
  match l with
  | [] => None
  | false :: t => Some (true :: t)
  | true :: t => option_map (cons true) (close_first t)
  end.
(** stage.py 3842-3846: close the run and subtract the times of the last one. *)
Definition exit_time (st : rt) (p : pystr) : rt * option raised :=
  match dget p (times st) with
  | None => (st, Some (Failure KeyError))
  | Some l =>
      match close_first l with
      | None => (st, Some (Failure ValueError))
      | Some l' =>
          let st' := with_times st (dset p l' (times st)) in
          if last l' true then (st', None) else (st', Some (Failure TypeError))
      end
  end.

Section Layer.
(** The composed layer while it runs: where the class of a node is and its MRO,
    whether the node is enabled (get_node_enabled(node) is not False), and the
    order of execution from a start point.  Simplification: both are fixed, so
    parameters that set an internal attribute (/n._enabled, /n._child_order) are
    not covered; the code stores the text of the value, which is never False. *)
Variables (node_of : pystr -> option (nat * list nat)) (enabled : pystr -> bool)
          (exec_order : pystr -> list pystr).
(** Code lines of a node with tokens resolved (stage.py 2363-2383); the program
    they mean, None when they do not compile (2327-2361). *)
Variables (lines_of : list (dict pyval) -> pystr -> res (list pystr)) (meaning : list pystr -> option prog).
(** get_attr_as_real_data_type (2212-2260) and copy.deepcopy: None when it
    raises RuntimeError. *)
Variables (real : list (dict pyval) -> dict gval -> pystr -> pystr -> pyval -> res pyval)
          (deepcopy : pyval -> res (option pyval)).
(** [str(value)]. *)
Variable str_of : pyval -> pystr.

(** getattr through the MRO. *)
Fixpoint attr_of (o : list (dict pyval)) (mro : list nat) (a : pystr) : option pyval :=
  match mro with
  | [] => None
  | c :: t => match dget a (nth c o []) with Some v => Some v | None => attr_of o t a end
  end.

(** Names dir reports on a plain class (nxt_node.py 43). *)
Variable builtins : list pystr.

(** The names run looks at (4075-4081), each once. *)
Definition run_attr (a : pystr) : bool := negb (str_in a (PROTECTED builtins)) && negb (endswith META_SUFFIX a).
Fixpoint uniq (l : list pystr) : list pystr :=
  match l with
  | [] => []
  | x :: t => if str_in x t then uniq t else x :: uniq t
  end.
Definition names_of (o : list (dict pyval)) (mro : list nat) : list pystr :=
  uniq (filter run_attr (concat (map (fun c => dkeys (nth c o [])) mro))).

(** ** set_runtime_parameters, stage.py 3930-3954 *)
Definition set_parameter (st : rt) (kv : pyval * pyval) : res rt :=
  match fst kv with
  | VStr attr_path =>
      let node_path := node_path_from_attr_path attr_path in
      match node_of node_path with
      | None => Ok st
      | Some (c, _) =>
          match attr_name_from_attr_path attr_path with
          | None => Raise TypeError
          | Some a => Ok (with_log (with_own st (update (own st) c (dset a (VStr (str_of (snd kv))))))
                                   (log st ++ [Assign node_path a]))
          end
      end
  | _ => Ok st
  end.
(** Parameters set before one that raises stay set. *)
Fixpoint set_runtime_parameters (params : list (pyval * pyval)) (st : rt) : rt * option exn :=
  match params with
  | [] => (st, None)
  | kv :: t =>
      match set_parameter st kv with
      | Raise e => (st, Some e)
      | Ok st' => set_runtime_parameters t st'
      end
  end.

(** ** Running code: exec in the console, runtime.py 63-80 *)

Definition SELF := lit "self".
Definition self_frame (st : rt) : option nat :=
  match dget SELF (gl st) with Some (GFrame i) => Some i | _ => None end.

(** [call] is the stage's execute or execute_nodes on this runtime layer. *)
Fixpoint interp (call : list pystr -> list (pyval * pyval) -> rt -> rt * ended) (p : prog) (st : rt) : rt * ended :=
  match p with
  | Stop None => (st, Normal)
  | Stop (Some r) => (st, Exc r)
  | SetGlobal k v rest => interp call rest (with_gl st (dset k v (gl st)))
  | DelGlobal k rest =>
      if dmem k (gl st) then interp call rest (with_gl st (ddel k (gl st))) else (st, Exc (Failure KeyError))
  | GetGlobal k rest => interp call (rest (dget k (gl st))) st
  | SetAttr a v rest =>
      match self_frame st with
      | Some i => interp call rest (with_frames st (update (frames st) i (dset a v)))
      | None => (st, Exc (Failure AttributeError))
      end
  | DelAttr a rest =>
      match self_frame st with
      | Some i =>
          if dmem a (nth i (frames st) []) then interp call rest (with_frames st (update (frames st) i (ddel a)))
          else (st, Exc (Failure AttributeError))
      | None => (st, Exc (Failure AttributeError))
      end
  | GetAttr a rest =>
      match self_frame st with
      | Some i => interp call (rest (dget a (nth i (frames st) []))) st
      | None => (st, Exc (Failure AttributeError))
      end
  | Execute t params rest =>
      let go ps := match call ps params st with
                   | (st', OutOfFuel) => (st', OutOfFuel)
                   | (st', Normal) => interp call (rest None) st'
                   | (st', Exc r) => interp call (rest (Some r)) st'
                   end in
      match t with
      | Paths [] => interp call (rest (Some (Failure ValueError))) st
      | Paths ps => go ps
      | Start p =>
          match node_of p with
          | None => interp call (rest (Some (Failure ValueError))) st
          | Some _ => go (exec_order p)
          end
      end
  end.
Definition runcode call p st : rt * ended :=
  match interp call p st with
  | (st', Exc ((InvalidNode _ | Failure _) as r)) => (st', Exc GraphError)
  | r => r
  end.

(** ** run, stage.py 4058-4122 *)

(** 4075-4091: the frame and the values before the run. *)
Fixpoint load_attrs (o : list (dict pyval)) (g : dict gval) (p : pystr) (mro : list nat) (names : list pystr) (f : dict pyval)
  : res (dict pyval) :=
  match names with
  | [] => Ok f
  | a :: t =>
      match attr_of o mro a with
      | None => Raise AttributeError
      | Some v =>
          bind (real o g p a v) (fun r =>
          bind (deepcopy r) (fun c =>
          load_attrs o g p mro t (dset a (match c with Some v' => v' | None => r end) f)))
      end
  end.

(** 4111-4119: changed values go to the node. *)
Fixpoint push_back (pre : dict pyval) (f : dict pyval) (o : list (dict pyval)) (c : nat) : list (dict pyval) * option exn :=
  match pre with
  | [] => (o, None)
  | (a, v) :: t =>
      match dget a f with
      | None => (o, Some AttributeError)
      | Some w => push_back t f (if py_eqb v w then o else update o c (dset a w)) c
      end
  end.

Definition run (call : list pystr -> list (pyval * pyval) -> rt -> rt * ended) (p : pystr) (c : nat) (mro : list nat) (st : rt)
  : rt * ended :=
  match lines_of (own st) p with
  | Raise e => (st, Exc (Failure e))
  | Ok lines =>
      match load_attrs (own st) (gl st) p mro (names_of (own st) mro) [] with
      | Raise e => (st, Exc (Failure e))
      | Ok f =>
          let i := length (frames st) in
          let st1 := with_cached (with_frames st (frames st ++ [f])) (dset p i (cached st)) in
          match meaning lines with
          | None => (st1, Exc GraphError)
          | Some code =>
              let good_keys := dkeys (gl st1) in
              let st2 := with_running (with_gl st1 (dset SELF (GFrame i) (gl st1))) true in
              match runcode call code st2 with
              | (st3, OutOfFuel) => (st3, OutOfFuel)
              | (st3, Exc Interrupt) => (st3, Exc Interrupt)
              | (st3, Exc GraphError) =>
                  (with_running (with_gl st3 (clean_globals lines good_keys (gl st3))) false, Exc GraphError)
              | (st3, e) =>
                  let st4 := with_running (with_gl st3 (clean_globals lines good_keys (gl st3))) false in
                  match push_back f (nth i (frames st4) []) (own st4) c with
                  | (o, Some x) => (with_own st4 o, Exc (Failure x))
                  | (o, None) => (with_own st4 o, e)
                  end
              end
          end
      end
  end.

(** ** execute_nodes on a runtime layer, stage.py 3815-3847 *)

(** 3818-3847 for one node of the list. *)
Definition visit (call : list pystr -> list (pyval * pyval) -> rt -> rt * ended) (p : pystr) (st : rt) : rt * ended :=
  match node_of p with
  | None => (st, Exc (InvalidNode p))
  | Some (c, mro) =>
      if enabled p then
        let st1 := with_log (enter_time st p) (log st ++ [Enter p]) in
        match run call p c mro st1 with
        | (st2, OutOfFuel) => (st2, OutOfFuel)
        | (st2, e) =>
            let '(st3, x) := exit_time st2 p in
            let st4 := with_log st3 (log st3 ++ [Leave p]) in
            match x with
            | Some r => (st4, Exc r)
            | None => (st4, match e with Exc ExitNode => Normal | e => e end)
            end
        end
      else (st, Normal)
  end.
Fixpoint visit_all call (ps : list pystr) (st : rt) : rt * ended :=
  match ps with
  | [] => (st, Normal)
  | p :: t => match visit call p st with
              | (st', Normal) => visit_all call t st'
              | r => r
              end
  end.
(** A call nested deeper than the fuel is out of fuel. *)
Fixpoint execute_nodes (fuel : nat) (ps : list pystr) (params : list (pyval * pyval)) (st : rt) : rt * ended :=
  match fuel with
  | 0 => (st, OutOfFuel)
  | S f =>
      match set_runtime_parameters params st with
      | (st', Some e) => (st', Exc (Failure e))
      | (st', None) => visit_all (execute_nodes f) ps st'
      end
  end.
End Layer.
