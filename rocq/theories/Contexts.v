(** Model of making a context (nxt/__init__.py 63-138, the template
    nxt/remote/remote_context_template.py) and of loading the plugins, one of
    which it becomes (nxt/plugin_loader.py 15-32).

    Simplifications: the separator is '/'; there are no symbolic links, and paths
    have no ~ and no variables; files can be written; the user's plugin directory
    is absolute and in normal form; a plugin other than a context's registers
    contexts or raises, and is a .py file. *)

From Coq Require Import String List NArith Bool Arith.
From Verif Require Import PyStr Dict Headless.
Import ListNotations.

Definition SLASH : N := 47.
Definition DOT : pystr := lit ".".
Definition DOTS : pystr := lit "..".

(** ** os.path *)

(** os.path.normpath on the segments of a path below [base], the last segment of
    which comes first; above the root is the root. *)
Fixpoint resolve (base segs : list pystr) : list pystr :=
  match segs with
  | [] => base
  | s :: t => resolve (if str_in s [[]; DOT] then base else if str_eqb s DOTS then tl base else s :: base) t
  end.
(** os.path.abspath, as segments. *)
Definition abs_segs (cwd path : pystr) : list pystr :=
  let below d p := rev (resolve d (split SLASH p)) in
  if startswith (lit "/") path then below [] path else below (resolve [] (split SLASH cwd)) path.
Definition abspath (cwd path : pystr) : pystr := lit "/" ++ join (lit "/") (abs_segs cwd path).

(** os.path.commonprefix, of texts and of lists. *)
Fixpoint common {A} (eqb : A -> A -> bool) (a b : list A) : list A :=
  match a, b with
  | x :: a, y :: b => if eqb x y then x :: common eqb a b else []
  | _, _ => []
  end.
(** os.path.relpath *)
Definition relpath (cwd path start : pystr) : pystr :=
  let path_list := abs_segs cwd path in
  let start_list := abs_segs cwd start in
  let i := length (common str_eqb start_list path_list) in
  match repeat DOTS (length start_list - i) ++ skipn i path_list with
  | [] => DOT
  | rel_list => join (lit "/") rel_list
  end.

(** os.path.splitext: the part before the last dot, if it is not made of dots. *)
Definition stem (file : pystr) : pystr :=
  match rpartition_opt DOT file with
  | Some (name, _) => if forallb (N.eqb 46) name then file else name
  | None => file
  end.

(** ** Files *)

(** A context's plugin, the template filled in; another plugin, with the contexts
    it registers or none if it raises; a graph made from a starter context, or
    one that only references the builtin context graph. *)
Inductive content :=
| Plugin (name exe graph : pystr) (args : list pystr)
| Code (registers : option (list context))
| Graph (starter : option pystr) (alias : pystr).

(** remote_context_template.py 8-10: the text of a line between single quotes as
    Python reads it: a text, a SyntaxError, or something not covered (escapes,
    comments, several quotes). *)
Inductive text := Text (value : pystr) | Unterminated | NotCovered.
Definition plain (c : N) : bool := negb (existsb (N.eqb c) [10%N; 13%N; 35%N; 39%N; 92%N]).
Definition quoted (t : pystr) : text :=
  if forallb (fun c => plain c || N.eqb c 35) t then Text t
  else match split 39 t with
       | [c :: a; d :: b] => if forallb plain (c :: a) && forallb plain (d :: b) then Unterminated else NotCovered
       | _ => NotCovered
       end.

(** remote_context_template.py 8-13; the tuple of arguments is read as it was. *)
Inductive run := Registers (c : context) | Syntax | Unknown.
Definition run_plugin (name exe graph : pystr) (args : list pystr) : run :=
  match quoted name, quoted exe, quoted graph with
  | Text n, Text e, Text g => Registers {| c_name := n; c_exe := e; c_graph := g; c_args := args |}
  | NotCovered, _, _ | _, NotCovered, _ | _, _, NotCovered => Unknown
  | _, _, _ => Syntax
  end.

(** ** Making a context *)

Record world := { files : dict content; known : list context }.

(** __init__.py 85, 98, 105, 111, 118, 127: the errors; [Failed]: the text of the
    plugin is no Python. *)
Inductive made := Made (name : pystr) | NoName | Taken | NoGraph | Failed | Outside.

Definition py_file (dir name : pystr) : pystr := dir ++ lit "/custom_" ++ name ++ lit "_context.py".
Definition nxt_file (dir name : pystr) : pystr := dir ++ lit "/custom_" ++ name ++ lit "_context.nxt".

Section Make.
(** The user's plugin directory, the working directory, the name of the running
    executable, the starter contexts and the name of an executable: lower case,
    without directory and extension (__init__.py 109-110). *)
Variables (dir cwd this_exe : pystr) (starters : dict pystr) (exe_name : pystr -> pystr).

(** __init__.py 106-112 *)
Definition starter_context (interpreter_exe : pystr) : option pystr :=
  match dget this_exe starters with
  | Some s => Some s
  | None => dget (exe_name interpreter_exe) starters
  end.

(** __init__.py 123-129; [None]: there is no such file.  [context_graph.replace]
    in line 129 has no effect. *)
Definition given_graph (w : world) (context_graph name : pystr) : option pystr :=
  if dmem (abspath cwd context_graph) (files w) then
    match common N.eqb context_graph (py_file dir name) with
    | [] => Some context_graph
    | root => Some (relpath cwd context_graph root)
    end
  else None.

(** __init__.py 131-136: the file is written before it is run. *)
Definition write_and_run (w : world) (name exe graph : pystr) (args : list pystr) : world * made :=
  let w1 := {| files := dset (py_file dir name) (Plugin name exe graph args) (files w); known := known w |} in
  match run_plugin name exe graph args with
  | Registers c => ({| files := files w1; known := register_context (known w1) c |}, Made name)
  | Syntax => (w1, Failed)
  | Unknown => (w1, Outside)
  end.

(** __init__.py 63-137 *)
Definition create_context (w : world) (name exe : pystr) (context_graph : option pystr) (args : list pystr) : world * made :=
  match name with
  | [] => (w, NoName)
  | _ =>
      if dmem (py_file dir name) (files w) then (w, Taken)
      else match context_graph with
           | None =>
               let saved := Graph (starter_context exe) (lit "custom_" ++ name ++ lit "_context") in
               write_and_run {| files := dset (nxt_file dir name) saved (files w); known := known w |}
                             name exe (nxt_file dir name) args
           | Some g =>
               match given_graph w g name with
               | None => (w, NoGraph)
               | Some graph => write_and_run w name exe graph args
               end
           end
  end.
End Make.

(** ** Loading plugins *)

(** The names of the modules loaded, the contexts registered, the modules run in
    order.  *)
Record loading := { l_names : list pystr; l_known : list context; l_run : list pystr }.

Section Load.
(** os.listdir, [None] if it is no directory. *)
Variables (listdir : pystr -> option (list pystr)) (found : dict content).

Definition module_file (dir mod_name : pystr) : pystr := dir ++ lit "/" ++ mod_name ++ lit ".py".
(** plugin_loader.py 25-30; [None]: the plugin raises, and with it load_plugins. *)
Definition load_module (dir mod_name : pystr) (c : content) (st : loading) : option loading :=
  let done known := Some {| l_names := l_names st ++ [mod_name]; l_known := known; l_run := l_run st ++ [module_file dir mod_name] |} in
  match c with
  | Plugin n e g a => match run_plugin n e g a with Registers x => done (register_context (l_known st) x) | _ => None end
  | Code (Some l) => done (fold_left register_context l (l_known st))
  | _ => None
  end.
(** plugin_loader.py 22-32 *)
Fixpoint load_files (dir : pystr) (names : list pystr) (st : loading) : option loading :=
  match names with
  | [] => Some st
  | f :: t =>
      if str_in (stem f) (l_names st) then load_files dir t st
      else match dget (module_file dir (stem f)) found with
           | None => load_files dir t st
           | Some c => match load_module dir (stem f) c st with Some st' => load_files dir t st' | None => None end
           end
  end.
(** plugin_loader.py 15-32 *)
Fixpoint load_plugins (dirs : list pystr) (st : loading) : option loading :=
  match dirs with
  | [] => Some st
  | d :: t =>
      match listdir d with
      | None => load_plugins t st
      | Some names => match load_files d names st with Some st' => load_plugins t st' | None => None end
      end
  end.
End Load.
