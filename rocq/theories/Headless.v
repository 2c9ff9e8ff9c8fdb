(** Model of executing a graph in another context: the registry of contexts
    (nxt/remote/contexts.py 44-69), the server's exec_in_headless
    (nxt/remote/server.py 65-152) and how the command line of the process it
    starts is read (nxt/cli.py 175-205, 225-229 and 278-279).

    Simplifications: expanding file paths, replacing os.sep and naming temporary
    files are parameters; temporary files can be written; a context whose
    executable is a format string for UE4Editor is not read back (141-143); of
    argparse only the positional file and -p are covered, and an argument that
    begins with a dash is an option. *)

From Coq Require Import String List NArith Bool Arith.
From Verif Require Import PyStr Dict PyVal Cli.
Import ListNotations.

(** contexts.py 16-32 *)
Record context := { c_name : pystr; c_exe : pystr; c_graph : pystr; c_args : list pystr }.

(** contexts.py 44-57 and 60-64 *)
Definition register_context (known : list context) (c : context) : list context := known ++ [c].
Fixpoint find_context_by_name (known : list context) (name : pystr) : option context :=
  match known with
  | [] => None
  | c :: t => if str_eqb (c_name c) name then Some c else find_context_by_name t name
  end.

(** How the server answers: the NameError, the two TypeErrors, another error, or
    the arguments of the process, the file of parameters and the file of results. *)
Inductive answer :=
| UnknownContext | NoExe | NoContextGraph | Error (e : exn)
| Started (args : list pystr) (parameters_file : option (pystr * pyval)) (cache_path : pystr).

Section Server.
(** nxt_path.full_file_expand; text.replace(os.sep, '/'); the names of the temporary files for
    results and for parameters; the path of cli.py. *)
Variables (expand : pystr -> res pystr) (slashes : pystr -> pystr) (temp_cache temp_parameters script : pystr).

(** server.py 122-138 *)
Definition cli_args (context_graph graph cache_path : pystr) (parameters_file : option pystr) : list pystr :=
  [lit "exec"; context_graph; lit "-p"; lit "/.graph_file"; graph; lit "/.cache_file"; cache_path]
  ++ match parameters_file with Some f => [lit "/.parameters_file"; f] | None => [] end.
Definition call_args (c : context) (cli : list pystr) (start_node : pystr) : list pystr :=
  match c_args c with
  | [] => [c_exe c; script] ++ cli ++
          match start_node with [] => [] | _ => [lit "/enter/call_graph._start"; start_node] end
  | extra_args => [c_exe c] ++ extra_args ++ [script; lit "--"] ++ cli
  end.

(** server.py 84-152; an empty text is none.  Simplification: the parameters are
    a dict, and JSON refuses with a TypeError. *)
Definition exec_in_headless (known : list context) (filepath start_node cache_path : pystr)
           (parameters : dict pyval) (context_name : pystr) : answer :=
  match find_context_by_name known context_name with
  | None => UnknownContext
  | Some c =>
      match c_exe c with
      | [] => NoExe
      | _ =>
          match expand (c_graph c) with
          | Raise e => Error e
          | Ok [] => NoContextGraph
          | Ok context_graph =>
              let cache_path := slashes (match cache_path with [] => temp_cache | _ => cache_path end) in
              let finish (parameters_file : option (pystr * pyval)) :=
                match expand filepath with
                | Raise e => Error e
                | Ok safe_graph_path =>
                    Started (call_args c (cli_args (slashes context_graph) safe_graph_path cache_path (option_map fst parameters_file)) start_node)
                            parameters_file cache_path
                end in
              match parameters with
              | [] => finish None
              | _ => if json_ok (VDict parameters) then finish (Some (slashes temp_parameters, json_norm (VDict parameters)))
                     else Error TypeError
              end
          end
      end
  end.
End Server.

(** ** The process *)

(** cli.py 225-227; [argv] is sys.argv.  The first entry is the program's name. *)
Fixpoint from_dashes (argv : list pystr) : option (list pystr) :=
  match argv with
  | [] => None
  | a :: t => if str_eqb a (lit "--") then Some argv else from_dashes t
  end.
Definition arguments (argv : list pystr) : list pystr :=
  tl (match from_dashes argv with Some l => l | None => argv end).

(** cli.py 175-205: the file and the values of -p; [None]: refused, or an option
    that is not covered. *)
Fixpoint parse_exec (toks : list pystr) (path parameters : option (list pystr)) : option (list pystr * list pystr) :=
  match toks with
  | [] => match path with
          | Some p => Some (p, match parameters with Some l => l | None => [] end)
          | None => None
          end
  | t :: rest =>
      if str_in t [lit "-p"; lit "--parameters"] then parse_exec rest path (Some [])
      else if startswith (lit "-") t then None
      else match parameters, path with
           | Some l, _ => parse_exec rest path (Some (l ++ [t]))
           | None, None => parse_exec rest (Some [t]) None
           | None, Some _ => None
           end
  end.
(** cli.py 228-229 and 278-279: the graph the process executes and its
    parameters. *)
Definition command (isfile : pystr -> bool) (load : pystr -> res pyval) (argv : list pystr) : option (pystr * parsed) :=
  match arguments argv with
  | e :: toks =>
      if str_eqb e (lit "exec") then
        match parse_exec toks None None with
        | Some (path, parameters) => Some (nth 0 path [], parse_parameters isfile load parameters)
        | None => None
        end
      else None
  | [] => None
  end.
