(** Model of the session that loads, finds, unloads and executes graphs and
    owns the rpc server (nxt/session.py).  A graph is the part of a Stage the
    session looks at.  What comes from outside is an argument of each call: the
    clock reading that becomes the graph's uid, what the file holds, whether
    executing raises, and how the rpc server behaves. *)

From Coq Require Import String List NArith ZArith Bool Arith.
From Verif Require Import PyStr NxtPath Names.
Import ListNotations.

(** What the session uses of a Stage (stage.py 132-191): the alias of its top
    layer ([_name]), its [filepath] and the node paths of each of its layers. *)
Record graph := {
  g_name : pystr;
  g_path : pystr;
  g_layers : list (list pystr) }.

(** What load_file_data gives (nxt_io.py 53-112) as far as Stage uses it here:
    the entry 'alias' of the file, the entry '_filepath' of the file (line 108
    writes the path under 'filepath', not '_filepath'), the path's base name and
    the node paths of the layers loaded with it.  Entries that are not strings
    are not modelled. *)
Record file := {
  f_alias : option pystr;
  f_own_path : option pystr;
  f_base : pystr;
  f_layers : list (list pystr) }.

Definition UNTITLED : pystr := lit "untitled".
Definition UNTITLED_PATH : pystr := lit "untitled.nxt".

(** [Stage(layer_data=…)] (stage.py 141-151, nxt_layer.py 114-121). *)
Definition stage_of_file (f : file) : graph :=
  {| g_name := match f_alias f with Some a => a | None => f_base f end;
     g_path := match f_own_path f with Some p => p | None => UNTITLED_PATH end;
     g_layers := f_layers f |}.

(** [Stage(name=…)] (stage.py 141-151): the name goes into the layer's data
    under 'name', but the layer takes its alias from 'alias' (nxt_layer.py
    117-121).  So the name is not used.  The new layer has no nodes. *)
Definition stage_of_name (name : pystr) : graph :=
  {| g_name := UNTITLED; g_path := UNTITLED_PATH; g_layers := [[]] |}.

(** The session: the loaded graphs by uid in the order of their insertion,
    whether the session holds a server object, whether an rpc server answers,
    and the environment variable of the logging verbosity. *)
Record session := {
  loaded : list (Z * graph);
  owned : bool;
  running : bool;
  verbosity : option pystr }.

Definition set_loaded (l : list (Z * graph)) (s : session) : session :=
  {| loaded := l; owned := owned s; running := running s; verbosity := verbosity s |}.

(** session.py 25-28.  [r], [v]: the world the session starts in. *)
Definition new_session (r : bool) (v : option pystr) : session :=
  {| loaded := []; owned := false; running := r; verbosity := v |}.

(** [d[k] = v] for the dict of loaded graphs. *)
Fixpoint put (k : Z) (g : graph) (l : list (Z * graph)) : list (Z * graph) :=
  match l with
  | [] => [(k, g)]
  | (k', g') :: t => if Z.eqb k' k then (k, g) :: t else (k', g') :: put k g t
  end.

(** What a call returns or raises.  [GraphFailed] stands for anything raised
    while a graph is composed or executed. *)
Inductive result :=
| Graph (uid : Z)
| Bool (b : bool)
| Done
| OpenFailed | NotLoaded | BadKey | ServerFailed | GraphFailed.

(** session.py 43-68 with fuel; [None] = out of fuel. *)
Fixpoint unused_loop (taken : pystr -> bool) (name : pystr) (fuel num : nat)
         (potential result : pystr) : option pystr :=
  match result with
  | _ :: _ => Some result
  | [] =>
      match fuel with
      | O => None
      | S f =>
          if taken potential
          then unused_loop taken name f (S num) (name ++ dec (S num)) []
          else unused_loop taken name f num potential potential
      end
  end.
Definition get_unused_graph_name (s : session) (fuel : nat) (name : pystr) : option pystr :=
  unused_loop (fun n => existsb (fun r => str_eqb n (g_name (snd r))) (loaded s))
              name fuel 0 name [].

(** session.py 35-41; [t] is the clock reading of [nxt_uuid(f=True)]
    (stage.py 142, 4227-4236). *)
Definition new_file (s : session) (fuel : nat) (t : Z) : option (result * session) :=
  option_map
    (fun name => (Graph t, set_loaded (put t (stage_of_name name) (loaded s)) s))
    (get_unused_graph_name s fuel UNTITLED).

(** session.py 70-86; [None] = the file cannot be opened. *)
Definition load_file (s : session) (f : option file) (t : Z) : result * session :=
  match f with
  | None => (OpenFailed, s)
  | Some f => (Graph t, set_loaded (put t (stage_of_file f) (loaded s)) s)
  end.

(** session.py 88-96. *)
Definition unload_file (s : session) (uid : Z) : result * session :=
  match filter (fun r => Z.eqb (fst r) uid) (loaded s) with
  | [] => (NotLoaded, s)
  | _ :: _ => (Done, set_loaded (filter (fun r => negb (Z.eqb (fst r) uid)) (loaded s)) s)
  end.

(** session.py 98-125: every uid is a float, so [k[0]] raises TypeError for the
    first loaded graph. *)
Definition save_file (s : session) (path new_path : option pystr) : result * session :=
  match loaded s with
  | _ :: _ => (BadKey, s)
  | [] => (Bool false, s)
  end.

Section Paths.
(** [os.path.normcase]. *)
Variable normcase : pystr -> pystr.

(** session.py 130-144. *)
Definition get_stage (s : session) (path : pystr) (f : option file) (t : Z) : result * session :=
  match find (fun r => str_eqb (g_path (snd r)) (normcase path)) (loaded s) with
  | Some (uid, _) => (Graph uid, s)
  | None => load_file s f t
  end.

(** How the rpc server behaves during one call: whether nxt runs as standalone,
    whether the port is free, at which of the checks (one a second, from 1) a
    started server answers first, and whether a request to shut down works. *)
Record behaviour := {
  standalone : bool;
  port_free : bool;
  answers : option nat;
  obeys : bool }.

Definition STARTUP_TIMEOUT : nat := 5.

(** The waiting loop (session.py 365-373): the final [count], with [None] for a
    server that never answers. *)
Fixpoint wait_count (answers : option nat) (fuel count : nat) : nat :=
  match fuel with
  | O => count
  | S f =>
      let count := S count in
      match answers with
      | Some k => if k <=? count then count else wait_count answers f count
      | None => wait_count answers f count
      end
  end.

(** RPCServerProcess.start and run (session.py 310-377) and _start_rpc_server
    (231-251).  A started server runs from then on if it ever answers. *)
Definition start_rpc_server (s : session) (socket_log : bool) (b : behaviour) : result * session :=
  let without r := {| loaded := loaded s; owned := false; running := r; verbosity := verbosity s |} in
  if negb (standalone b) then (Done, without (running s))
  else if running s then (Done, without true)
  else if negb (port_free b) then (ServerFailed, s)
  else
    let loud := if socket_log then Some (lit "socket") else verbosity s in
    let up := match answers b with Some _ => true | None => false end in
    if wait_count (answers b) STARTUP_TIMEOUT 0 =? STARTUP_TIMEOUT
    then (ServerFailed, {| loaded := loaded s; owned := owned s; running := up; verbosity := loud |})
    else (Done, {| loaded := loaded s; owned := true; running := up;
                   verbosity := match verbosity s with Some v => Some v | None => loud end |}).

(** session.py 253-268 and 399-424.  On systems where a refused connection is
    not error 10061 a failed request leaves the process alone. *)
Definition shutdown_rpc_server (s : session) (b : behaviour) : session :=
  if owned s
  then {| loaded := loaded s; owned := false;
          running := if obeys b then false else running s; verbosity := verbosity s |}
  else s.

Definition REMOTE_PATH : pystr := join_node_paths (lit "/") (lit "_remote_sub_graph").
Definition SUB_GRAPH_PATH : pystr := join_node_paths (lit "/") (lit "_sub_graph").

(** session.py 199-229. *)
Definition start_rpc_if_needed (s : session) (g : graph) (b : behaviour) : result * session :=
  if existsb (fun l => str_in REMOTE_PATH l || str_in SUB_GRAPH_PATH l) (g_layers g)
  then start_rpc_server s false b
  else (Done, s).

(** The graph with a uid. *)
Definition graph_at (s : session) (uid : Z) : option graph :=
  option_map snd (find (fun r => Z.eqb (fst r) uid) (loaded s)).

(** session.py 146-187.  [fails]: executing raises.  [remote]: a context is
    given. *)
Definition execute_graph (s : session) (path : pystr) (f : option file) (t : Z)
           (remote fails : bool) (b : behaviour) : result * session :=
  match get_stage s path f t with
  | (Graph uid, s) =>
      match graph_at s uid with
      | None => (GraphFailed, s)
      | Some g =>
          match (if remote then start_rpc_server s false b else start_rpc_if_needed s g b) with
          | (Done, s) => (if fails then GraphFailed else Done, shutdown_rpc_server s b)
          | (e, s) => (e, s)
          end
      end
  | (e, s) => (e, s)
  end.

(** session.py 189-197.  [unbuilt]: build_stage raises, outside the [try]. *)
Definition execute_nodes (s : session) (path : pystr) (f : option file) (t : Z)
           (unbuilt fails : bool) (b : behaviour) : result * session :=
  match get_stage s path f t with
  | (Graph uid, s) =>
      match graph_at s uid with
      | None => (GraphFailed, s)
      | Some g =>
          match start_rpc_if_needed s g b with
          | (Done, s) =>
              if unbuilt then (GraphFailed, s)
              else (if fails then GraphFailed else Done, shutdown_rpc_server s b)
          | (e, s) => (e, s)
          end
      end
  | (e, s) => (e, s)
  end.

(** [stage._name = …] and [stage.filepath = …] on a loaded graph (stage.py
    171-187). *)
Definition map_graph (fn : graph -> graph) (uid : Z) (s : session) : session :=
  set_loaded (map (fun r => if Z.eqb (fst r) uid then (fst r, fn (snd r)) else r) (loaded s)) s.
Definition with_name (n : pystr) (g : graph) : graph :=
  {| g_name := n; g_path := g_path g; g_layers := g_layers g |}.
Definition with_path (p : pystr) (g : graph) : graph :=
  {| g_name := g_name g; g_path := p; g_layers := g_layers g |}.

(** The calls of a user of the session. *)
Inductive call :=
| NewFile (t : Z)
| LoadFile (f : option file) (t : Z)
| UnloadFile (uid : Z)
| SaveFile (path new_path : option pystr)
| GetStage (path : pystr) (f : option file) (t : Z)
| ExecuteGraph (path : pystr) (f : option file) (t : Z) (remote fails : bool) (b : behaviour)
| ExecuteNodes (path : pystr) (f : option file) (t : Z) (unbuilt fails : bool) (b : behaviour)
| SetName (uid : Z) (n : pystr)
| SetPath (uid : Z) (p : pystr)
| StartServer (socket_log : bool) (b : behaviour)
| ShutdownServer (b : behaviour).

(** new_file always ends here: see C56_new_file. *)
Definition step (s : session) (c : call) : result * session :=
  match c with
  | NewFile t =>
      match new_file s (S (S (length (loaded s)))) t with
      | Some r => r
      | None => (GraphFailed, s)
      end
  | LoadFile f t => load_file s f t
  | UnloadFile uid => unload_file s uid
  | SaveFile p q => save_file s p q
  | GetStage p f t => get_stage s p f t
  | ExecuteGraph p f t r e b => execute_graph s p f t r e b
  | ExecuteNodes p f t u e b => execute_nodes s p f t u e b
  | SetName uid n => (Done, map_graph (with_name n) uid s)
  | SetPath uid p => (Done, map_graph (with_path p) uid s)
  | StartServer l b => start_rpc_server s l b
  | ShutdownServer b => (Done, shutdown_rpc_server s b)
  end.

Definition run (s : session) (cs : list call) : session :=
  fold_left (fun s c => snd (step s c)) cs s.

End Paths.
