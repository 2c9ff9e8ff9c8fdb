(** Model of the socket client, which runs graphs on behalf of a server it is
    connected to (nxt/remote/nxt_socket.py 55-67, 83-171, 241-264, 267-300).

    Simplifications: logging is left out, and with it the handler that sends log
    records; the comp layer is left out next to the runtime layer made from it;
    a connected socket takes what is sent; [close], [open], [ping] and
    [get_cache] are left out. *)

From Coq Require Import String List NArith Bool Arith.
From Verif Require Import PyStr PyVal Names.
Import ListNotations.

(** nxt_socket.py 19 and 254-256: the header is the length, with blanks after
    it up to ten characters. *)
Definition HEADER_SIZE : nat := 10.
Definition BLANK : N := 32%N.
Definition header (n : nat) : pystr := dec n ++ repeat BLANK (HEADER_SIZE - length (dec n)).
Definition frame (msg : pystr) : pystr := header (length msg) ++ msg.

(** Messages: the ones with COM_TYPE.WAIT and COM_TYPE.ERR (55-67). *)
Inductive message := Wait (state : bool) | Err.
(** What a call ends with: [None], or the exception. *)
Inductive failure := Exn (e : exn) | GraphError | ExitGraph.
(** What [recv] does: bytes, none, an exception. *)
Inductive reply := Okay | Empty | Broken.

Section Client.
(** What is in a graph file, a Stage, a runtime layer. *)
Variables (Data Stage Runtime : Type).
(** Stage(file_data); build_stage and setup_runtime_layer; execute_nodes, which
    changes the runtime layer also when it raises. *)
Variables (make_stage : Data -> res Stage) (compose : Stage -> res Runtime)
          (exec : Stage -> option (list pystr) -> Runtime -> pyval -> Runtime * option failure).
(** Is there a server, and is this Python 3? *)
Variables (connected python3 : bool).

(** What happens, in order: messages, and graphs run with what they start from. *)
Inductive event := Sent (m : message) | Ran (g : Stage) (order : option (list pystr)) (from : Runtime) (parameters : pyval).

(** nxt_socket.py 85-94; [replies]: what the server is going to answer. *)
Record client := { filepath : option pystr; exec_order : option (list pystr); stage : option Stage; runtime_layer : option Runtime; replies : list reply }.
Definition new_client (rs : list reply) : client := {| filepath := None; exec_order := None; stage := None; runtime_layer := None; replies := rs |}.
Definition with_file (p : pystr) (s : client) := {| filepath := Some p; exec_order := exec_order s; stage := stage s; runtime_layer := runtime_layer s; replies := replies s |}.
Definition with_order (o : list pystr) (s : client) := {| filepath := filepath s; exec_order := Some o; stage := stage s; runtime_layer := runtime_layer s; replies := replies s |}.
Definition with_stage (g : Stage) (s : client) := {| filepath := filepath s; exec_order := exec_order s; stage := Some g; runtime_layer := runtime_layer s; replies := replies s |}.
Definition with_runtime (r : Runtime) (s : client) := {| filepath := filepath s; exec_order := exec_order s; stage := stage s; runtime_layer := Some r; replies := replies s |}.
Definition with_replies (rs : list reply) (s : client) := {| filepath := filepath s; exec_order := exec_order s; stage := stage s; runtime_layer := runtime_layer s; replies := rs |}.

Definition step := client -> client * list event * option failure.
(** One after the other, until an exception. *)
Definition next (a b : step) : step := fun s =>
  match a s with
  | (s, t, Some e) => (s, t, Some e)
  | (s, t, None) => let '(s, t', r) := b s in (s, t ++ t', r)
  end.
Definition change (f : client -> client) : step := fun s => (f s, [], None).
Definition fails (e : exn) : step := fun s => (s, [], Some (Exn e)).
Definition skip : step := fun s => (s, [], None).

(** nxt_socket.py 241-264 send_to_server: [bytes(text)] (255) needs an encoding
    in Python 3. *)
Definition send (m : message) : step := fun s =>
  if connected then if python3 then (s, [], Some (Exn TypeError)) else (s, [Sent m], None)
  else (s, [], None).
(** nxt_socket.py 283-288; a server answers when nothing else is said. *)
Definition recv (s : client) : reply * client :=
  match replies s with [] => (Okay, s) | r :: rs => (r, with_replies rs s) end.
(** nxt_socket.py 276-294 *)
Definition send_wait_msg (state : bool) : step := fun s =>
  if connected then
    next (send (Wait state)) (fun s => match recv s with
                                       | (Empty, s) => send (Wait false) s
                                       | (_, s) => skip s
                                       end) s
  else skip s.
(** nxt_socket.py 296-300: [with IPCWait(self)]; the exception of the end
    replaces the one of the body. *)
Definition waiting (body : step) : step := fun s =>
  match send_wait_msg true s with
  | (s, t, Some e) => (s, t, Some e)
  | (s, t, None) =>
      let '(s, t', r) := body s in
      let '(s, t'', r') := send_wait_msg false s in
      (s, t ++ t' ++ t'', match r' with Some e => Some e | None => r end)
  end.

(** nxt_socket.py 158-171 *)
Definition rebuild_comp : step := waiting (fun s =>
  match stage s with
  | None => skip s
  | Some g => match compose g with Raise e => fails e s | Ok r => change (with_runtime r) s end
  end).

(** nxt_socket.py 105-108 and 154-156; [read]: nxt_io.load_file_data. *)
Definition open_file (read : pystr -> res Data) (p : pystr) : step := fun s =>
  match read p with
  | Raise e => fails e s
  | Ok d => match make_stage d with
            | Raise e => fails e s
            | Ok g => next (change (with_stage g)) rebuild_comp s
            end
  end.
(** nxt_socket.py 96-108 *)
Definition load (read : pystr -> res Data) (p : pystr) : step :=
  waiting (next (change (with_file p)) (open_file read p)).
(** nxt_socket.py 146-156 *)
Definition refresh (read : pystr -> res Data) : step := waiting (fun s =>
  match filepath s with
  | None | Some [] => skip s
  | Some p => open_file read p s
  end).

(** nxt_socket.py 128-130 *)
Definition execute (parameters : pyval) : step := fun s =>
  match stage s, runtime_layer s with
  | Some g, Some r =>
      match exec g (exec_order s) r parameters with
      | (r', f) => (with_runtime r' s, [Ran g (exec_order s) r parameters], f)
      end
  | _, _ => fails ValueError s
  end.
(** nxt_socket.py 110-131; [parameters]: what lines 122-125 give. *)
Definition run_nodes (order : list pystr) (parameters : res pyval) : step :=
  next (match order with [] => skip | _ => change (with_order order) end)
  (fun s => match stage s with
            | None => skip s
            | Some _ => match parameters with
                        | Raise e => fails e s
                        | Ok v => match runtime_layer s with
                                  | None => next rebuild_comp (execute v) s
                                  | Some _ => execute v s
                                  end
                        end
            end).
(** nxt_socket.py 133-144 *)
Definition run (order : list pystr) (parameters : res pyval) : step := waiting (fun s =>
  match run_nodes order parameters s with
  | (s, t, Some GraphError) => let '(s, t', r) := send Err s in (s, t ++ t', r)
  | other => other
  end).

(** The commands a server gives. *)
Inductive command := Load (read : pystr -> res Data) (p : pystr) | Refresh (read : pystr -> res Data) | Run (order : list pystr) (parameters : res pyval).
Definition obey (c : command) : step :=
  match c with
  | Load read p => load read p
  | Refresh read => refresh read
  | Run order parameters => run order parameters
  end.
(** Commands one after the other, whatever becomes of each. *)
Fixpoint obey_all (cs : list command) (s : client) : client :=
  match cs with [] => s | c :: t => obey_all t (fst (fst (obey c s))) end.
End Client.
