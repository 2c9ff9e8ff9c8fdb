(** Model of executing a graph from a start point: Stage.execute
    (nxt/stage.py 3758-3791), get_layer_start_nodes (3924-3928),
    setup_runtime_layer (3956-4013) and execute_nodes on a layer that is not
    running yet (3812-3816).

    The hierarchy of the composed layer is Layer.v's, its running is Runtime.v's.
    The stage is composed a second time for running (3812-3813); composing is a
    function of the stage, so both compositions are the same layer.  A layer
    without a world node gets one without code and attributes (3977-3982): here
    there is then nothing to run and nothing for parameters to set.  The node path that
    3972-3973 write on every node is not modelled; nor is the entry of the world
    node in the cache layer (4012). *)

From Coq Require Import String List NArith ZArith Bool Arith.
From Verif Require Import PyStr Dict NxtPath PyVal NodeIO Runtime.
From Verif Require Layer.
Import ListNotations.

(** What [start] can be: nothing, a node path, or something else such as the
    index the documentation speaks of. *)
Inductive start := NoStart | From (p : pystr) | Other (v : pyval).

(** stage.py 4000-4009; which object a name stands for is written as a number,
    0 being the world node itself. *)
Definition console_globals : dict gval :=
  [(lit "STAGE", GOther 0); (lit "__stage__", GOther 1); (lit "nxt_path", GOther 2); (lit "w", GOther 3);
   (lit "types", GOther 4); (lit "self", GOther 0); (lit "execute", GOther 5); (lit "ExitNode", GOther 6);
   (lit "ExitGraph", GOther 7)].

(** A new runtime layer over classes with the attributes [o]. *)
Definition fresh (o : list (dict pyval)) : rt :=
  {| gl := []; frames := []; own := o; cached := []; times := []; running := false; log := [] |}.

Section Stage.
(** How equal strings share objects, see Layer.v; the bound on the loops of the
    execution order; the hierarchy. *)
Variables (same same_name : pystr -> pystr -> bool) (bound : nat) (L : Layer.layer).
(** As in Runtime.v. *)
Variables (node_of : pystr -> option (nat * list nat))
          (lines_of : list (dict pyval) -> pystr -> res (list pystr)) (meaning : list pystr -> option prog)
          (real : list (dict pyval) -> dict gval -> pystr -> pystr -> pyval -> res pyval)
          (deepcopy : pyval -> res (option pyval)) (str_of : pyval -> pystr) (builtins : list pystr).

(** get_node_enabled(node) is not False (nxt_node.py 199-206, stage.py 3824). *)
Definition enabled (p : pystr) : bool :=
  match dget p (Layer.nodes L) with
  | Some n => match Layer.n_enabled n with Some false => false | _ => true end
  | None => true
  end.
(** nxt_layer.py 568-607; None when it never returns. *)
Definition order_from (p : pystr) : option (list pystr) :=
  match fst (Layer.get_exec_order same same_name bound L p) with
  | Layer.AList l => Some l
  | _ => None
  end.
(** For code that executes from a start point; an order that never comes is
    modelled as no nodes there. *)
Definition exec_order (p : pystr) : list pystr :=
  match order_from p with Some l => l | None => [] end.

Definition execute_nodes := Runtime.execute_nodes node_of enabled exec_order lines_of meaning real deepcopy str_of builtins.

(** ** get_layer_start_nodes, stage.py 3924-3928 *)
Definition START_POINT := lit "_start_point".
Fixpoint flagged (o : list (dict pyval)) (ps : list pystr) : res (list pystr) :=
  match ps with
  | [] => Ok []
  | p :: t =>
      match node_of p with
      | None => Raise AttributeError
      | Some (_, mro) =>
          match attr_of o mro START_POINT with
          | None => Raise AttributeError
          | Some v => bind (flagged o t) (fun r => Ok (if truthy v then p :: r else r))
          end
      end
  end.
Definition start_nodes (o : list (dict pyval)) : res (list pystr) :=
  match fst (Layer.descendants same same_name bound L WORLD Layer.RTable false false) with
  | Layer.AList ps => flagged o ps
  | _ => Raise ValueError
  end.

(** ** The world's code, stage.py 4010-4011 *)

(** [exec] with the world node itself, not a frame, as self: attributes are read
    and written on its class [c].  Once other nodes were executed from here,
    [self] is the frame of the last one. *)
Inductive self := World | Frame (i : nat) | Nothing.
Definition self_of (st : rt) : self :=
  match dget SELF (gl st) with
  | Some (GOther 0) => World
  | Some (GFrame i) => Frame i
  | _ => Nothing
  end.
Fixpoint world_code (call : list pystr -> list (pyval * pyval) -> rt -> rt * ended) (c : nat) (mro : list nat)
         (p : prog) (st : rt) : rt * ended :=
  match p with
  | Stop None => (st, Normal)
  | Stop (Some r) => (st, Exc r)
  | SetGlobal k v rest => world_code call c mro rest (with_gl st (dset k v (gl st)))
  | DelGlobal k rest =>
      if dmem k (gl st) then world_code call c mro rest (with_gl st (ddel k (gl st))) else (st, Exc (Failure KeyError))
  | GetGlobal k rest => world_code call c mro (rest (dget k (gl st))) st
  | SetAttr a v rest =>
      match self_of st with
      | World => world_code call c mro rest (with_own st (update (own st) c (dset a v)))
      | Frame i => world_code call c mro rest (with_frames st (update (frames st) i (dset a v)))
      | Nothing => (st, Exc (Failure AttributeError))
      end
  | DelAttr a rest =>
      match self_of st with
      | World =>
          if dmem a (nth c (own st) []) then world_code call c mro rest (with_own st (update (own st) c (ddel a)))
          else (st, Exc (Failure AttributeError))
      | Frame i =>
          if dmem a (nth i (frames st) []) then world_code call c mro rest (with_frames st (update (frames st) i (ddel a)))
          else (st, Exc (Failure AttributeError))
      | Nothing => (st, Exc (Failure AttributeError))
      end
  | GetAttr a rest =>
      match self_of st with
      | World => world_code call c mro (rest (attr_of (own st) mro a)) st
      | Frame i => world_code call c mro (rest (dget a (nth i (frames st) []))) st
      | Nothing => (st, Exc (Failure AttributeError))
      end
  | Execute t params rest =>
      let go ps := match call ps params st with
                   | (st', OutOfFuel) => (st', OutOfFuel)
                   | (st', Normal) => world_code call c mro (rest None) st'
                   | (st', Exc r) => world_code call c mro (rest (Some r)) st'
                   end in
      match t with
      | Paths [] => world_code call c mro (rest (Some (Failure ValueError))) st
      | Paths ps => go ps
      | Start p =>
          match node_of p with
          | None => world_code call c mro (rest (Some (Failure ValueError))) st
          | Some _ => go (exec_order p)
          end
      end
  end.
(** Console.runcode, runtime.py 63-80. *)
Definition run_world call c mro p st : rt * ended :=
  match world_code call c mro p st with
  | (st', Exc ((InvalidNode _ | Failure _) as r)) => (st', Exc GraphError)
  | r => r
  end.

(** ** setup_runtime_layer, stage.py 3956-4013 *)
Definition setup (fuel : nat) (o : list (dict pyval)) (params : list (pyval * pyval)) : rt * ended :=
  match set_runtime_parameters node_of str_of params (fresh o) with
  | (st, Some e) => (st, Exc (Failure e))
  | (st, None) =>
      match node_of WORLD with
      | None => (with_gl st console_globals, Normal)
      | Some (c, mro) =>
          let st1 := with_gl st console_globals in
          match lines_of (own st1) WORLD with
          | Raise e => (st1, Exc (Failure e))
          | Ok lines =>
              match meaning lines with
              | None => (st1, Exc GraphError)
              | Some code =>
                  match run_world (execute_nodes fuel) c mro code (with_log st1 (log st1 ++ [Enter WORLD])) with
                  | (st2, Normal) => (with_log st2 (log st2 ++ [Leave WORLD]), Normal)
                  | r => r
                  end
              end
          end
      end
  end.

(** ** execute, stage.py 3758-3791 *)
(** 3780-3789 *)
Definition start_path (s : start) (o : list (dict pyval)) : res pystr :=
  match s with
  | From p => match node_of p with None => Raise ValueError | Some _ => Ok p end
  | _ => bind (start_nodes o) (fun ps =>
         match ps with [] => Raise ValueError | p :: _ => Ok p end)
  end.
Definition execute (fuel : nat) (s : start) (params : list (pyval * pyval)) (o : list (dict pyval)) : rt * ended :=
  match start_path s o with
  | Raise e => (fresh o, Exc (Failure e))
  | Ok p =>
      match order_from p with
      | None => (fresh o, OutOfFuel)
      | Some ps =>
          match setup fuel o params with
          | (st, Normal) => execute_nodes fuel ps [] st
          | r => r
          end
      end
  end.
End Stage.
