(** Specification vocabulary for sessions. *)

From Coq Require Import String List NArith ZArith Bool.
From Verif Require Import PyStr Session.
Import ListNotations.

(** No loaded graph is called [n]. *)
Definition free_name (s : session) (n : pystr) : Prop :=
  forall uid g, In (uid, g) (loaded s) -> g_name g <> n.

(** No loaded graph has the uid. *)
Definition new_uid (s : session) (t : Z) : Prop := forall g, ~ In (t, g) (loaded s).

(** No loaded graph is filed under the path. *)
Definition unfiled (s : session) (p : pystr) : Prop :=
  forall uid g, In (uid, g) (loaded s) -> g_path g <> p.

(** The graph a file holds: called by the alias in the file, or else by the name
    of the file; filed under the entry '_filepath', or else under
    "untitled.nxt". *)
Definition holds (f : file) (g : graph) : Prop :=
  (forall a, f_alias f = Some a -> g_name g = a) /\
  (f_alias f = None -> g_name g = f_base f) /\
  (forall p, f_own_path f = Some p -> g_path g = p) /\
  (f_own_path f = None -> g_path g = lit "untitled.nxt") /\
  g_layers g = f_layers f.

(** The call loads a file, and [t] is the clock reading it uses for the graph. *)
Definition loads (normcase : pystr -> pystr) (s : session) (c : call) (f : file) (t : Z) : Prop :=
  c = LoadFile (Some f) t \/
  exists p, unfiled s (normcase p) /\
    (c = GetStage p (Some f) t \/
     (exists r e b, c = ExecuteGraph p (Some f) t r e b) \/
     (exists u e b, c = ExecuteNodes p (Some f) t u e b)).

(** The loaded graphs without one uid. *)
Definition without_uid (uid : Z) (l l' : list (Z * graph)) : Prop :=
  l' = filter (fun r => negb (Z.eqb (fst r) uid)) l.

(** A well behaved call: it does not start a server on its own, a server that
    it starts answers before the fifth check or never, obeys when told to shut
    down, and the graph composes. *)
Definition prompt (b : behaviour) : Prop :=
  obeys b = true /\ forall k, answers b = Some k -> k < 5.
Definition tame (c : call) : Prop :=
  match c with
  | StartServer _ _ => False
  | ExecuteGraph _ _ _ _ _ b => prompt b
  | ExecuteNodes _ _ _ u _ b => u = false /\ prompt b
  | _ => True
  end.

(** A call that gives no graph a path of its own. *)
Definition pathless (c : call) : Prop :=
  match c with
  | SetPath _ _ => False
  | LoadFile (Some f) _ | GetStage _ (Some f) _
  | ExecuteGraph _ (Some f) _ _ _ _ | ExecuteNodes _ (Some f) _ _ _ _ => f_own_path f = None
  | _ => True
  end.

(** Some layer of the graph has one of the two nodes that call other graphs. *)
Definition calls_graphs (g : graph) : Prop :=
  exists l, In l (g_layers g) /\ (In (lit "/_remote_sub_graph") l \/ In (lit "/_sub_graph") l).
