(** Specification vocabulary for hierarchy queries and execution order: nodes
    are named by their list of names from the world down. *)

From Coq Require Import String List NArith Bool.
From Verif Require Import PyStr Dict PathSpec Layer.
Import ListNotations.

(** A table entry sits where its path says. *)
Definition placed (k : pystr) (n : cnode) : Prop :=
  (k = abs_path [] /\ n_parent n = []) \/
  exists ns nm, Forall component (ns ++ [nm]) /\ k = abs_path (ns ++ [nm]) /\
                n_parent n = abs_path ns /\ n_name n = nm.

Definition wf_nodes (d : dict cnode) : Prop :=
  NoDup (dkeys d) /\ forall k n, In (k, n) d -> placed k n.

(** The layer has a node at [ns]. *)
Definition has (d : dict cnode) (ns : list pystr) : Prop := In (abs_path ns) (dkeys d).

(** There is a node at [ns] or below it (else nothing implies [ns]). *)
Definition known (d : dict cnode) (ns : list pystr) : Prop :=
  exists r, Forall component r /\ has d (ns ++ r).

(** The path of the child [nm] of [ns]. *)
Definition child (ns : list pystr) (nm : pystr) : pystr := abs_path (ns ++ [nm]).

(** Every node on the way from [ns] (exclusive) down to [ns ++ r] exists. *)
Definition linked (d : dict cnode) (ns r : list pystr) : Prop :=
  forall r1 r2, r = r1 ++ r2 -> r1 <> [] -> has d (ns ++ r1).

(** Every node is less than [depth] levels below the world. *)
Definition shallower (d : dict cnode) (depth : nat) : Prop :=
  forall ns, Forall component ns -> has d ns -> length ns < depth.

(** The child order stored on a node. *)
Definition stored_order (d : dict cnode) (p : pystr) : list pystr :=
  match dget p d with Some n => n_order n | None => [] end.

(** Depth-first listing, parents first: [forest ch roots l] when [l] lists each
    root followed by the listing of its children. *)
Inductive forest (ch : pystr -> list pystr) : list pystr -> list pystr -> Prop :=
| forest_nil : forest ch [] []
| forest_cons c cs d r : forest ch (ch c) d -> forest ch cs r ->
                         forest ch (c :: cs) (c :: d ++ r).

(** Names in child order: the ordered ones first, then the others. *)
Definition ranked (order names : list pystr) : list pystr :=
  filter (fun n => str_in n names) order ++
  filter (fun n => negb (str_in n order)) names.

(** [ch] lists the children (implied ones too, when asked) of every node below
    the world, each once, in child order; real children that the order does
    not mention keep their order in the table. *)
Definition lists_kids (d : dict cnode) (incl : bool) (ch : pystr -> list pystr) : Prop :=
  forall ns, Forall component ns -> ns <> [] -> exists names,
    NoDup names /\
    (forall nm, In nm names <->
       component nm /\ if incl then known d (ns ++ [nm]) else has d (ns ++ [nm])) /\
    (incl = false ->
       map (child ns) names =
       map fst (filter (fun kn => str_eqb (n_parent (snd kn)) (abs_path ns)) d)) /\
    ch (abs_path ns) = map (child ns) (ranked (stored_order d (abs_path ns)) names).

(** What is left of [l] from the first occurrence of [x] on. *)
Fixpoint from (x : pystr) (l : list pystr) : list pystr :=
  match l with
  | [] => []
  | y :: t => if str_eqb y x then l else from x t
  end.

(** A node is disabled when its flag says so. *)
Definition off (d : dict cnode) (p : pystr) : bool :=
  match dget p d with
  | Some n => match n_enabled n with Some b => negb b | None => false end
  | None => false
  end.

(** [x] is [k] or lies below it. *)
Definition beneath (x k : pystr) : bool :=
  str_eqb x k || startswith (k ++ lit "/") x.

(** No node below [top] that is [x] or above [x] is disabled. *)
Definition clear (d : dict cnode) (top x : pystr) : bool :=
  forallb (fun kn => negb (off d (fst kn) && beneath x (fst kn) &&
                           beneath (fst kn) top && negb (str_eqb (fst kn) top))) d.

(** Roots that follow one another through execute_in: each is the first root,
    in table order, that executes in the previous one. *)
Inductive exec_chain (d : dict cnode) (prev : pystr) : list pystr -> Prop :=
| chain_end :
    (forall k n, In (k, n) d -> n_parent n = abs_path [] -> n_exec_in n <> Some prev) ->
    exec_chain d prev []
| chain_next a k n b rs :
    d = a ++ (k, n) :: b ->
    n_parent n = abs_path [] -> n_exec_in n = Some prev ->
    (forall k' n', In (k', n') a -> n_parent n' = abs_path [] ->
                   n_exec_in n' <> Some prev) ->
    exec_chain d k rs -> exec_chain d prev (k :: rs).

(** What root [r] contributes once the start has been reached. *)
Definition block (d : dict cnode) (ch : pystr -> list pystr) (r : pystr) (b : list pystr) : Prop :=
  if off d r then b = []
  else exists l, forest ch (ch r) l /\ b = r :: filter (clear d r) l.

(** *** Layers whose caches tell the truth *)

(** The children of [p] recorded in the table, in table order. *)
Definition real (d : dict cnode) (p : pystr) : list pystr :=
  map fst (filter (fun kn => str_eqb (n_parent (snd kn)) p) d).

(** The layer can answer a children query for [p] exactly: what is cached is
    what the table says, or, when nothing is cached, comparing strings by
    identity happens to find every child.  (The world's entries are never
    read.) *)
Definition ready (same : pystr -> pystr -> bool) (L : layer) (p : pystr) : Prop :=
  match dget p (kids L) with
  | Some c => p = abs_path [] \/ c = entry_of (nodes L) (real (nodes L) p)
  | None => scan_real same (nodes L) p = real (nodes L) p
  end.
Definition iready (L : layer) (p : pystr) : Prop :=
  match dget p (implied L) with
  | Some i => p = abs_path [] \/ i = scan_implied (nodes L) p
  | None => True
  end.
(** A well formed absolute path. *)
Definition proper (p : pystr) : Prop := exists ns, Forall component ns /\ p = abs_path ns.
Definition all_ready (same : pystr -> pystr -> bool) (L : layer) : Prop :=
  forall p, proper p -> ready same L p /\ iready L p.
