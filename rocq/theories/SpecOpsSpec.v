(** Specification vocabulary for the edits of a layer.  A layer is described by
    what a user can ask it: the node at a path, the path of a node, the
    attributes of a node. *)

From Coq Require Import String List NArith Bool Permutation.
From Verif Require Import PyStr Dict PyVal PathSpec Names NamesSpec SpecOps.
Import ListNotations.

(** A node name: a path component without attribute separator. *)
Definition plain (nm : pystr) : Prop := component nm /\ ~ In PERIOD nm.

(** The node's own name and parent path spell the path [p]. *)
Definition spells (n : snode) (p : pystr) : Prop :=
  (p = abs_path [] /\ s_parent n = [] /\ s_name n = lit "/") \/
  exists ns nm, Forall plain (ns ++ [nm]) /\ p = abs_path (ns ++ [nm]) /\
                s_parent n = abs_path ns /\ s_name n = nm.

(** The layer's books agree. *)
Record consistent (L : slayer) : Prop := {
  (* looking up a path and asking a node for its path are inverse *)
  c_inverse : forall p i, lookup L p = Some i <-> path_of L i = Some p;
  (* every node knows where it is *)
  c_spells : forall p i, lookup L p = Some i -> exists n, obj L i = Some n /\ spells n p;
  (* every node is listed once, and nothing else is *)
  c_listed : forall i, In i (spec_list L) <-> exists p, lookup L p = Some i;
  c_once : NoDup (spec_list L);
  (* the node table has one row for each node: its names and the node *)
  c_rows : NoDup (table L);
  c_table : forall ns i, In (ns, i) (table L) <->
     (Forall plain ns /\ ns <> [] /\ lookup L (abs_path ns) = Some i) \/
     (ns = [[]] /\ lookup L (abs_path []) = Some i);
  (* both tables are dicts *)
  c_paths : NoDup (map fst (by_path L));
  c_nodes : NoDup (map fst (by_node L))
}.

(** There is a node at [ns]. *)
Definition holds (L : slayer) (ns : list pystr) : Prop :=
  exists i, lookup L (abs_path ns) = Some i.

(** Nothing at or below [ns]. *)
Definition vacant (L : slayer) (ns : list pystr) : Prop :=
  forall r, Forall plain r -> lookup L (abs_path (ns ++ r)) = None.

(** Every node's parent is in the layer (roots have none). *)
Definition closed (L : slayer) : Prop :=
  forall ns nm, Forall plain (ns ++ [nm]) -> holds L (ns ++ [nm]) -> ns = [] \/ holds L ns.

(** A layer that takes part in the composed stage. *)
Definition composed (L : slayer) : Prop := muted L = false /\ hidden L = false.

(** [l] without its first [x]. *)
Fixpoint without (x : pystr) (l : list pystr) : list pystr :=
  match l with
  | [] => []
  | y :: t => if str_eqb y x then t else y :: without x t
  end.
(** [l] without its first [m] occurrences of [x]. *)
Fixpoint repeat_without (x : pystr) (m : nat) (l : list pystr) : list pystr :=
  match m with O => l | S m' => repeat_without x m' (without x l) end.
(** [l] with [x] at the end unless it is there already. *)
Definition adding (x : pystr) (l : list pystr) : list pystr :=
  if str_in x l then l else l ++ [x].

(** Two nodes that differ at most in child order and in the recorded sources
    of their attributes. *)
Definition same_data (n m : snode) : Prop :=
  map (fun kv => (fst kv, fst (snd kv))) (s_attrs n)
  = map (fun kv => (fst kv, fst (snd kv))) (s_attrs m) /\ s_rest n = s_rest m.

(** The attributes of the node at [p] say they come from [p]. *)
Definition sourced (n : snode) (p : pystr) : Prop :=
  Forall (fun kv => snd (snd kv) = p) (s_attrs n).

(** [a] is the nearest node above [ns] (below the world) and [c] the name of
    its child on the way to [ns]. *)
Definition nearest_above (L : slayer) (ns : list pystr) (a : nat) (c : pystr) : Prop :=
  exists ms r, ns = ms ++ c :: r /\ ms <> [] /\ lookup L (abs_path ms) = Some a /\
    forall r1 r2, r = r1 ++ r2 -> r2 <> [] -> lookup L (abs_path (ms ++ c :: r1)) = None.

(** What a move from [o] to [w] does to the nodes found by path. *)
Record moved (o w : list pystr) (L L' : slayer) : Prop := {
  m_there : forall r, Forall plain r -> lookup L' (abs_path (w ++ r)) = lookup L (abs_path (o ++ r));
  m_gone : forall r, Forall plain r -> ~ (exists r', o ++ r = w ++ r') ->
           lookup L' (abs_path (o ++ r)) = None;
  m_rest : forall ms, Forall plain ms -> ~ (exists r, ms = w ++ r) -> ~ (exists r, ms = o ++ r) ->
           lookup L' (abs_path ms) = lookup L (abs_path ms)
}.

(** The child order [l] of node [k] becomes [l1] when the node at [o] leaves. *)
Definition leaves (L : slayer) (o : list pystr) (k : nat) (l l1 : list pystr) : Prop :=
  (forall c, nearest_above L o k c -> l1 = without c l) /\
  ((forall c, ~ nearest_above L o k c) -> l1 = l).

(** The child order [l] of node [k] becomes [l1] when a node named [nm] comes
    to [par]. *)
Definition joins (L : slayer) (par : list pystr) (nm : pystr) (k : nat) (l l1 : list pystr) : Prop :=
  (lookup L (abs_path par) = Some k -> l1 = adding nm l) /\
  (lookup L (abs_path par) <> Some k -> l1 = l).

(** Node data other than name and place is kept. *)
Definition kept (n m : snode) : Prop := s_attrs m = s_attrs n /\ s_rest m = s_rest n.

(** *** Sub-trees *)

(** There is a node at or below [ns]. *)
Definition inhabited (L : slayer) (ns : list pystr) : Prop :=
  exists r, Forall plain r /\ holds L (ns ++ r).

(** Every place below [ns] that has something below it has a node. *)
Definition gapless (L : slayer) (ns : list pystr) : Prop :=
  forall r, Forall plain r -> r <> [] -> inhabited L (ns ++ r) -> holds L (ns ++ r).

(** *** Trees to add *)

(** How many nodes. *)
Fixpoint size (t : tree) : nat :=
  match t with
  | Tree _ _ _ subs =>
      S ((fix sum (l : list (option pystr * tree)) : nat :=
            match l with [] => 0 | (_, t) :: r => size t + sum r end) subs)
  end.

(** No node of the tree asks for an empty name. *)
Fixpoint named (t : tree) : Prop :=
  match t with
  | Tree _ _ _ subs =>
      (fix all (l : list (option pystr * tree)) : Prop :=
         match l with
         | [] => True
         | (nm, t) :: r => nm <> Some [] /\ named t /\ all r
         end) subs
  end.

(** Every node of the tree has a name, different from its siblings'. *)
Fixpoint exact (t : tree) : Prop :=
  match t with
  | Tree _ _ _ subs =>
      NoDup (map fst subs) /\
      (fix all (l : list (option pystr * tree)) : Prop :=
         match l with
         | [] => True
         | (nm, t) :: r => (exists x, nm = Some x /\ plain x) /\ exact t /\ all r
         end) subs
  end.

(** Names in order of first appearance. *)
Definition firsts (l : list pystr) : list pystr := fold_left (fun acc x => adding x acc) l [].

(** The tree [t], asked for under the name [name], has become node [i] at
    [par ++ [nm]], and its children likewise below it.  [ok name nm] tells which
    names are acceptable. *)
Fixpoint grown (ok : option pystr -> pystr -> Prop) (L : slayer) (t : tree) (name : option pystr)
         (par : list pystr) (i : nat) (nm : pystr) : Prop :=
  match t with
  | Tree order attrs rest subs =>
      lookup L (abs_path (par ++ [nm])) = Some i /\ ok name nm /\
      exists m kids, obj L i = Some m /\
        map (fun kv => (fst kv, fst (snd kv))) (s_attrs m) = attrs /\
        sourced m (abs_path (par ++ [nm])) /\ s_rest m = rest /\
        s_order m = firsts (order ++ map snd kids) /\
        (fix all (subs : list (option pystr * tree)) (kids : list (nat * pystr)) : Prop :=
           match subs, kids with
           | [], [] => True
           | (cn, ct) :: subs', (j, c) :: kids' => i < j /\ grown ok L ct cn (par ++ [nm]) j c /\ all subs' kids'
           | _, _ => False
           end) subs kids
  end.

(** The new child order of a parent that had [l]. *)
Definition announced (nm : pystr) (l l' : list pystr) : Prop :=
  Permutation l' (adding nm l) /\ (NoDup l -> l' = adding nm l).

(** *** Histories *)

(** A layer with nothing in it. *)
Definition blank : slayer :=
  {| objs := []; spec_list := []; by_path := []; by_node := []; table := []; positions := [];
     collapse := []; muted := false; hidden := false; top := None |}.

(** The edit's arguments make sense for the layer: nodes are in the layer, parents
    exist, a node is not put below itself, names are left to the stage to make
    unique. *)
Definition sensible (L : slayer) (e : edit) : Prop :=
  match e with
  | EAdd t name parent fx =>
      fx = true /\ name <> Some [] /\ named t /\
      exists par, Forall plain par /\ parent = abs_path par /\ (par = [] \/ holds L par)
  | EDelete i _ wd =>
      exists ns, Forall plain ns /\ path_of L i = Some (abs_path ns) /\
                 (wd = true \/ ns <> [] /\ forall r, Forall plain r -> r <> [] -> ~ holds L (ns ++ r))
  | EParent ids parent cn =>
      cn = true /\ NoDup ids /\ exists par, Forall plain par /\ parent = abs_path par /\
        (par = [] \/ holds L par) /\
        forall i, In i ids -> exists o, path_of L i = Some (abs_path o) /\ Forall plain o /\ o <> [] /\
                                        ~ (exists r, par = o ++ r)
  | ERename i name force =>
      force = false /\ name <> [] /\
      exists ns nm, Forall plain (ns ++ [nm]) /\ path_of L i = Some (abs_path (ns ++ [nm]))
  end.

(** *** What an edit keeps *)

(** What an edit does to the data of the nodes. *)
Definition same_nodes (L L' : slayer) : Prop :=
  forall k, match obj L k with
            | None => obj L' k = None
            | Some m => exists m', obj L' k = Some m' /\ same_data m m'
            end.


Definition same_flags (L L' : slayer) : Prop :=
  muted L' = muted L /\ hidden L' = hidden L /\ spec_list L' = spec_list L.


Definition moved_keys (old new : pystr) (L L' : slayer) : Prop :=
  positions L' = positions L /\ collapse L' = move_key old new (collapse L) /\
  top L' = option_map (fun pc => (fst pc, move_key old new (snd pc))) (top L).


(** A node stays where it was in its parent. *)
Definition keeps_place (L L' : slayer) (k : nat) : Prop :=
  forall ns nm, Forall plain (ns ++ [nm]) -> path_of L k = Some (abs_path (ns ++ [nm])) ->
  exists ns', Forall plain (ns' ++ [nm]) /\ path_of L' k = Some (abs_path (ns' ++ [nm])) /\
    (ns = [] <-> ns' = []) /\
    (ns <> [] -> exists j, lookup L (abs_path ns) = Some j /\ lookup L' (abs_path ns') = Some j).


(** What deletion leaves of the data of the nodes that stay. *)
Definition stays (L L' : slayer) (ns : list pystr) (pop : Prop) : Prop :=
  forall k m, path_of L' k <> None -> obj L k = Some m ->
  exists m', obj L' k = Some m' /\ s_name m' = s_name m /\ s_parent m' = s_parent m /\ same_data m m' /\
    (forall po nm, ns = po ++ [nm] -> lookup L (abs_path po) = Some k ->
       (pop -> s_order m' = without nm (s_order m)) /\ (~ pop -> s_order m' = s_order m)) /\
    ((forall po nm, ns = po ++ [nm] -> lookup L (abs_path po) <> Some k) -> s_order m' = s_order m).


(** Nodes there before: data, name, place and path are the same; the parent's
    order gets the new name. *)
Definition olds_kept (L L' : slayer) (par : list pystr) (nm : pystr) : Prop :=
  forall k m, obj L k = Some m -> exists l, obj L' k = Some (set_order l m) /\
    (lookup L (abs_path par) = Some k -> announced nm (s_order m) l) /\
    (lookup L (abs_path par) <> Some k -> l = s_order m).


Definition same_rest (L L' : slayer) : Prop :=
  muted L' = muted L /\ hidden L' = hidden L /\ positions L' = positions L /\ collapse L' = collapse L /\ top L' = top L.


(** What adding does to everything else. *)
Record added (L L' : slayer) (par : list pystr) (nm : pystr) (count : nat) : Prop := {
  a_consistent : consistent L';
  a_old : forall q k, lookup L q = Some k -> lookup L' q = Some k;
  a_new : forall q k, lookup L' q = Some k -> lookup L q = Some k \/
          (length (objs L) <= k /\ exists r, Forall plain r /\ q = abs_path (par ++ nm :: r));
  a_kept : olds_kept L L' par nm;
  a_rest : same_rest L L';
  a_count : length (objs L') = length (objs L) + count;
  a_list : spec_list L' = spec_list L ++ seq (length (objs L)) count;
  a_closed : closed L -> par = [] \/ holds L par -> closed L'
}.


(** The dirty paths cover the new nodes. *)
Definition covers (L' : slayer) (ids : list nat) (ds : list pystr) : Prop :=
  forall k p, In k ids -> path_of L' k = Some p -> In p ds.



Section WithNames.
Variables (ud uw : N -> bool) (extra : slayer -> list pystr).

Definition name_ok (fx : bool) (name : option pystr) (nm : pystr) : Prop :=
  if fx then legal (isdigit ud) (is_word uw) nm else name = Some nm.


(** What lets a tree be added. *)
Definition addable (fx : bool) (L : slayer) (t : tree) (name : option pystr) (par : list pystr) : Prop :=
  if fx then composed L /\ name <> Some [] /\ named t
  else exists nm, name = Some nm /\ plain nm /\ vacant L (par ++ [nm]) /\ exact t.


(** Did the call return? *)
Definition returns (L : slayer) (e : edit) : Prop :=
  match e with
  | EAdd t name parent fx => exists r, snd (add_node ud uw extra t name parent fx L) = Done r
  | EDelete i rd wd => exists r, snd (delete_node L i rd wd) = Done r
  | EParent ids parent cn => exists r, snd (parent_nodes ud uw extra L ids parent cn) = Done r
  | ERename i name force => exists r, snd (set_node_name ud uw extra L i name force) = Done r
  end.


(** A history of sensible edits. *)
Fixpoint history (L : slayer) (es : list edit) : Prop :=
  match es with
  | [] => True
  | e :: t => sensible L e /\ history (apply_edit ud uw extra L e) t
  end.


End WithNames.

(** What renaming the node [i] from [o] to [w] does to the nodes found by path, when
    its children with a name in [D] follow. *)
Record renamed (L : slayer) (i : nat) (o w : list pystr) (D : list pystr) (L' : slayer) : Prop := {
  rn_new : lookup L' (abs_path w) = Some i;
  rn_old : lookup L' (abs_path o) = None;
  rn_there : forall x r, Forall plain (x :: r) -> In x D ->
             lookup L' (abs_path (w ++ x :: r)) = lookup L (abs_path (o ++ x :: r));
  rn_notyet : forall x r, Forall plain (x :: r) -> ~ In x D -> lookup L' (abs_path (w ++ x :: r)) = None;
  rn_gone : forall x r, Forall plain (x :: r) -> In x D -> lookup L' (abs_path (o ++ x :: r)) = None;
  rn_stay : forall x r, Forall plain (x :: r) -> ~ In x D ->
            lookup L' (abs_path (o ++ x :: r)) = lookup L (abs_path (o ++ x :: r));
  rn_rest : forall ms, Forall plain ms -> ~ (exists r, ms = o ++ r) -> ~ (exists r, ms = w ++ r) ->
            lookup L' (abs_path ms) = lookup L (abs_path ms)
}.
