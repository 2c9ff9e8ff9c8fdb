(** Model of the hierarchy queries of a layer: SpecLayer.children, descendants,
    the child caches and the execution order (nxt/nxt_layer.py 267-626), with
    the comp layer edits of nxt/stage.py 544-576 and 958-985 and the table
    edits of 652-660 and 824-834.

    A layer's two node tables are inverse to each other, so a node object is
    represented by its key (its path); the order of the table is the insertion
    order.  Collapse states and positions are not modelled. *)

From Coq Require Import String List NArith ZArith Bool.
From Verif Require Import PyStr NxtPath Dict ListMerger.
Import ListNotations.

(** The attributes of a node that matter here (nxt_node.py 20-74). *)
Record cnode := {
  n_name : pystr;
  n_parent : pystr;
  n_order : list pystr;
  n_enabled : option bool;
  n_exec_in : option pystr
}.

(** One entry of _cached_children (nxt_layer.py 301-308).  An item of the
    NodeTable list is [path, node]; it is represented by the path. *)
Record ccache := {
  cc_nodes : list pystr;
  cc_paths : list pystr;
  cc_table : list pystr;
  cc_dict : dict pystr
}.

(** nxt_layer.py 104-109. *)
Record layer := {
  nodes : dict cnode;
  kids : dict ccache;
  implied : dict (list pystr)
}.

Definition empty_layer : layer := {| nodes := []; kids := []; implied := [] |}.

(** nxt_layer.py 69-75 LayerReturnTypes; PathDict is not modelled. *)
Inductive rtype := RNode | RPath | RTable | RDict | RBool.
Definition rtype_eqb (a b : rtype) : bool :=
  match a, b with
  | RNode, RNode | RPath, RPath | RTable, RTable | RDict, RDict | RBool, RBool => true
  | _, _ => false
  end.

Inductive error := ValueError | TypeError | AttributeError | Endless.

Inductive answer :=
| AList (l : list pystr)
| ADict (d : dict pystr)
| ABool (b : bool)
| AErr (e : error).

Definition with_nodes (L : layer) (n : dict cnode) : layer :=
  {| nodes := n; kids := kids L; implied := implied L |}.
Definition with_kids (L : layer) (k : dict ccache) : layer :=
  {| nodes := nodes L; kids := k; implied := implied L |}.
Definition with_implied (L : layer) (i : dict (list pystr)) : layer :=
  {| nodes := nodes L; kids := kids L; implied := i |}.

(** [for x in extra: if x not in l: l += [x]] (nxt_layer.py 349-351,
    380-382, 385-387). *)
Definition add_missing (l extra : list pystr) : list pystr :=
  fold_left (fun acc x => if str_in x acc then acc else acc ++ [x]) extra l.

Section Queries.
(** [same k p]: is the string stored as the parent path of node [k] the very
    object passed as node path [p] (nxt_layer.py 331 compares with [is])?
    CPython may answer no for equal strings.
    [same_name k n]: likewise for the node's name and the child order item
    (line 369). *)
Variable same : pystr -> pystr -> bool.
Variable same_name : pystr -> pystr -> bool.

(** nxt_layer.py 329-331; '/' is a one-character string, for which CPython
    keeps a single object. *)
Definition is_child (p k : pystr) (n : cnode) : bool :=
  str_eqb (n_parent n) p && (str_eqb p WORLD || same k p).

(** nxt_layer.py 327-336: the real children found by scanning the table. *)
Definition scan_real (ns : dict cnode) (p : pystr) : list pystr :=
  map fst (filter (fun kn => is_child p (fst kn) (snd kn)) ns).

(** nxt_layer.py 339-344: the implied children found by scanning. *)
Definition scan_implied (ns : dict cnode) (p : pystr) : list pystr :=
  fold_left (fun acc k =>
    if is_ancestor k p then
      let t := trim_to_depth k (Z.of_nat (get_path_depth p) + 1) in
      if str_in t acc then acc else acc ++ [t]
    else acc) (dkeys ns) [].

(** nxt_layer.py 335-336: the name dict of the children found. *)
Definition name_dict (ns : dict cnode) (ks : list pystr) : dict pystr :=
  fold_left (fun d k => match dget k ns with
                        | Some n => dset (n_name n) k d
                        | None => d
                        end) ks [].

(** The cache entry made of the children found. *)
Definition entry_of (ns : dict cnode) (ks : list pystr) : ccache :=
  {| cc_nodes := ks; cc_paths := ks; cc_table := ks; cc_dict := name_dict ns ks |}.

(** nxt_layer.py 360-387: the three lists put in child order.  The NodeTable
    test of line 388 looks for a path in a list of [path, node] items and so
    never finds it. *)
Definition order_paths (order paths : list pystr) : list pystr :=
  add_missing (flat_map (fun nm =>
    filter (fun p => str_eqb (node_name_from_node_path p) nm) paths) order) paths.
Definition order_nodes (ns : dict cnode) (order ks : list pystr) : list pystr :=
  add_missing (flat_map (fun nm =>
    filter (fun k => match dget k ns with
                     | Some n => str_eqb (n_name n) nm && same_name k nm
                     | None => false
                     end) ks) order) ks.
Definition order_table (order table : list pystr) : list pystr :=
  flat_map (fun nm =>
    filter (fun p => str_eqb (node_name_from_node_path p) nm) table) order ++ table.

(** nxt_layer.py 267-409 children. *)
Definition children (L : layer) (p : pystr) (rt : rtype) (ordered incl : bool)
  : answer * layer :=
  if incl && negb (rtype_eqb rt RPath) then (AErr ValueError, L)
  else if is_empty p then
    (match rt with
     | RNode | RPath | RTable => AList []
     | RDict => ADict []
     | RBool => ABool false
     end, L)
  else
    let cached := if str_eqb p WORLD then None else dget p (kids L) in
    let '(c, L1) :=
      match cached with
      | Some c => (c, L)
      | None => let c := entry_of (nodes L) (scan_real (nodes L) p) in
                (c, with_kids L (dset p c (kids L)))
      end in
    let icached := if str_eqb p WORLD then None else dget p (implied L) in
    let '(imps, L2) :=
      if incl then
        match icached with
        | Some i => (i, L1)
        | None => let i := scan_implied (nodes L) p in
                  (i, with_implied L1 (dset p i (implied L1)))
        end
      else ([], L1) in
    let paths := add_missing (cc_paths c) imps in
    if rtype_eqb rt RBool then
      (ABool (match paths with [] => false | _ => true end), L2)
    else
      let order :=
        if ordered then
          match dget p (nodes L) with
          | Some n => Some (n_order n)
          | None => if incl then Some [] else None
          end
        else Some [] in
      match order with
      | None => (AErr AttributeError, L2)
      | Some order =>
          let put (f : list pystr -> list pystr) l :=
            match order with [] => l | _ => f l end in
          (match rt with
           | RNode => AList (put (order_nodes (nodes L) order) (cc_nodes c))
           | RPath => AList (put (order_paths order) paths)
           | RTable => AList (put (order_table order) (cc_table c))
           | RDict => ADict (cc_dict c)
           | RBool => ABool false
           end, L2)
      end.

Definition as_list (a : answer) : list pystr :=
  match a with AList l => l | _ => [] end.

(** nxt_layer.py 444-451: the children of all given paths, one after the
    other. *)
Fixpoint children_of_all (L : layer) (ps : list pystr) (rt : rtype) (incl : bool)
  : list pystr * layer :=
  match ps with
  | [] => ([], L)
  | p :: t => let '(a, L1) := children L p rt false incl in
              let '(r, L2) := children_of_all L1 t rt incl in
              (as_list a ++ r, L2)
  end.

(** nxt_layer.py 442-453: the while loop; [None] = out of fuel.  For the Node
    type line 443 leaves _temp empty. *)
Fixpoint desc_loop (fuel : nat) (L : layer) (rt : rtype) (incl : bool)
         (acc more : list pystr) : option (list pystr * layer) :=
  match more with
  | [] => Some (acc, L)
  | _ =>
      match fuel with
      | O => None
      | S f =>
          let '(tmp, L1) := match rt with
                            | RPath | RTable => children_of_all L more rt incl
                            | _ => ([], L)
                            end in
          desc_loop f L1 rt incl (acc ++ tmp) tmp
      end
  end.

(** nxt_layer.py 456-464 _ordered_descendants; [fuel] bounds the depth. *)
Fixpoint ordered_desc (fuel : nat) (L : layer) (p : pystr) (incl : bool)
  : answer * layer :=
  match fuel with
  | O => (AErr Endless, L)
  | S f =>
      let '(a, L1) := children L p RPath true incl in
      match a with
      | AList cs =>
          (fix go (cs : list pystr) (L : layer) : answer * layer :=
             match cs with
             | [] => (AList [], L)
             | c :: t =>
                 match ordered_desc f L c incl with
                 | (AList d, L') =>
                     match go t L' with
                     | (AList r, L'') => (AList (c :: d ++ r), L'')
                     | e => e
                     end
                 | e => e
                 end
             end) cs L1
      | e => (e, L1)
      end
  end.

(** nxt_layer.py 466-496 _world_descendants.  With implied nodes the Python
    result is a set: only membership is meaningful then. *)
Definition world_descendants (L : layer) (rt : rtype) (incl : bool) : answer :=
  if incl && negb (rtype_eqb rt RPath) then AErr ValueError
  else
    let keys := filter (fun k => negb (str_eqb k WORLD)) (dkeys (nodes L)) in
    match rt with
    | RPath => if incl
               then AList (add_missing (add_missing []
                             (flat_map all_ancestor_paths keys)) keys)
               else AList keys
    | RNode | RTable => AList keys
    | _ => AErr TypeError
    end.

(** nxt_layer.py 423-454 descendants.  For the NodeTable type the list built
    by a children call that fills the cache is the cached list itself, and
    line 452 extends it in place. *)
Definition descendants (fuel : nat) (L : layer) (p : pystr) (rt : rtype)
           (ordered incl : bool) : answer * layer :=
  match rt with
  | RDict | RBool => (AErr TypeError, L)
  | _ =>
      if str_eqb p WORLD then
        if ordered then (AErr ValueError, L) else (world_descendants L rt incl, L)
      else if ordered then
        if negb (rtype_eqb rt RPath) then (AErr ValueError, L)
        else ordered_desc fuel L p incl
      else
        let '(a, L1) := children L p rt false incl in
        match a with
        | AList first =>
            match desc_loop fuel L1 rt incl first first with
            | None => (AErr Endless, L1)
            | Some (ds, L2) =>
                let aliased := match rt, dget p (kids L) with
                               | RTable, None => negb (is_empty p)
                               | _, _ => false
                               end in
                (AList ds,
                 if aliased then
                   match dget p (kids L2) with
                   | Some c => with_kids L2
                       (dset p {| cc_nodes := cc_nodes c; cc_paths := cc_paths c;
                                  cc_table := ds; cc_dict := cc_dict c |} (kids L2))
                   | None => L2
                   end
                 else L2)
            end
        | e => (e, L1)
        end
  end.

(** *** Execution order *)

(** nxt_layer.py 613-622: the first root whose execute_in is [prev]. *)
Definition next_root (L : layer) (prev : pystr) : option pystr * layer :=
  let '(a, L1) := children L WORLD RNode false false in
  (find (fun k => match dget k (nodes L) with
                  | Some n => match n_exec_in n with
                              | Some e => str_eqb e prev
                              | None => false
                              end
                  | None => false
                  end) (as_list a), L1).

(** nxt_layer.py 609-626 get_root_exec_order; [None] = out of fuel. *)
Fixpoint root_loop (fuel : nat) (L : layer) (prev : pystr)
  : option (list pystr * layer) :=
  match fuel with
  | O => None
  | S f =>
      match next_root L prev with
      | (None, L1) => Some ([], L1)
      | (Some r, L1) => match root_loop f L1 r with
                        | Some (rs, L2) => Some (r :: rs, L2)
                        | None => None
                        end
      end
  end.
Definition get_root_exec_order (fuel : nat) (L : layer) (start : pystr)
  : option (list pystr * layer) :=
  match root_loop fuel L start with
  | Some (rs, L') => Some (start :: rs, L')
  | None => None
  end.

(** nxt_node.py 199-206 and nxt_layer.py 579-581: an unset state counts as
    enabled, and so does a node the layer does not have. *)
Definition is_enabled (L : layer) (p : pystr) : bool :=
  match dget p (nodes L) with
  | Some n => match n_enabled n with Some b => b | None => true end
  | None => true
  end.

(** nxt_layer.py 588-606: the loop over the descendants of one root. *)
Fixpoint exec_desc (L : layer) (start : pystr) (found : bool)
         (disabled : list pystr) (ds : list pystr) : list pystr * bool :=
  match ds with
  | [] => ([], found)
  | d :: t =>
      let found := found || str_eqb d start in
      let enabled := is_enabled L d && negb (existsb (fun a => is_ancestor d a) disabled) in
      if enabled then
        let '(r, found') := exec_desc L start found disabled t in
        ((if found then [d] else []) ++ r, found')
      else exec_desc L start found (disabled ++ [d]) t
  end.

(** nxt_layer.py 575-606: the loop over the roots. *)
Fixpoint exec_roots (fuel : nat) (L : layer) (start : pystr) (found : bool)
         (roots : list pystr) : answer * layer :=
  match roots with
  | [] => (AList [], L)
  | r :: t =>
      let found := found || str_eqb r start in
      if found && negb (is_enabled L r) then exec_roots fuel L start found t
      else
        match descendants fuel L r RPath true false with
        | (AList ds, L1) =>
            let '(es, found') := exec_desc L1 start found [] ds in
            match exec_roots fuel L1 start found' t with
            | (AList rest, L2) => (AList ((if found then [r] else []) ++ es ++ rest), L2)
            | e => e
            end
        | e => e
        end
  end.

(** nxt_layer.py 568-607 get_exec_order. *)
Definition get_exec_order (fuel : nat) (L : layer) (start : pystr) : answer * layer :=
  if str_eqb start WORLD then (AList [], L)
  else
    match get_root_exec_order fuel L (get_root_path start) with
    | None => (AErr Endless, L)
    | Some (roots, L1) => exec_roots fuel L1 start false roots
    end.

End Queries.

(** *** Cache maintenance *)

(** nxt_layer.py 498-525 add_child_to_child_cache; [name] is the node's name. *)
Definition add_child_to_child_cache (L : layer) (parent child name : pystr) : layer :=
  if is_empty parent || str_eqb parent WORLD then L
  else
    let c := match dget parent (kids L) with
             | Some c => c
             | None => {| cc_nodes := []; cc_paths := []; cc_table := []; cc_dict := [] |}
             end in
    with_kids L (dset parent
      {| cc_nodes := cc_nodes c ++ [child]; cc_paths := cc_paths c ++ [child];
         cc_table := cc_table c ++ [child]; cc_dict := dset name child (cc_dict c) |}
      (kids L)).

(** [try: l.remove(x) except ValueError: pass]. *)
Definition try_remove (x : pystr) (l : list pystr) : list pystr :=
  match py_remove x l with Some l' => l' | None => l end.

(** nxt_layer.py 527-556 remove_child_from_child_cache. *)
Definition remove_child_from_child_cache (L : layer) (parent child name : pystr) : layer :=
  if str_eqb parent WORLD then L
  else
    match dget parent (kids L) with
    | None => L
    | Some c =>
        with_kids L (dset parent
          {| cc_nodes := try_remove child (cc_nodes c);
             cc_paths := try_remove child (cc_paths c);
             cc_table := try_remove child (cc_table c);
             cc_dict := ddel name (cc_dict c) |} (kids L))
    end.

(** nxt_layer.py 558-566 clear_node_child_cache. *)
Definition clear_node_child_cache (L : layer) (p : pystr) : layer :=
  {| nodes := nodes L; kids := ddel p (kids L); implied := ddel p (implied L) |}.

Definition with_order (n : cnode) (o : list pystr) : cnode :=
  {| n_name := n_name n; n_parent := n_parent n; n_order := o;
     n_enabled := n_enabled n; n_exec_in := n_exec_in n |}.

(** stage.py 544-576 add_node_to_comp_layer (with add_to_child_order). *)
Definition add_node_to_comp_layer (L : layer) (path : pystr) (n : cnode) : layer :=
  let L1 := with_nodes L (dset path n (nodes L)) in
  let L2 := add_child_to_child_cache L1 (n_parent n) path (n_name n) in
  match dget (n_parent n) (nodes L2) with
  | Some pn =>
      if str_in (n_name n) (n_order pn) then L2
      else match list_merger (n_order pn) [n_name n] with
           | Some o => with_nodes L2 (dset (n_parent n) (with_order pn o) (nodes L2))
           | None => L2            (* unreachable: list_merger never raises (C13) *)
           end
  | None => L2
  end.

(** stage.py 958-985 remove_node_from_comp_layer (with rm_from_child_order);
    the node must be in the layer. *)
Definition remove_node_from_comp_layer (L : layer) (path : pystr) (n : cnode) : layer :=
  let L1 := with_nodes L (ddel path (nodes L)) in
  let L2 := clear_node_child_cache L1 path in
  let L3 := remove_child_from_child_cache L2 (n_parent n) path (n_name n) in
  match dget (n_parent n) (nodes L3) with
  | Some pn =>
      if str_in (n_name n) (n_order pn)
      then with_nodes L3 (dset (n_parent n)
             (with_order pn (try_remove (n_name n) (n_order pn))) (nodes L3))
      else L3
  | None => L3
  end.

(** stage.py 652-659: a node enters a spec layer's tables; the caches of its
    path and of its parent are dropped. *)
Definition put_node (L : layer) (path : pystr) (n : cnode) : layer :=
  clear_node_child_cache
    (clear_node_child_cache (with_nodes L (dset path n (nodes L))) path) (n_parent n).

(** stage.py 828-834: a node leaves a spec layer's tables. *)
Definition drop_node (L : layer) (path : pystr) (n : cnode) : layer :=
  clear_node_child_cache
    (clear_node_child_cache (with_nodes L (ddel path (nodes L))) path) (n_parent n).
