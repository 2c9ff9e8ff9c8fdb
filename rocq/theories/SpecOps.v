(** Model of the edits of a spec layer: Stage.add_node, delete_node,
    parent_nodes, set_node_name (nxt/stage.py 578-718, 790-847, 1101-1227,
    1282-1361, all without a comp layer) and SpecLayer.refresh
    (nxt/nxt_layer.py 177-195).

    A node object is a number, its attributes are kept in [objs].  Child caches
    are the business of Layer.v (C19): children and descendants are asked here
    of a layer without caches.  A node's code, comments and other data that no
    edit touches are one value, [s_rest]. *)

From Coq Require Import String List NArith Bool Arith.
From Verif Require Import PyStr NxtPath Dict ListMerger Layer PyVal SortRows Names.
Import ListNotations.

(** A spec node: name, parent path, child order, user attributes with their
    value and the node path of their source, and the rest
    (nxt_node.py 20-74, 101-162). *)
Record snode := {
  s_name : pystr;
  s_parent : pystr;
  s_order : list pystr;
  s_attrs : dict (pyval * pystr);
  s_rest : pyval
}.

(** dict keyed by node objects. *)
Fixpoint nget {V} (i : nat) (d : list (nat * V)) : option V :=
  match d with
  | [] => None
  | (j, v) :: t => if Nat.eqb j i then Some v else nget i t
  end.
Fixpoint nset {V} (i : nat) (v : V) (d : list (nat * V)) : list (nat * V) :=
  match d with
  | [] => [(i, v)]
  | (j, w) :: t => if Nat.eqb j i then (j, v) :: t else (j, w) :: nset i v t
  end.
Fixpoint ndel {V} (i : nat) (d : list (nat * V)) : list (nat * V) :=
  match d with
  | [] => []
  | (j, w) :: t => if Nat.eqb j i then t else (j, w) :: ndel i t
  end.

(** nxt_layer.py 99-145: spec_list, the two tables, the node table, positions
    and collapse; whether the layer is muted, or left out of the composition
    for another reason (another layer is soloed); positions and collapse of
    the top layer when that is another layer. *)
Record slayer := {
  objs : list snode;
  spec_list : list nat;
  by_path : dict nat;
  by_node : list (nat * pystr);
  table : list (list pystr * nat);
  positions : dict pyval;
  collapse : dict pyval;
  muted : bool;
  hidden : bool;
  top : option (dict pyval * dict pyval)
}.

(** A call that may raise, or not end. *)
Inductive outcome (A : Type) :=
| Done (a : A)
| Failed (e : exn)
| Endless.
Arguments Done {A}. Arguments Failed {A}. Arguments Endless {A}.

(** *** Fields *)

Definition with_objs (L : slayer) x := {| objs := x; spec_list := spec_list L; by_path := by_path L; by_node := by_node L; table := table L; positions := positions L; collapse := collapse L; muted := muted L; hidden := hidden L; top := top L |}.
Definition with_spec_list (L : slayer) x := {| objs := objs L; spec_list := x; by_path := by_path L; by_node := by_node L; table := table L; positions := positions L; collapse := collapse L; muted := muted L; hidden := hidden L; top := top L |}.
Definition with_by_path (L : slayer) x := {| objs := objs L; spec_list := spec_list L; by_path := x; by_node := by_node L; table := table L; positions := positions L; collapse := collapse L; muted := muted L; hidden := hidden L; top := top L |}.
Definition with_by_node (L : slayer) x := {| objs := objs L; spec_list := spec_list L; by_path := by_path L; by_node := x; table := table L; positions := positions L; collapse := collapse L; muted := muted L; hidden := hidden L; top := top L |}.
Definition with_table (L : slayer) x := {| objs := objs L; spec_list := spec_list L; by_path := by_path L; by_node := by_node L; table := x; positions := positions L; collapse := collapse L; muted := muted L; hidden := hidden L; top := top L |}.
Definition with_positions (L : slayer) x := {| objs := objs L; spec_list := spec_list L; by_path := by_path L; by_node := by_node L; table := table L; positions := x; collapse := collapse L; muted := muted L; hidden := hidden L; top := top L |}.
Definition with_collapse (L : slayer) x := {| objs := objs L; spec_list := spec_list L; by_path := by_path L; by_node := by_node L; table := table L; positions := positions L; collapse := x; muted := muted L; hidden := hidden L; top := top L |}.
Definition with_top (L : slayer) x := {| objs := objs L; spec_list := spec_list L; by_path := by_path L; by_node := by_node L; table := table L; positions := positions L; collapse := collapse L; muted := muted L; hidden := hidden L; top := x |}.

(** Assigning to an attribute of node [i]. *)
Fixpoint update (i : nat) (f : snode -> snode) (l : list snode) : list snode :=
  match l, i with
  | [], _ => []
  | n :: t, O => f n :: t
  | n :: t, S i' => n :: update i' f t
  end.
Definition on_node (L : slayer) (i : nat) (f : snode -> snode) : slayer :=
  with_objs L (update i f (objs L)).

Definition set_name nm (n : snode) := {| s_name := nm; s_parent := s_parent n; s_order := s_order n; s_attrs := s_attrs n; s_rest := s_rest n |}.
Definition set_parent p (n : snode) := {| s_name := s_name n; s_parent := p; s_order := s_order n; s_attrs := s_attrs n; s_rest := s_rest n |}.
Definition set_order o (n : snode) := {| s_name := s_name n; s_parent := s_parent n; s_order := o; s_attrs := s_attrs n; s_rest := s_rest n |}.
(** nxt_layer.py 181-184: every local attribute's source becomes the node's
    path. *)
Definition set_sources p (n : snode) := {| s_name := s_name n; s_parent := s_parent n; s_order := s_order n;
  s_attrs := map (fun kv => (fst kv, (fst (snd kv), p))) (s_attrs n); s_rest := s_rest n |}.

(** *** Queries *)

(** nxt_layer.py 197-198 and 213-214. *)
Definition lookup (L : slayer) (p : pystr) : option nat := dget p (by_path L).
Definition path_of (L : slayer) (i : nat) : option pystr := nget i (by_node L).
(** getattr on a node object. *)
Definition obj (L : slayer) (i : nat) : option snode := nth_error (objs L) i.

(** The layer as Layer.v sees it, with no caches. *)
Definition view_nodes (L : slayer) : dict cnode :=
  flat_map (fun pi => match obj L (snd pi) with
    | Some n => [(fst pi, {| n_name := s_name n; n_parent := s_parent n; n_order := s_order n;
                             n_enabled := None; n_exec_in := None |})]
    | None => []
    end) (by_path L).
Definition view (L : slayer) : layer := {| nodes := view_nodes L; kids := []; implied := [] |}.
Definition same_string (a b : pystr) : bool := true.
(** A bound on the depth of the layer. *)
Definition depth_fuel (L : slayer) : nat := S (list_sum (map (@length N) (dkeys (by_path L)))).

(** layer.children(p, Path, include_implied) (nxt_layer.py 267-409). *)
Definition kid_paths (L : slayer) (p : pystr) (incl : bool) : list pystr :=
  as_list (fst (children same_string same_string (view L) p RPath false incl)).
(** layer.descendants(p, Path, include_implied=True) (nxt_layer.py 423-454). *)
Definition below_paths (L : slayer) (p : pystr) : list pystr :=
  as_list (fst (descendants same_string same_string (depth_fuel L) (view L) p RPath false true)).

(** *** refresh *)

(** nxt_layer.py 177-195.  get_node_local_attr_names looks at active layers
    only (nxt_layer.py 1130): on a muted layer no source is touched. *)
Definition refresh_sources (L : slayer) : list snode :=
  if muted L then objs L
  else fold_left (fun os pi => update (snd pi) (set_sources (fst pi)) os) (by_path L) (objs L).
Definition refresh (L : slayer) : slayer :=
  let rows := map (fun pi => (str_path_to_node_namespace (fst pi), snd pi)) (by_path L) in
  with_table (with_objs L (refresh_sources L))
             (sort_multidimensional_list (fun r => length (fst r)) rows).

(** *** Unique names *)

Section Edits.
Variables uni_digit uni_word : N -> bool.
(** The nodes the other layers (and instances) contribute to the composed
    stage, which may depend on this layer. *)
Variable extra : slayer -> list pystr.

(** The node paths of build_stage(from_idx=0) (stage.py 455-456, 2607-2676): a
    muted or hidden layer does not take part. *)
Definition stage_paths (L : slayer) : list pystr :=
  (if muted L || hidden L then [] else dkeys (by_path L)) ++ extra L.
(** stage.py 420-467 with a spec layer and layer_only=False. *)
Definition unique_name (L : slayer) (name : option pystr) (parent : pystr) : option (res pystr) :=
  get_unique_node_name uni_digit uni_word (fun p => str_in p (stage_paths L))
                       (S (length (stage_paths L))) name parent.

(** *** add_node *)

(** The data argument of add_node: child order, user attributes, the rest, and
    the children with their names. *)
Inductive tree := Tree (order : list pystr) (attrs : dict pyval) (rest : pyval)
                       (subs : list (option pystr * tree)).

(** nxt_node.py 131-134. *)
Definition dedup (l : list pystr) : list pystr :=
  fold_left (fun acc c => if str_in c acc then acc else acc ++ [c]) l [].

(** nxt_node.py 101-162 create_spec_node, on this representation. *)
Definition make_node (name parent : pystr) (order : list pystr) (attrs : dict pyval)
           (rest : pyval) : snode :=
  let path := join_node_paths parent name in
  {| s_name := name; s_parent := parent; s_order := dedup order;
     s_attrs := map (fun kv => (fst kv, (snd kv, path))) attrs; s_rest := rest |}.

(** nxt_node.py 147-155: the new name goes into the parent's child order. *)
Definition announce (L : slayer) (parent name : pystr) : slayer :=
  match lookup L parent with
  | Some pi =>
      match obj L pi with
      | Some pn =>
          if str_in name (s_order pn) then L
          else match list_merger (s_order pn) [name] with
               | Some o => on_node L pi (set_order o)
               | None => L      (* unreachable: list_merger never raises (C13) *)
               end
      | None => L
      end
  | None => L
  end.

(** stage.py 644-660: one node enters the layer. *)
Definition enter (L : slayer) (name parent : pystr) (order : list pystr) (attrs : dict pyval)
           (rest : pyval) : slayer * nat * pystr :=
  let i := length (objs L) in
  let L := with_objs L (objs L ++ [make_node name parent order attrs rest]) in
  let L := announce L parent name in
  let path := join_node_paths parent name in
  let L := with_spec_list L (spec_list L ++ [i]) in
  let L := with_by_path L (dset path i (by_path L)) in
  let L := with_by_node L (nset i path (by_node L)) in
  (with_table L (table L ++ [(str_path_to_node_namespace path, i)]), i, path).

(** nxt_node.py 310-316 get_node_path(node). *)
Definition spelled_path (L : slayer) (i : nat) : pystr :=
  match obj L i with Some n => join_node_paths (s_parent n) (s_name n) | None => [] end.

(** stage.py 578-687 with [parent] a node path (a parent node is turned into
    its path, 631-638).  Returns the nodes created and the dirty paths.  A
    missing name with fix_names=False makes join_node_paths raise. *)
Fixpoint add_node (t : tree) (name : option pystr) (parent : pystr) (fix_names : bool)
         (L : slayer) : slayer * outcome (list nat * list pystr) :=
  match (if fix_names then unique_name L name parent
         else Some (match name with Some s => Ok s | None => Raise TypeError end)) with
  | None => (L, Endless)
  | Some (Raise e) => (L, Failed e)
  | Some (Ok nm) =>
      match t with
      | Tree order attrs rest subs =>
          let '(L1, i, path) := enter L nm parent order attrs rest in
          let dirty := map (fun p => match lookup L1 p with
                                     | Some j => spelled_path L1 j
                                     | None => [] (* unreachable: real children *)
                                     end) (kid_paths L1 path false) in
          let '(L2, r) :=
            (fix go (subs : list (option pystr * tree)) (L : slayer) (ids : list nat) (ds : list pystr)
               : slayer * outcome (list nat * list pystr) :=
               match subs with
               | [] => (L, Done (ids, ds))
               | (cn, ct) :: rest =>
                   match add_node ct cn (spelled_path L i) fix_names L with
                   | (L', Done (ids', ds')) => go rest L' (ids ++ ids') (ds ++ ds')
                   | (L', Failed e) => (L', Failed e)
                   | (L', Endless) => (L', Endless)
                   end
               end) subs L1 [] dirty in
          (L2, match r with
               | Done (ids, ds) => Done (i :: ids, path :: ds)
               | Failed e => Failed e
               | Endless => Endless
               end)
      end
  end.

(** *** delete_node *)

(** [l.remove(x)] on a list of nodes; [None] is ValueError. *)
Fixpoint remove_id (i : nat) (l : list nat) : option (list nat) :=
  match l with
  | [] => None
  | j :: t => if Nat.eqb j i then Some t else option_map (cons j) (remove_id i t)
  end.

(** stage.py 828-850: one path leaves the layer.  lookup gives None for a path
    without a node, which spec_list does not contain. *)
Definition remove_path (pop_order remove_data : bool) (L : slayer) (p : pystr)
  : slayer * outcome unit :=
  match lookup L p with
  | None => (L, Failed ValueError)
  | Some i =>
      match remove_id i (spec_list L) with
      | None => (L, Failed ValueError)
      | Some sl =>
          let L := with_spec_list L sl in
          let L := with_by_path L (ddel p (by_path L)) in
          match nget i (by_node L) with
          | None => (L, Failed KeyError)
          | Some _ =>
              let L := with_by_node L (ndel i (by_node L)) in
              let L :=
                match obj L i with
                | None => L
                | Some n =>
                    match lookup L (s_parent n) with
                    | None => L
                    | Some pi =>
                        match obj L pi with
                        | None => L
                        | Some pn =>
                            if str_in (s_name n) (s_order pn) && pop_order
                            then on_node L pi (set_order (try_remove (s_name n) (s_order pn)))
                            else L
                        end
                    end
                end in
              let L := if remove_data
                       then with_collapse (with_positions L (ddel p (positions L)))
                                          (ddel p (collapse L))
                       else L in
              (L, Done tt)
          end
      end
  end.

Fixpoint remove_paths (pop_order remove_data : bool) (L : slayer) (ps : list pystr)
  : slayer * outcome unit :=
  match ps with
  | [] => (L, Done tt)
  | p :: t => match remove_path pop_order remove_data L p with
              | (L', Done _) => remove_paths pop_order remove_data L' t
              | e => e
              end
  end.

(** stage.py 790-854.  The result is the list of removed paths. *)
Definition delete_node (L : slayer) (i : nat) (remove_data with_descendants : bool)
  : slayer * outcome (list pystr) :=
  match obj L i with
  | None => (L, Failed AttributeError)
  | Some n =>
      let path := join_node_paths (s_parent n) (s_name n) in
      let ds := below_paths L path in
      let ps := path :: if with_descendants then ds else [] in
      let pop_order := with_descendants || match ds with [] => true | _ => false end in
      match remove_paths pop_order remove_data L ps with
      | (L', Done _) => (refresh L', Done ps)
      | (L', Failed e) => (L', Failed e)
      | (L', Endless) => (L', Endless)
      end
  end.

(** *** parent_nodes *)

(** [if k in d: d[k'] = d.pop(k)] (stage.py 1194-1200, 1336-1343). *)
Definition move_key {V} (k k' : pystr) (d : dict V) : dict V :=
  match dget k d with Some v => dset k' v (ddel k d) | None => d end.

(** nxt_layer.py 239-246: the nearest ancestor the layer has, as used by
    stage.py 1144-1146. *)
Fixpoint nearest (L : slayer) (fuel : nat) (p : pystr) : option (pystr * nat) :=
  match fuel with
  | O => None
  | S f => if str_eqb p WORLD then None
           else match lookup L p with
                | Some i => Some (p, i)
                | None => nearest L f (get_parent_path p)
                end
  end.

(** Take a name out of a node's child order, if it is there. *)
Definition forget (L : slayer) (i : nat) (name : pystr) : slayer :=
  match obj L i with
  | Some n => if str_in name (s_order n)
              then on_node L i (set_order (try_remove name (s_order n))) else L
  | None => L
  end.

(** stage.py 1136-1157: the node's name leaves its old parent's child order;
    when the parent is missing, the name of the implied child leaves the
    nearest ancestor's. *)
Definition leave_parent (L : slayer) (old parent name : pystr) : slayer :=
  if str_eqb parent WORLD then L
  else match lookup L parent with
       | Some pi => forget L pi name
       | None =>
           match nearest L (S (length parent)) parent with
           | Some (ap, ai) =>
               let '(_, _, rest) := partition (ap ++ NODE_SEP) old in
               forget L ai (node_name_from_node_path (get_root_path (NODE_SEP ++ rest)))
           | None => L
           end
       end.

(** stage.py 1158-1172: the name in the new parent's child order. *)
Definition join_order (L : slayer) (parent name : pystr) : slayer :=
  match lookup L parent with
  | Some pi => match obj L pi with
               | Some pn => if str_in name (s_order pn) then L
                            else on_node L pi (set_order (s_order pn ++ [name]))
               | None => L
               end
  | None => L
  end.

(** stage.py 1181-1202: one other entry of the path table. *)
Definition move_entry (old new : pystr) (fresh : bool) (L : slayer) (pi : pystr * nat) : slayer :=
  let '(p, j) := pi in
  if str_eqb p new && fresh then L
  else if is_ancestor p old then
    let p' := replace_ancestor p old new in
    let L := with_by_path L (dset p' j (ddel p (by_path L))) in
    let L := with_by_node L (nset j p' (by_node L)) in
    on_node L j (fun n => set_parent (replace_ancestor (s_parent n) old new) n)
  else L.

(** stage.py 1133-1212: one node.  Returns the old path.  [path is new_path]
    holds for the key object just put in the table, that is, when the key was
    not there before. *)
Definition parent_one (check_names : bool) (parent : pystr) (L : slayer) (i : nat)
  : slayer * outcome pystr :=
  match path_of L i, obj L i with
  | Some old, Some n =>
      let L := leave_parent L old (s_parent n) (s_name n) in
      match (if check_names then unique_name L (Some (s_name n)) parent
             else Some (Ok (s_name n))) with
      | None => (L, Endless)
      | Some (Raise e) => (L, Failed e)
      | Some (Ok nm) =>
          let L := if check_names then on_node L i (set_name nm) else L in
          let L := join_order L parent nm in
          let new := join_node_paths parent nm in
          let L := on_node L i (set_parent parent) in
          match dget old (by_path L) with
          | None => (L, Failed KeyError)
          | Some j =>
              let popped := ddel old (by_path L) in
              let fresh := negb (dmem new popped) in
              let L := with_by_path L (dset new j popped) in
              let L := with_by_node L (nset i new (by_node L)) in
              let L := fold_left (move_entry old new fresh) (by_path L) L in
              let L := with_collapse L (move_key old new (collapse L)) in
              let L := with_top L (option_map (fun pc => (fst pc, move_key old new (snd pc))) (top L)) in
              (L, Done old)
          end
      end
  | _, _ => (L, Failed KeyError)
  end.

Fixpoint parent_each (check_names : bool) (parent : pystr) (L : slayer) (ids : list nat)
  : slayer * outcome (list pystr) :=
  match ids with
  | [] => (L, Done [])
  | i :: t => match parent_one check_names parent L i with
              | (L', Done old) =>
                  match parent_each check_names parent L' t with
                  | (L'', Done olds) => (L'', Done (old :: olds))
                  | e => e
                  end
              | (L', Failed e) => (L', Failed e)
              | (L', Endless) => (L', Endless)
              end
  end.

(** stage.py 1213-1226: the result, checked.  The bare Exception is
    represented by ValueError. *)
Fixpoint parent_result (L : slayer) (ids : list nat) (olds : list pystr) (acc : dict pystr)
  : outcome (dict pystr) :=
  match ids, olds with
  | i :: ids', old :: olds' =>
      let expected := spelled_path L i in
      if str_eqb old expected ||
         negb (match path_of L i with Some p => str_eqb p expected | None => false end)
      then Failed ValueError
      else parent_result L ids' olds' (dset old expected acc)
  | _, _ => Done acc
  end.

(** stage.py 1101-1227. *)
Definition parent_nodes (L : slayer) (ids : list nat) (parent : pystr) (check_names : bool)
  : slayer * outcome (dict pystr) :=
  match ids with
  | [] => (L, Done [])
  | _ =>
      match parent_each check_names parent L ids with
      | (L', Done olds) => let L' := refresh L' in (L', parent_result L' ids olds [])
      | (L', Failed e) => (L', Failed e)
      | (L', Endless) => (L', Endless)
      end
  end.

(** *** set_node_name *)

(** stage.py 1282-1361; the node belongs to the layer (else TypeError, 1306). *)
Definition set_node_name (L : slayer) (i : nat) (name : pystr) (force : bool)
  : slayer * outcome pystr :=
  match path_of L i, obj L i with
  | Some old, Some n =>
      let kids := flat_map (fun p => match lookup L p with Some j => [j] | None => [] end)
                           (kid_paths L old true) in
      match (if force then Some (Ok name) else unique_name L (Some name) (s_parent n)) with
      | None => (L, Endless)
      | Some (Raise e) => (L, Failed e)
      | Some (Ok nm) =>
          let L := on_node L i (set_name nm) in
          let new := join_node_paths (s_parent n) nm in
          let L := match lookup L (s_parent n) with
                   | Some pi => on_node L pi (fun pn =>
                       set_order (map (fun x => if str_eqb x (s_name n) then nm else x) (s_order pn)) pn)
                   | None => L
                   end in
          let L := with_positions L (move_key old new (positions L)) in
          let L := with_collapse L (move_key old new (collapse L)) in
          let L := with_by_path L (move_key old new (by_path L)) in
          let L := with_top L (option_map (fun pc => (move_key old new (fst pc), snd pc)) (top L)) in
          let L := with_by_node L (nset i new (by_node L)) in
          match kids with
          | [] => (refresh L, Done new)
          | _ => match parent_nodes L kids new false with
                 | (L', Done _) => (refresh L', Done new)
                 | (L', Failed e) => (L', Failed e)
                 | (L', Endless) => (L', Endless)
                 end
          end
      end
  | _, _ => (L, Failed TypeError)
  end.

(** *** Histories *)

Inductive edit :=
| EAdd (t : tree) (name : option pystr) (parent : pystr) (fix_names : bool)
| EDelete (i : nat) (remove_data with_descendants : bool)
| EParent (ids : list nat) (parent : pystr) (check_names : bool)
| ERename (i : nat) (name : pystr) (force : bool).

Definition apply_edit (L : slayer) (e : edit) : slayer :=
  match e with
  | EAdd t name parent fx => fst (add_node t name parent fx L)
  | EDelete i rd wd => fst (delete_node L i rd wd)
  | EParent ids parent cn => fst (parent_nodes L ids parent cn)
  | ERename i name force => fst (set_node_name L i name force)
  end.

End Edits.
