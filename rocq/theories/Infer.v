(** Model of rolling a composed node back to the layers below:
    Stage.infer_lower_comp and what it calls (nxt/stage.py 1563-1580, 2004-2147,
    2195-2210, 3186-3231, 3371-3406).

    Inferred nodes are classes like the nodes of a comp layer, so the inferred
    comp layer is a heap (Comp.v): the spec nodes of the active layers, numbered
    through, then the spec nodes made here.  The warning about diverging
    instances (2050-2055, Diverge.v) is left out: it changes nothing.  Child caches are left
    out as in Comp.v. *)

From Coq Require Import String List NArith ZArith Bool Arith.
From Verif Require Import PyStr NxtPath Dict Resolve Layer LayerOver PyVal NodeIO PyClass Comp Live.
Import ListNotations.

(** A layer of the stage: get_muted(), get_soloed() and its node table. *)
Record below := { bl_muted : bool; bl_soloed : bool; bl_table : list (list pystr * node) }.

(** nxt_node.py 93-99: the class Node. *)
Definition NODE : node :=
  [(NAME, VStr (lit "node")); (PARENT_PATH, VStr WORLD); (CHILD_ORDER, VList []); (PROXY, VBool false); (ENABLED, VBool true)].
(** getattr(inferred node at p, a, None). *)
Definition look (K : heap) (p a : pystr) : pyval :=
  match getattr K (Co p) a with Some (_, v) => v | None => attr_or_none NODE a end.

(** add_node_to_comp_layer without the child order (stage.py 544-576). *)
Definition put (K : heap) (p : pystr) (bs : list ref) : heap :=
  with_comps K (comps K ++ [(p, {| own := []; cbases := bs |})]).

(** stage.py 3217-3225. *)
Definition inherit_seen (base p path : pystr) (K : heap) (a : pystr) : heap :=
  if has_opinion (look K p a) then K
  else set_attr (set_attr K p a (look K base a)) p (a ++ META_SOURCE) (VTuple [look K base SOURCE_LAYER; VStr path]).
(** stage.py 3186-3231 targeted_comp_post_proxies for a map of one node and
    without a comp layer; the parent arc overloads no attribute. *)
Definition post_proxies (K : heap) (p : pystr) (par src : option pystr) : res heap :=
  bind (match par with None => Ok K | Some b => safe_add K p b end) (fun K =>
  match src with
  | None => Ok K
  | Some b =>
      let path := join_node_paths (str_of (look K p PARENT_PATH)) (str_of (look K p NAME)) in
      safe_add (fold_left (inherit_seen b p path) INSTANCE_ATTRS K) p b
  end).

(** comp_layer.children(p, Path). *)
Definition child_paths (H : heap) (p : option pystr) : list pystr :=
  match p with
  | None => []
  | Some p => as_list (fst (children same_string same_string (view H) p RPath false false))
  end.

Section Infer.
(** The composed stage and the node tables of the active layers, strong to
    weak. *)
Variables (H : heap) (active : list (list (list pystr * node))).

(** layer.lookup(p): the number of the row; a table has one row for a path. *)
Fixpoint row_at (p : pystr) (n : nat) (rows : list (list pystr * node)) : list nat :=
  match rows with
  | [] => []
  | (ns, _) :: rest => if str_eqb (node_namespace_to_str_path ns) p then [n] else row_at p (S n) rest
  end.
(** stage.py 2195-2210 get_specs_at_path. *)
Fixpoint specs_in (p : pystr) (n : nat) (tables : list (list (list pystr * node))) : list nat :=
  match tables with
  | [] => []
  | t :: rest => row_at p n t ++ specs_in p (n + length t) rest
  end.
Definition specs_at (p : pystr) : list nat := specs_in p 0 active.

(** stage.py 2057-2066. *)
Definition dummy_spec (p : pystr) : node :=
  [(NAME, attr H p NAME); (PARENT_PATH, attr H p PARENT_PATH); (INSTANCE_PATH, attr H p INSTANCE_PATH);
   (PROXY, attr H p PROXY); (SOURCE_LAYER, VNone)].
(** stage.py 2067-2071. *)
Definition put_node (K : heap) (p path : pystr) : heap :=
  let K' := {| specs := specs K ++ [dummy_spec p]; comps := comps K; dirty := dirty K |} in
  put K' path (match specs_at path with [] => [Sp (length (specs K))] | l => map Sp l end).

(** stage.py 2095-2099: the instance path the spec nodes give an ancestor. *)
Definition strongest_source (K : heap) (ap : pystr) (sps : list nat) : pyval :=
  fold_left (fun cur i => let v := ref_attr K (Sp i) INSTANCE_PATH in if has_opinion v then v else cur)
            (rev sps) (look K ap INSTANCE_PATH).

(** An answer of infer_lower_comp below the first: the inferred layer, and the
    path of the inferred node or nothing.  [None] = out of fuel. *)
Definition inferred := option (res (heap * option pystr)).

(** stage.py 2077-2111: one ancestor.  The accumulator is the inferred layer and
    the parent so far. *)
Definition ancestor_step (rec : heap -> pystr -> inferred) (acc : heap * option pystr) (ap : pystr) : inferred :=
  let '(K, parent) := acc in
  match specs_at ap with
  | [] => Some (Ok acc)
  | sps =>
      if here K ap then Some (Ok (K, Some ap))
      else
        let K := put K ap (map Sp sps) in
        let inst := strongest_source K ap sps in
        let K := set_attr K ap INSTANCE_PATH inst in
        obind (match as_str inst with
               | Some i => if here H i then rec K i else Some (Ok (K, None))
               | None => Some (Ok (K, None))
               end) (fun r => let '(K, src) := r in
        Some (bind (post_proxies K ap parent src) (fun K => Ok (K, Some ap))))
  end.

(** stage.py 2112-2121: the child of the same name of what the parent
    instances. *)
Definition source_by_parent (K : heap) (path : pystr) (parent : option pystr) : option pystr :=
  match parent with
  | None => None
  | Some pp => List.find (fun q => str_eqb (node_name_from_node_path q) (str_of (look K path NAME)))
                    (child_paths H (as_str (look K pp INSTANCE_PATH)))
  end.
(** stage.py 1563-1580 safe_get_node_instance in the inferred layer; instance
    paths that are no strings are not modelled. *)
Definition source_by_node (K : heap) (path : pystr) : option pystr * option pystr :=
  match as_str (look K path INSTANCE_PATH) with
  | None => (None, None)
  | Some i => match expand_relative_node_path i path with
              | None => (None, None)
              | Some real => (if here K real then Some real else None, Some real)
              end
  end.

(** stage.py 2142-2147. *)
Definition finish (K : heap) (path : pystr) (bps : list pystr) (parent src : option pystr) : inferred :=
  let pp := get_parent_path path in
  let par := if is_empty pp || str_in pp bps then None else parent in
  Some (bind (post_proxies K path par src) (fun K => Ok (K, Some path))).
(** stage.py 2122-2147. *)
Definition add_source (rec : heap -> pystr -> inferred) (K : heap) (path : pystr) (parent : option pystr) : inferred :=
  let '(inst, inst_path) :=
    match source_by_parent K path parent with
    | Some q => if is_empty q then source_by_node K path else (None, Some q)
    | None => source_by_node K path
    end in
  let '(inst, infer_inst) :=
    match inst, inst_path with
    | None, Some q => if is_empty q then (None, false) else (if here H q then Some q else None, true)
    | _, _ => (inst, false)
    end in
  let bps := map (path_of K) (bases_in (comps K) (Co path)) in
  let other := match look K path INSTANCE_PATH with VStr s => negb (str_in s bps) | _ => true end in
  match inst with
  | Some q =>
      if infer_inst && other then obind (rec K q) (fun r => finish (fst r) path bps parent (snd r))
      else if other then finish K path bps parent (Some q)
      else finish K path bps parent None
  | None => if truthy (look K path PROXY) then Some (Ok (K, None)) else finish K path bps parent None
  end.

(** stage.py 2038-2147 for the comp node at [p]. *)
Fixpoint infer (fuel : nat) (K : heap) (p : pystr) : inferred :=
  match fuel with
  | O => None
  | S f =>
      let path := path_of H (Co p) in
      if here K path then Some (Ok (K, Some path))
      else obind (fold_out (ancestor_step (infer f)) (rev (all_ancestor_paths path ++ [WORLD])) (put_node K p path, None))
                 (fun r => add_source (infer f) (fst r) path (snd r))
  end.
End Infer.

(** What infer_lower_comp gives: the node itself, nothing, or an inferred node. *)
Inductive rolled := Same | Nothing | Rolled (K : heap) (p : pystr).

Definition no_nodes (active : list (list (list pystr * node))) : heap :=
  {| specs := map snd (concat active); comps := []; dirty := [] |}.
(** stage.py 2036-2049: [range] is comp_layer._layer_range, [given] the argument
    active_layers, if any. *)
Definition infer_lower_comp (fuel : nat) (sub_layers : list below) (range : nat * nat) (H : heap) (p : pystr)
           (given : list below) (depth : Z) : option (res rolled) :=
  if (depth =? 0)%Z then Some (Ok Same)
  else
    let from := fst range + Z.to_nat depth in
    let active := match given with
                  | [] => get_active_layers bl_muted bl_soloed (firstn (S (snd range) - from) (skipn from sub_layers))
                  | _ => given
                  end in
    match active with
    | [] => Some (Ok Nothing)
    | _ => if (depth <? 0)%Z then Some (Ok Nothing)
           else let tables := map bl_table active in
                omap (fun r => match snd r with Some q => Rolled (fst r) q | None => Nothing end)
                     (infer H tables fuel (no_nodes tables) p)
    end.
