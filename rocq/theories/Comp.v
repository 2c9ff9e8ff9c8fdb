(** Model of the composition of a stage: Stage.build_stage and what it calls
    (nxt/stage.py 544-576, 958-985, 2438-2512, 2607-2757, 2990-3184, 3290-3322,
    3365-3473).

    Node objects are Python classes.  A spec node has no base class besides
    Node, whose own attributes are all among those every spec node defines
    itself (nxt_node.py 93-99, 122-148), so Node is left out.  A comp node is
    identified with its path.  The comp layer's node table and its two
    dictionaries have the same entries in the same order ([comps]).  Child
    caches are the business of Layer.v (C19): children are asked here of a
    layer without caches, and string identity is taken for equality.  Logging,
    positions and collapse are left out. *)

From Coq Require Import String List NArith ZArith Bool Arith.
From Verif Require Import PyStr NxtPath Dict ListMerger SortRows Layer PyVal NodeIO PyClass.
From Verif Require DirtyMap.
Import ListNotations.

(** A class: spec node number [i], or the comp node at a path. *)
Inductive ref := Sp (i : nat) | Co (p : pystr).
Definition ref_eqb (a b : ref) : bool :=
  match a, b with
  | Sp i, Sp j => Nat.eqb i j
  | Co p, Co q => str_eqb p q
  | _, _ => false
  end.

(** A comp node: the attributes set on it and its __bases__
    (nxt_node.py 172-180). *)
Record cnode := { own : node; cbases : list ref }.
Record heap := { specs : list node; comps : dict cnode; dirty : dict (list pystr) }.

Definition with_comps (H : heap) x := {| specs := specs H; comps := x; dirty := dirty H |}.
Definition with_dirty (H : heap) x := {| specs := specs H; comps := comps H; dirty := x |}.

(** comp_layer.lookup(p) is not None (nxt_layer.py 197-198). *)
Definition here (H : heap) (p : pystr) : bool := dmem p (comps H).

Definition change (p : pystr) (f : cnode -> cnode) (d : dict cnode) : dict cnode :=
  map (fun kc => if str_eqb (fst kc) p then (fst kc, f (snd kc)) else kc) d.
(** setattr(comp node at p, a, v). *)
Definition set_attr (H : heap) (p a : pystr) (v : pyval) : heap :=
  with_comps H (change p (fun c => {| own := dset a v (own c); cbases := cbases c |}) (comps H)).

(** getattr(comp node at p, a, None) for an attribute every spec node defines:
    the comp node's own or its first base's.  [C33_internal] in Props_Comp.v
    shows that the MRO gives the same. *)
Definition node_attr (S : list node) (c : cnode) (a : pystr) : pyval :=
  match dget a (own c) with
  | Some v => v
  | None => match cbases c with
            | Sp i :: _ => match nth_error S i with Some n => attr_or_none n a | None => VNone end
            | _ => VNone
            end
  end.
Definition attr (H : heap) (p a : pystr) : pyval :=
  match dget p (comps H) with
  | Some c => node_attr (specs H) c a
  | None => VNone
  end.

(** A string value; anything else is taken for none.  Values of other types
    for paths and names are not modelled. *)
Definition as_str (v : pyval) : option pystr :=
  match v with VStr s => Some s | _ => None end.
Definition as_strs (v : pyval) : list pystr :=
  match v with VList l => match strings l with Some l => l | None => [] end | _ => [] end.
Definition inst_of (H : heap) (p : pystr) : option pystr := as_str (attr H p INSTANCE_PATH).
Definition order_of (H : heap) (p : pystr) : list pystr := as_strs (attr H p CHILD_ORDER).
Definition name_of (H : heap) (p : pystr) : pystr :=
  match attr H p NAME with VStr s => s | _ => [] end.
Definition parent_of (H : heap) (p : pystr) : pystr :=
  match attr H p PARENT_PATH with VStr s => s | _ => [] end.

(** list_merger; it never raises (C13). *)
Definition merged (base overlay : list pystr) : list pystr :=
  match list_merger base overlay with Some m => m | None => base end.
Definition set_order (H : heap) (p : pystr) (o : list pystr) : heap :=
  set_attr H p CHILD_ORDER (VStrs o).

(** *** Pre proxy comp (stage.py 2678-2757) *)

(** stage.py 2694-2718: comp nodes in the order in which their paths are first
    seen, strong to weak.  The base mapping and the comp node's bases
    (assigned at 2728) are one here: nothing reads the bases in between.
    [n] is the number of the spec node. *)
Fixpoint gather (n : nat) (rows : list (list pystr * node)) (acc : dict cnode) : dict cnode :=
  match rows with
  | [] => acc
  | (ns, sp) :: rest =>
      let p := node_namespace_to_str_path ns in
      gather (S n) rest
        (if dmem p acc
         then change p (fun c => {| own := own c; cbases := cbases c ++ [Sp n] |}) acc
         else acc ++ [(p, {| own := [(NAME, attr_or_none sp NAME)]; cbases := [Sp n] |})])
  end.

(** stage.py 2737-2745; the attributes are a set: six different keys. *)
Definition overload (p : pystr) (o sp : node) : node :=
  fold_left (fun o a =>
    let v := attr_or_none sp a in
    if has_opinion v
    then dset (a ++ META_SOURCE) (VTuple [attr_or_none sp SOURCE_LAYER; VStr p]) (dset a v o)
    else o) TRACKED o.
(** stage.py 2729-2756: the loop over reversed(bases). *)
Fixpoint overloads (p : pystr) (first : bool) (sps : list node) (o : node) : node :=
  match sps with
  | [] => o
  | sp :: rest =>
      let o := if first then dset CHILD_ORDER (attr_or_none sp CHILD_ORDER) o else o in
      let o := overload p o sp in
      let o := if str_eqb p WORLD then o
               else dset CHILD_ORDER (VStrs (merged (as_strs (attr_or_none sp CHILD_ORDER))
                                                    (as_strs (attr_or_none o CHILD_ORDER)))) o in
      overloads p false rest o
  end.
Definition spec_nodes (S : list node) (bs : list ref) : list node :=
  flat_map (fun b => match b with
                     | Sp i => match nth_error S i with Some n => [n] | None => [] end
                     | Co _ => []
                     end) bs.
Definition pre_node (S : list node) (p : pystr) (c : cnode) : cnode :=
  {| own := overloads p true (rev (spec_nodes S (cbases c))) (own c); cbases := cbases c |}.
Definition comp_pre_proxies (tables : list (list (list pystr * node))) : heap :=
  let rows := concat tables in
  let S := map snd rows in
  {| specs := S;
     comps := map (fun kc => (fst kc, pre_node S (fst kc) (snd kc))) (gather 0 rows []);
     dirty := [] |}.

(** *** Instances *)

(** stage.py 3455-3473 get_instance_sources; [length (comps H)] steps are
    always enough ([trace_enough] in CompPostProofs.v). *)
Fixpoint trace_from (fuel : nat) (H : heap) (p : pystr) (acc : list pystr) : list pystr :=
  match fuel with
  | O => acc
  | S f => match inst_of H p with
           | Some i => if here H i && negb (str_in i acc) then trace_from f H i (acc ++ [i]) else acc
           | None => acc
           end
  end.
Definition trace (H : heap) (p : pystr) : list pystr := trace_from (length (comps H)) H p [].

(** get_node_dirties with enough fuel (C15). *)
Definition dirties (H : heap) (p : pystr) : list pystr :=
  match DirtyMap.get_node_dirties (S (list_sum (map (fun kv => length (snd kv)) (dirty H)))) (dirty H) p with
  | Some l => l
  | None => []
  end.

(** stage.py 3290-3322 instance_is_possible, and the same lines 3008-3031 of
    discover_proxies. *)
Definition possible (H : heap) (p : pystr) : option pystr :=
  match inst_of H p with
  | None => None
  | Some i =>
      if is_empty i || str_eqb i WORLD then None
      else match expand_relative_node_path i p with
           | None => None                                  (* only for an empty path *)
           | Some real =>
               if startswith (real ++ NODE_SEP) p then None
               else if str_in real (dirties H p) then None
               else Some real
           end
  end.

(** stage.py 3418-3429 sort_instances without deep sort; a row is
    (trace, node). *)
Definition sort_instances (H : heap) : list pystr :=
  sort_multidimensional_list (fun p => length (trace H p)) (dkeys (comps H)).

Fixpoint index_of (x : pystr) (l : list pystr) : nat :=
  match l with
  | [] => 0
  | y :: t => if str_eqb x y then 0 else S (index_of x t)
  end.
(** stage.py 3430-3453: the deep sort.  The place is computed before the item
    is taken out. *)
Definition deep_step (H : heap) (acc : list pystr * dict nat) (p : pystr) : list pystr * dict nat :=
  let '(l, offsets) := acc in
  match possible H p with
  | Some real =>
      if here H real then
        let offset := dget_def real 1 offsets in
        (py_insert (index_of real l + offset) p (remove_first p l), dset real (S offset) offsets)
      else acc
  | None => acc
  end.
Definition deep_sort_instances (H : heap) : list pystr :=
  let l := sort_instances H in
  fst (fold_left (deep_step H) l (l, [])).

(** The comp layer as Layer.v sees it, without caches. *)
Definition view (H : heap) : layer :=
  {| nodes := map (fun kc => (fst kc,
       {| n_name := name_of H (fst kc); n_parent := parent_of H (fst kc); n_order := order_of H (fst kc);
          n_enabled := None; n_exec_in := None |})) (comps H);
     kids := []; implied := [] |}.
Definition same_string (a b : pystr) : bool := true.
(** children(p, Path, include_implied=True). *)
Definition kid_paths (H : heap) (p : pystr) : list pystr :=
  as_list (fst (children same_string same_string (view H) p RPath false true)).
(** name in children(p, NameDict), p possibly None. *)
Definition has_kid_named (H : heap) (p : option pystr) (name : pystr) : bool :=
  match p with
  | None => false
  | Some p => match fst (children same_string same_string (view H) p RDict false false) with
              | ADict d => dmem name d
              | _ => false
              end
  end.

Section Proxies.
(** The real path of the strongest active layer, which is the comp layer's
    (stage.py 2640). *)
Variable top_real : pyval.
(** Whether CPython keeps one object for the two equal strings of a node that
    instances itself (stage.py 3504). *)
Variable one_object : bool.

Definition concern (H : heap) (src tgt : pystr) : heap :=
  with_dirty H (DirtyMap.extend_dirty_map (fun s => str_eqb s WORLD) (one_object && str_eqb src tgt)
                                          src tgt (dirty H)).

(** stage.py 3043-3056: one child of the instance source. *)
Definition discover_child (p : pystr) (acc : heap * list (list pystr * pystr * pystr)) (src : pystr)
  : heap * list (list pystr * pystr * pystr) :=
  let '(H, to_do) := acc in
  let tgt_ns := str_path_to_node_namespace p ++ [List.last (str_path_to_node_namespace src) []] in
  let tgt := node_namespace_to_str_path tgt_ns in
  if here H tgt then
    match attr H tgt INSTANCE_PATH with
    | VStr [] => (H, to_do)
    | _ => (set_attr H tgt INSTANCE_PATH (VStr src), to_do)
    end
  else (H, to_do ++ [(tgt_ns, src, tgt)]).

(** stage.py 2990-3058 discover_proxies. *)
Definition discover (H : heap) (p : pystr) : heap * list (list pystr * pystr * pystr) :=
  match possible H p with
  | None => (H, [])
  | Some real =>
      let H := set_attr H p INSTANCE_PATH (VStr real) in
      let H := concern H real p in
      let H := if here H real then set_order H p (merged (order_of H p) (order_of H real)) else H in
      let '(H, to_do) := fold_left (discover_child p) (kid_paths H real) (H, []) in
      (H, sort_multidimensional_list (fun r => length (fst (fst r))) to_do)
  end.
(** stage.py 3076-3083. *)
Definition discover_all (H : heap) (ps : list pystr) : heap * list (list pystr * pystr * pystr) :=
  fold_left (fun acc p => let '(H, to_do) := acc in
                          let '(H, more) := discover H p in (H, to_do ++ more)) ps (H, []).

(** nxt_node.py 149-158 for the spec node made of a missing instance source
    (stage.py 2464-2465): its name goes to the child order of its parent. *)
Definition name_missing (H : heap) (src : pystr) : heap :=
  let name := node_name_from_node_path src in
  let pp := get_parent_path src in
  if here H pp && negb (truthy (attr H pp PROXY)) && negb (str_in name (order_of H pp))
  then set_order H pp (merged (order_of H pp) [name])
  else H.
(** stage.py 2480-2493: the spec node of a proxy. *)
Definition proxy_spec (name : pystr) (comment enabled source : pyval) (parent : pystr) : node :=
  match create_node [(lit "name", VStr name); (lit "comment", comment); (lit "enabled", enabled);
                     (lit "source_layer", source); (lit "parent_path", VStr parent)]
                    source parent true with
  | Ok n => n
  | Raise _ => []                                          (* unreachable: there is a name *)
  end.

(** stage.py 544-576 add_node_to_comp_layer with a comp node, and 2494-2506.
    The parent exists: it is the node that instances. *)
Definition add_proxy (H : heap) (sp : node) (src tgt : pystr) (force : bool) : heap :=
  let pp := get_parent_path tgt in
  let parent_layer := attr H pp SOURCE_LAYER in
  let o := [(INSTANCE_PATH, VStr src); (INSTANCE_PATH ++ META_SOURCE, VTuple [parent_layer; VStr src])] in
  let o := if force then dset SOURCE_LAYER parent_layer o else o in
  let H1 := {| specs := specs H ++ [sp];
               comps := comps H ++ [(tgt, {| own := o; cbases := [Sp (length (specs H))] |})];
               dirty := dirty H |} in
  let pp := match attr_or_none sp PARENT_PATH with VStr s => s | _ => [] end in
  let name := match attr_or_none sp NAME with VStr s => s | _ => [] end in
  if here H1 pp && negb (str_in name (order_of H1 pp))
  then set_order H1 pp (merged (order_of H1 pp) [name])
  else H1.

(** stage.py 2438-2512 create_instance_node; true: the new node is implied. *)
Definition create_instance (H : heap) (src tgt : pystr) : heap * bool :=
  let found := here H src in
  let pp := get_parent_path src in
  let force := negb found && has_kid_named H (inst_of H pp) (node_name_from_node_path src) in
  let name := if found then name_of H src else node_name_from_node_path src in
  let comment := if found then attr H src COMMENT else VNone in
  let enabled := if found then attr H src ENABLED else VNone in
  let source := if found then attr H src SOURCE_LAYER else top_real in
  let H := if found then H else name_missing H src in
  let H := if here H tgt
           then set_attr (set_attr H tgt INSTANCE_PATH (VStr src))
                         tgt (INSTANCE_PATH ++ META_SOURCE) (VTuple [source; VStr src])
           else add_proxy H (proxy_spec name comment enabled source (get_parent_path tgt)) src tgt force in
  (concern H src tgt, negb found && negb force).
(** stage.py 3084-3093. *)
Definition create_all (H : heap) (to_do : list (list pystr * pystr * pystr)) : heap * list pystr :=
  fold_left (fun acc r => let '(H, imps) := acc in
                          let '(_, src, tgt) := r in
                          let '(H, i) := create_instance H src tgt in
                          (H, if i then imps ++ [tgt] else imps)) to_do (H, []).

(** stage.py 3060-3093: the while loop, which goes on while nodes are added;
    [None] = out of fuel. *)
Fixpoint proxy_loop (fuel : nat) (H : heap) (imps : list pystr) : option (heap * list pystr) :=
  match fuel with
  | O => None
  | S f =>
      let '(H, to_do) := discover_all H (deep_sort_instances H) in
      let '(H, more) := create_all H to_do in
      match to_do with
      | [] => Some (H, imps ++ more)
      | _ => proxy_loop f H (imps ++ more)
      end
  end.
(** stage.py 3094-3101. *)
Definition drop_implied (H : heap) (imps : list pystr) : heap :=
  with_comps H (fold_left (fun d p => ddel p d) imps (comps H)).
Definition comp_proxies (fuel : nat) (H : heap) : option heap :=
  option_map (fun r => drop_implied (fst r) (snd r)) (proxy_loop fuel H []).
End Proxies.

(** *** Post proxy comp (stage.py 3103-3184) *)

Definition bases_in (d : dict cnode) (r : ref) : list ref :=
  match r with
  | Sp _ => []
  | Co p => match dget p d with Some c => cbases c | None => [] end
  end.
(** __mro__; the fuel is enough for every hierarchy without circles
    ([mro_enough] in CompPostProofs.v). *)
Definition mro_of (H : heap) (r : ref) : option (list ref) :=
  mro ref_eqb (bases_in (comps H)) (S (length (specs H) + length (comps H))) r.
(** Assigning to __bases__: every class below must still have an MRO. *)
Definition all_mros (H : heap) : bool :=
  forallb (fun kc => match mro_of H (Co (fst kc)) with Some _ => true | None => false end) (comps H).
Definition set_bases (H : heap) (p : pystr) (bs : list ref) : res heap :=
  let H' := with_comps H (change p (fun c => {| own := own c; cbases := bs |}) (comps H)) in
  if all_mros H' then Ok H' else Raise TypeError.

(** stage.py 3117-3128: the nearest ancestor that exists; [fuel] bounds the
    number of steps up. *)
Fixpoint nearest (fuel : nat) (H : heap) (p : pystr) : pystr :=
  match fuel with
  | O => p
  | S f => if here H p || str_eqb p WORLD then p else nearest f H (get_parent_path p)
  end.
(** stage.py 3114-3171 for the PARENT arc, which overloads no attribute. *)
Definition post_parent (H : heap) (p : pystr) : res heap :=
  let pp := parent_of H p in
  if is_empty pp then Ok H
  else let base := nearest (S (length pp)) H pp in
       if here H base then set_bases H p (bases_in (comps H) (Co p) ++ [Co base]) else Ok H.

Definition INSTANCE_ATTRS : list pystr := [ENABLED; COMMENT; COMPUTE].
(** stage.py 3160-3168. *)
Definition inherit (base p : pystr) (H : heap) (a : pystr) : heap :=
  if has_opinion (attr H p a) then H
  else set_attr (set_attr H p a (attr H base a)) p (a ++ META_SOURCE)
                (VTuple [attr H base SOURCE_LAYER; VStr p]).
(** stage.py 3388-3406 _safe_mro_add_base_class: the bases to keep. *)
Definition safe_bases (H : heap) (cur : list ref) (base : pystr) : list ref :=
  filter (fun c => negb (existsb (fun b => match mro_of H b with Some l => isin ref_eqb c l | None => false end)
                                 (bases_in (comps H) (Co base)))) cur.
Definition safe_add (H : heap) (p base : pystr) : res heap :=
  let cur := bases_in (comps H) (Co p) in
  if isin ref_eqb (Co base) cur then Ok H
  else set_bases H p (safe_bases H cur base ++ [Co base]).
(** stage.py 3114-3171 for the INSTANCE arc. *)
Definition post_instance (H : heap) (p : pystr) : res heap :=
  match inst_of H p with
  | None => Ok H
  | Some base =>
      if str_eqb base WORLD || negb (here H base) then Ok H
      else safe_add (fold_left (inherit base p) INSTANCE_ATTRS H) p base
  end.
(** stage.py 3103-3184 post_proxy_comp; TypeError when some node would have no
    MRO.  build_stage then notes the failure and leaves the composition half
    done (stage.py 2661-2664), which is not modelled. *)
Definition post_proxy_comp (H : heap) : res heap :=
  let l := sort_instances H in
  bind (fold_res post_parent l H) (fun H => fold_res post_instance l H).

(** *** The stage *)

Inductive built := Built (H : heap) | Broken | Endless.
(** stage.py 2607-2676 from the active layers on (2642-2664): [tables] are the
    node tables of the active layers, strong to weak. *)
Definition build_stage (fuel : nat) (top_real : pyval) (one_object : bool)
           (tables : list (list (list pystr * node))) : built :=
  let tables := map (sort_multidimensional_list (fun r => length (fst r))) tables in
  match comp_proxies top_real one_object fuel (comp_pre_proxies tables) with
  | None => Endless
  | Some H => match post_proxy_comp H with Ok H => Built H | Raise _ => Broken end
  end.

(** getattr on a node of the composed stage, any attribute: the class that has
    it and the value. *)
Definition own_attr (H : heap) (a : pystr) (r : ref) : option pyval :=
  match r with
  | Sp i => match nth_error (specs H) i with Some n => dget a n | None => None end
  | Co p => match dget p (comps H) with Some c => dget a (own c) | None => None end
  end.
Definition getattr (H : heap) (r : ref) (a : pystr) : option (ref * pyval) :=
  match mro_of H r with
  | Some l => lookup_in (own_attr H a) l
  | None => None
  end.
