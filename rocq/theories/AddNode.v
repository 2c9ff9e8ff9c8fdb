(** Model of adding a node to a composed stage: Stage.add_node with a comp layer
    and what it calls (nxt/stage.py 544-576, 578-718, 2759-2773, 2827-2850,
    2853-2988, 3186-3231, 3323-3363), for a path at which the comp layer has no
    node yet, and data without children and child order.  The insertion into the
    bases of an existing comp node (2774-2826) is not modelled; nor are child
    caches (as in Comp.v), logging and the choice of a free name (C17). *)

From Coq Require Import String List NArith ZArith Bool Arith.
From Verif Require Import PyStr NxtPath Dict ListMerger SortRows Layer PyVal NodeIO PyClass NodeEdit Comp Live Arcs.
Import ListNotations.

(** nxt_node.py 149-158: create_spec_node puts the name into the child order of
    the parent's spec node of the same layer, number [home], if there is one and
    it is no proxy. *)
Definition name_in_layer (H : heap) (home : option nat) (name : pystr) : heap :=
  match home with
  | None => H
  | Some j => match nth_error (specs H) j with
              | Some n => let co := as_strs (attr_or_none n CHILD_ORDER) in
                          if negb (str_in name co) && negb (truthy (attr_or_none n PROXY))
                          then with_spec H j (dset CHILD_ORDER (VStrs (merged co [name])) n) else H
              | None => H
              end
  end.

(** stage.py 544-576 add_node_to_comp_layer for a spec node; the new comp node
    has no attributes of its own (nxt_node.py 172-180). *)
Definition add_comp (H : heap) (p : pystr) (sp : node) : heap :=
  let H1 := {| specs := specs H ++ [sp];
               comps := comps H ++ [(p, {| own := []; cbases := [Sp (length (specs H))] |})];
               dirty := dirty H |} in
  let pp := str_of (attr_or_none sp PARENT_PATH) in
  let name := str_of (attr_or_none sp NAME) in
  if here H1 pp && negb (str_in name (order_of H1 pp))
  then set_order H1 pp (merged (order_of H1 pp) [name])
  else H1.

(** A proxy map: the parent and the instance source to be added as bases
    (stage.py 3190-3194). *)
Definition proxy_map := dict (option pystr * option pystr).
Definition found (H : heap) (p : pystr) : option pystr := if here H p then Some p else None.
(** stage.py 2867-2877: the nearest ancestor that exists, as at 3117-3128. *)
Definition new_parent (H : heap) (p : pystr) : option pystr :=
  let pp := parent_of H p in
  if is_empty pp then None else found H (nearest (S (length pp)) H pp).
(** stage.py 2878-2883. *)
Definition new_source (H : heap) (p : pystr) : option pystr :=
  match inst_of H p with
  | None => None
  | Some i => match expand_relative_node_path i p with
              | None => None
              | Some real => if str_eqb real WORLD then None else found H real
              end
  end.

Section Add.
Variables (top_real : pyval) (one_object : bool).

(** stage.py 2886-2904: a proxy of the new node below every node that depends
    on its parent. *)
Definition proxy_below (p name : pystr) (acc : heap * proxy_map) (d : pystr) : heap * proxy_map :=
  let '(H, m) := acc in
  if str_eqb d p then acc
  else let tgt := join_node_paths d name in
       if here H tgt then acc
       else let '(H, implied) := create_instance top_real one_object H p tgt in
            (H, if implied then m else dset tgt (found H d, Some p) m).
(** stage.py 2905-2913: nodes that named the path before it existed. *)
Definition point_here (H : heap) (p : pystr) (m : proxy_map) (d : pystr) : proxy_map :=
  if str_eqb d p || negb (here H d) then m
  else dset d (match dget d m with Some (q, _) => q | None => None end, Some p) m.

(** stage.py 2920-2947: one dependant of one descendant of the instance source.
    [skip] are the dependants of the new node. *)
Definition mirror_one (skip : list pystr) (des : pystr) (acc : heap * proxy_map * list pystr) (tgt : pystr)
  : heap * proxy_map * list pystr :=
  let '(H, m, current) := acc in
  if negb (here H tgt) && existsb (fun d => is_ancestor tgt d) skip then acc
  else
    let H := if here H tgt then set_attr H tgt INSTANCE_PATH (VStr des)
             else fst (create_instance top_real one_object H des tgt) in
    (H, dset tgt (found H (get_parent_path tgt), found H des) m, current ++ [tgt]).
Definition mirror_all (skip : list pystr) (acc : heap * proxy_map * list pystr) (des : pystr) :=
  fold_left (mirror_one skip des) (dirties (fst (fst acc)) des) acc.

(** stage.py 2960-2981: one row of the list of proxies to make. *)
Definition make_one (acc : heap * proxy_map * list pystr * list pystr * bool) (row : list pystr * pystr * pystr)
  : heap * proxy_map * list pystr * list pystr * bool :=
  let '(H, m, new, implied, more) := acc in
  let '(_, src, tgt) := row in
  if here H tgt then (H, m, new, implied ++ [tgt], more)
  else let '(H, i) := create_instance top_real one_object H src tgt in
       if i then (H, m, new, implied ++ [tgt], true)
       else (H, dset tgt (found H (get_parent_path tgt), found H src) m, new ++ [tgt], implied, true).
(** stage.py 2948-2982: the while loop, which goes on while nodes are made;
    [None] = out of fuel. *)
Fixpoint make_loop (fuel : nat) (H : heap) (m : proxy_map) (current implied : list pystr) : option (heap * proxy_map * list pystr) :=
  match fuel with
  | O => None
  | S f =>
      let '(H, to_do) := discover_all one_object H current in
      let '(H, m, new, implied, more) := fold_left make_one to_do (H, m, [], implied, false) in
      if more then make_loop f H m (current ++ new) implied else Some (H, m, implied)
  end.
(** stage.py 2983-2988. *)
Fixpoint drop_made (H : heap) (l : list pystr) : res heap :=
  match l with
  | [] => Ok H
  | p :: rest => if here H p then drop_made (with_comps H (ddel p (comps H))) rest else Raise AttributeError
  end.

(** stage.py 2853-2988 targeted_comp_proxies. *)
Definition targeted_proxies (fuel : nat) (H : heap) (p : pystr) : option (res (heap * proxy_map)) :=
  let below := dirties H (parent_of H p) in
  let targets := dirties H p in
  let src := new_source H p in
  let m := [(p, (new_parent H p, src))] in
  let '(H, m) := fold_left (proxy_below p (name_of H p)) below (H, m) in
  let m := fold_left (point_here H p) targets m in
  match src with
  | None => Some (Ok (H, m))
  | Some s =>
      match fst (descendants same_string same_string fuel (view H) s RPath true false) with
      | AList des =>
          let '(H, m, current) := fold_left (mirror_all (dirties H p)) des (H, m, [p]) in
          match make_loop fuel H m current [] with
          | None => None
          | Some (H, m, implied) => Some (bind (drop_made H implied) (fun H => Ok (H, m)))
          end
      | _ => None
      end
  end.

(** stage.py 3209-3226 for one node of the map and one arc. *)
Definition post_arc (inst : bool) (acc : heap * list pystr) (row : pystr * (option pystr * option pystr)) : res (heap * list pystr) :=
  let '(H, ds) := acc in
  let '(d, (par, src)) := row in
  let path := join_node_paths (parent_of H d) (name_of H d) in
  let ds := if str_in path ds then ds else ds ++ [path] in
  match (if inst then src else par) with
  | None => Ok (H, ds)
  | Some base =>
      let H := if inst then fold_left (inherit base d) INSTANCE_ATTRS H else H in
      bind (safe_add H d base) (fun H => Ok (H, ds ++ dirties H path))
  end.

(** stage.py 50-58. *)
Definition arc_attrs (a : option arc) : list pystr :=
  match a with
  | Some Reference => [START_POINT; ENABLED; EXECUTE_IN; INSTANCE_PATH; COMMENT; COMPUTE]
  | Some Instance => INSTANCE_ATTRS
  | _ => []
  end.
Definition has_arc (arcs : list arc) (a : option arc) : bool :=
  match a with Some a => existsb (arc_eqb a) arcs | None => false end.
(** stage.py 3340-3355: one attribute of one base. *)
Definition update_attr (p : pystr) (b : ref) (active : bool) (acc : heap * list pystr) (a : pystr) : heap * list pystr :=
  let '(H, handled) := acc in
  if str_in a handled then acc
  else let v := ref_attr H b a in
       if has_opinion v then (if active then set_attr H p a v else H, handled ++ [a])
       else (if active then set_attr H p a (default_of a) else H, handled).
(** stage.py 3331-3355: the bases. *)
Definition update_base (p : pystr) (arcs : list arc) (acc : heap * list pystr * list (option arc)) (b : ref)
  : heap * list pystr * list (option arc) :=
  let '(H, handled, seen) := acc in
  let arc := get_arc H p b in
  let '(H, handled) := fold_left (update_attr p b (has_arc arcs arc)) (arc_attrs arc) (H, handled) in
  (H, handled, seen ++ [arc]).
(** stage.py 3323-3363 update_inherited_attrs. *)
Definition update_inherited (arcs : list arc) (H : heap) (p : pystr) : heap :=
  let handled := if truthy (attr H p PROXY) then [INSTANCE_PATH] else [] in
  let '(H, handled, seen) := fold_left (update_base p arcs) (bases_in (comps H) (Co p)) (H, handled, []) in
  fold_left (fun H a => if str_in a handled then H else set_attr H p a (default_of a))
    (flat_map (fun x => if existsb (fun y => match y with Some y => arc_eqb x y | None => false end) seen then [] else arc_attrs (Some x)) arcs) H.

(** stage.py 3186-3231 targeted_comp_post_proxies. *)
Definition targeted_post (H : heap) (m : proxy_map) : res (heap * list pystr) :=
  bind (fold_res (post_arc false) m (H, [])) (fun acc =>
  bind (fold_res (post_arc true) m acc) (fun acc =>
  Ok (fold_left (update_inherited [Parent; Instance]) (dkeys m) (fst acc), snd acc))).

(** stage.py 638-700 for a leaf, from the node's spec node [sp] on: the stage and
    the dirty nodes (with repeats: line 710 makes a set of them).  [None]: out of
    fuel, or there is a node at the path. *)
Definition add_node (fuel : nat) (H : heap) (home : option nat) (sp : node) : option (res (heap * list pystr)) :=
  let name := str_of (attr_or_none sp NAME) in
  let p := join_node_paths (str_of (attr_or_none sp PARENT_PATH)) name in
  let H := name_in_layer H home name in
  if here H p then None
  else match targeted_proxies fuel (add_comp H p sp) p with
       | None => None
       | Some r => Some (bind r (fun hm => targeted_post (fst hm) (snd hm)))
       end.
End Add.
