(** Model of Stage.add_node_hierarchy and Stage.duplicate_node (nxt/stage.py
    512-542 and 720-788) on one spec layer, without a comp layer. *)

From Coq Require Import String List NArith Bool Arith.
From Verif Require Import PyStr NxtPath Dict Layer PyVal Names SpecOps.
Import ListNotations.

Section Dup.
Variables uni_digit uni_word : N -> bool.
Variable extra : slayer -> list pystr.
(** What create_spec_node keeps of the attributes and the other data that
    get_node_as_dict returns (nxt_node.py 101-162, 239-284; C22 and C23 say what
    is lost on the way), and the data of a node made from nothing. *)
Variable kept_attrs : dict pyval -> dict pyval.
Variable kept_rest : pyval -> pyval.
Variable bare : pyval.

(** *** add_node_hierarchy *)

(** stage.py 519-541: [done] are the names seen so far, [parent] the path of
    the parent. *)
Fixpoint add_missing (names done : list pystr) (parent : pystr) (L : slayer)
         (made : list (pystr * nat)) (ds : list pystr) : slayer * outcome (list (pystr * nat) * list pystr) :=
  match names with
  | [] => (L, Done (made, ds))
  | x :: rest =>
      let path := node_namespace_to_str_path (done ++ [x]) in
      match lookup L path with
      | Some j => add_missing rest (done ++ [x]) (spelled_path L j) L made (ds ++ [path])
      | None =>
          match add_node uni_digit uni_word extra (Tree [] [] bare []) (Some x) parent false L with
          | (L', Done (i :: _, d)) => add_missing rest (done ++ [x]) (spelled_path L' i) L' (made ++ [(path, i)]) (ds ++ d)
          | (L', Done ([], _)) => (L', Failed IndexError)
          | (L', Failed e) => (L', Failed e)
          | (L', Endless) => (L', Endless)
          end
      end
  end.

(** stage.py 512-542 with parent=None. *)
Definition add_node_hierarchy (L : slayer) (names : list pystr) : slayer * outcome (list (pystr * nat) * list pystr) :=
  match add_missing names [] WORLD L [] [] with
  | (L', Done r) => (refresh L', Done r)
  | (L', r) => (L', r)
  end.

(** *** duplicate_node *)

(** The data of get_node_as_dict: no children (stage.py 757, 769). *)
Definition copy_of (n : snode) : tree :=
  Tree (s_order n) (kept_attrs (map (fun kv => (fst kv, fst (snd kv))) (s_attrs n))) (kept_rest (s_rest n)) [].

(** layer.children(layer.get_node_path(node)): the nodes; children of None
    are none (nxt_layer.py 277-285). *)
Definition kid_nodes (L : slayer) (ref : nat) : list nat :=
  match path_of L ref with
  | None => []
  | Some p => flat_map (fun c => match lookup L c with Some j => [j] | None => [] end) (kid_paths L p false)
  end.

(** stage.py 763-782 dupe_descendants; Python's recursion has no bound. *)
Fixpoint dupe_descendants (fuel : nat) (new ref : nat) (L : slayer)
  : slayer * outcome (list nat * list pystr) :=
  match fuel with
  | O => (L, Endless)
  | S fuel =>
      (fix each (kids : list nat) (L : slayer) (created : list nat) (dirty : list pystr)
         : slayer * outcome (list nat * list pystr) :=
         match kids with
         | [] => (L, Done (created, dirty))
         | c :: rest =>
             match obj L c with
             | None => (L, Failed AttributeError) (* unreachable: c is a node *)
             | Some n =>
                 match add_node uni_digit uni_word extra (copy_of n) (Some (s_name n)) (spelled_path L new) true L with
                 | (L1, Done (made, d1)) =>
                     match dupe_descendants fuel (last made 0) c L1 with
                     | (L2, Done (made2, d2)) => each rest L2 (created ++ made ++ made2) (dirty ++ d1 ++ d2)
                     | (L2, r) => (L2, r)
                     end
                 | (L1, r) => (L1, r)
                 end
             end
         end) (kid_nodes L ref) L [] []
  end.

(** stage.py 720-788: [ref] is the node object, [n] its data (a node of another
    layer is not known to [L]).  A parent path that is "/" is taken to be the
    constant WORLD. *)
Definition duplicate_node (L : slayer) (ref : nat) (n : snode) (descendants : bool)
  : slayer * outcome (list nat * list pystr) :=
  let world := str_eqb (s_parent n) [] in
  let descendants := if world then false else descendants in
  let parent_path := if world then WORLD else s_parent n in
  let '(L1, found) :=
    if str_eqb parent_path WORLD then (L, Done (WORLD, [], []))
    else match lookup L parent_path with
         | Some j => (L, Done (spelled_path L j, [], []))
         | None =>
             match add_node_hierarchy L (str_path_to_node_namespace parent_path) with
             | (L', Done (made, ds)) =>
                 match rev made with
                 | (_, j) :: _ => (L', Done (spelled_path L' j, map snd made, ds))
                 | [] => (L', Failed IndexError)
                 end
             | (L', Failed e) => (L', Failed e)
             | (L', Endless) => (L', Endless)
             end
         end in
  match found with
  | Failed e => (L1, Failed e)
  | Endless => (L1, Endless)
  | Done (parent, made0, ds0) =>
      match add_node uni_digit uni_word extra (copy_of n) (Some (s_name n)) parent true L1 with
      | (L2, Done (made, d)) =>
          if descendants then
            match dupe_descendants (depth_fuel L2) (last made 0) ref L2 with
            | (L3, Done (made3, d3)) => (L3, Done (made0 ++ made ++ made3, ds0 ++ d ++ d3))
            | (L3, r) => (L3, r)
            end
          else (L2, Done (made0 ++ made, ds0 ++ d))
      | (L2, r) => (L2, r)
      end
  end.
End Dup.
