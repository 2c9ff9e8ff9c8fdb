(** Model of the lists of code lines and of setting the code of a node in a
    composed stage (Stage.set_node_code_lines, nxt/stage.py 2385-2434).

    Setting code changes list objects in place, and composition hands the same
    list object to many nodes.  So the model names the objects: every spec
    node, of a layer or made for a proxy, has one list of code lines, and the
    list of the spec node number [i] is called [i].  Its lines are the value of
    the attribute in the spec node.  A composed node never has a list of its
    own: its attribute is the list of one of the spec nodes. *)

From Coq Require Import String List NArith ZArith Bool Arith.
From Verif Require Import PyStr NxtPath Dict Layer PyVal NodeIO PyClass Live Arcs Comp.
Import ListNotations.

(** Which list the attribute of a composed node has been set to, by path. *)
Definition codes := dict nat.

(** The spec nodes among the bases of a composed node. *)
Definition layer_bases (H : heap) (p : pystr) : list nat :=
  flat_map (fun r => match r with Sp i => [i] | Co _ => [] end) (bases_in (comps H) (Co p)).
(** The lines of the list [i]. *)
Definition list_at (H : heap) (i : nat) : pyval :=
  match nth_error (specs H) i with Some n => attr_or_none n COMPUTE | None => VNone end.
(** getattr(comp_node, INTERNAL_ATTRS.COMPUTE) as an object: what was set, or
    the list of the first base. *)
Definition shown (H : heap) (K : codes) (p : pystr) : option nat :=
  match dget p K with Some i => Some i | None => hd_error (layer_bases H p) end.
Definition lines_of (H : heap) (o : option nat) : pyval :=
  match o with Some i => list_at H i | None => VNone end.

(** *** The objects composition hands out *)

(** stage.py 2729-2750 for the attribute compute: going from the weakest base
    to the strongest, every list with lines is set in turn, so that the last
    one set is the strongest. *)
Definition spoken (H : heap) (p : pystr) : option nat :=
  find (fun i => has_opinion (list_at H i)) (layer_bases H p).
Definition pre_codes (H : heap) : codes :=
  flat_map (fun p => match spoken H p with Some i => [(p, i)] | None => [] end) (dkeys (comps H)).
(** stage.py 3114-3171 for the INSTANCE arc and the attribute compute: a node
    without lines is handed the list of its source. *)
Definition share (H : heap) (K : codes) (p : pystr) : codes :=
  match inst_of H p with
  | None => K
  | Some base =>
      if str_eqb base WORLD || negb (here H base) then K
      else if has_opinion (lines_of H (shown H K p)) then K
      else match shown H K base with Some i => dset p i K | None => K end
  end.
(** stage.py 3103-3113: in the order of the instance chains. *)
Definition stage_codes (H : heap) : codes :=
  fold_left (share H) (sort_instances H) (pre_codes H).

(** The attribute of every composed node as the lines of its list.  A node
    that has no value of its own reads the same through its first base. *)
Definition sync (H : heap) (K : codes) : heap :=
  with_comps H (map (fun kc => (fst kc, {| own := dset COMPUTE (lines_of H (shown H K (fst kc))) (own (snd kc)); cbases := cbases (snd kc) |})) (comps H)).

(** *** Setting code *)

(** getattr(base, INTERNAL_ATTRS.COMPUTE) as an object. *)
Definition object_of (H : heap) (K : codes) (r : ref) : option nat :=
  match r with Sp i => Some i | Co q => shown H K q end.
(** A non-empty list is true. *)
Definition has_lines (H : heap) (o : option nat) : bool := truthy (lines_of H o).
(** a is b *)
Definition same_list (a b : option nat) : bool :=
  match a, b with Some i, Some j => i =? j | None, None => true | _, _ => false end.
(** setattr(comp_node, INTERNAL_ATTRS.COMPUTE, list) *)
Definition give (p : pystr) (o : option nat) (K : codes) : codes :=
  match o with Some i => dset p i K | None => K end.
Definition none_of {A} (l : list A) : bool := match l with [] => true | _ => false end.

(** stage.py 1562-1582 safe_get_node_instance and 2391-2392: the list of the
    node's source, if there is one.  An instance path that is no string is
    taken for none. *)
Definition source_list (H : heap) (K : codes) (p : pystr) : option nat :=
  match inst_of H p with
  | None => None
  | Some [] => None
  | Some i => match expand_relative_node_path i p with
              | None => None
              | Some real => if here H real then shown H K real else None
              end
  end.
(** stage.py 2410-2427: the loop over the nodes that depend on the edited one. *)
Fixpoint hand_on (H : heap) (K : codes) (live : option nat) (ds : list pystr) : codes :=
  match ds with
  | [] => K
  | d :: ds =>
      if negb (here H d) then K
      else if existsb (fun r => has_lines H (object_of H K r)) (references (bases_arcs H d)) then K
      else if same_list live (shown H K d) && has_lines H (shown H K d) then K
      else hand_on H (give d live K) live ds
  end.
(** stage.py 2385-2434 set_node_code_lines for the spec node number [i];
    [None] = no such node, or its code is no list.  The answer is the stage,
    its objects, and the lines or the exception. *)
Definition set_node_code_lines (H : heap) (K : codes) (i : nat) (lines : list pyval)
  : option (heap * codes * res (list pyval)) :=
  match nth_error (specs H) i with
  | None => None
  | Some n =>
      match attr_or_none n COMPUTE with
      | VList _ =>
          let p := path_of H (Sp i) in
          let H1 := with_spec H i (dset COMPUTE (VList lines) n) in
          if negb (here H p)
          then Some (sync H1 K, K, Raise AttributeError)
          else
            let inst := if none_of lines then source_list H K p else None in
            let weaker := find (fun r => has_lines H1 (object_of H1 K r)) (references (bases_arcs H1 p)) in
            let new := match inst with
                       | Some _ => inst
                       | None => match (if none_of lines then weaker else None) with
                                 | Some r => object_of H1 K r
                                 | None => Some i
                                 end
                       end in
            let '(K1, live) := if negb (same_list (shown H1 K p) (Some i)) || none_of lines
                               then (give p new K, new) else (K, shown H1 K p) in
            let K2 := hand_on H1 K1 live (dirties H p) in
            Some (sync H1 K2, K2, Ok lines)
      | _ => None
      end
  end.
(** stage.py 2362-2383 get_node_code_lines without resolving. *)
Definition get_node_code_lines (H : heap) (K : codes) (p : pystr) : pyval := lines_of H (shown H K p).
