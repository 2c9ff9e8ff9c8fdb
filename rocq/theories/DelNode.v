(** Model of deleting a node from a composed stage: Stage.delete_node with a comp
    layer and what it calls (nxt/stage.py 790-985, 987-995, 1039-1082), for one node that
    has no descendants in its layer, is in no other layer and on which no node
    depends.  DelOver.v has the branch for a node of several layers, 895-909.  The
    other branches (883-887 and 935-947 for a node that is also a child of an
    instance, 996-1038 and 1083-1099 for dependants) are not modelled, nor are child caches, positions
    and collapse data (C28 has those of the layer). *)

From Coq Require Import String List NArith ZArith Bool Arith.
From Verif Require Import PyStr NxtPath Dict ListMerger SortRows Layer PyVal NodeIO PyClass NodeEdit Comp Live Arcs AddNode.
Import ListNotations.

(** stage.py 835-841: the name leaves the child order of the parent's spec node
    of the same layer, number [home]. *)
Definition name_out_of_layer (H : heap) (home : option nat) (name : pystr) : heap :=
  match home with
  | None => H
  | Some j => match nth_error (specs H) j with
              | Some n => let co := as_strs (attr_or_none n CHILD_ORDER) in
                          if str_in name co then with_spec H j (dset CHILD_ORDER (VStrs (try_remove name co)) n) else H
              | None => H
              end
  end.

(** stage.py 958-985 remove_node_from_comp_layer.  Line 980 removes the name from
    the list getattr finds, in place; here the parent's comp node gets a list of
    its own. *)
Definition remove_comp (H : heap) (p : pystr) (pop : bool) : heap :=
  let name := name_of H p in
  let pp := parent_of H p in
  let H := with_comps H (ddel p (comps H)) in
  if pop && here H pp && str_in name (order_of H pp) then set_order H pp (try_remove name (order_of H pp)) else H.

(** stage.py 865-870: the layers of the bases before the first comp node, without
    the layer with the real path [real].  Layers are told apart by real path. *)
Fixpoint other_specs (H : heap) (real : pystr) (bases : list ref) : list ref :=
  match bases with
  | Sp i :: rest => (if str_eqb (str_of (ref_attr H (Sp i) SOURCE_LAYER)) real then [] else [Sp i]) ++ other_specs H real rest
  | _ => []
  end.
(** name in children(path, NameDict) of the layer the node was in. *)
Definition layer_has_kid (L : layer) (path name : pystr) : bool :=
  match fst (children same_string same_string L path RDict false false) with
  | ADict d => dmem name d
  | _ => false
  end.

Section Delete.
Variables (top_real : pyval) (one_object : bool).

(** stage.py 1064-1080: the proxies below a deleted instance. *)
Definition below_instance (fuel : nat) (H : heap) (p : pystr) : option (heap * list pystr) :=
  match fst (descendants same_string same_string fuel (view H) p RPath false false) with
  | AList des =>
      let gone := flat_map (fun q => if truthy (attr H q PROXY) then q :: dirties H q else []) des in
      Some (fold_left (fun H q => if here H q then remove_comp H q true else H) gone H, gone)
  | _ => None
  end.
(** stage.py 987-995 and 1039-1082 ripple_delete without dependants; [L] is the
    layer the node was in.  The answer has the dirty nodes. *)
Definition ripple_delete (fuel : nat) (H : heap) (L : layer) (p : pystr) : option (heap * list pystr) :=
  let name := name_of H p in
  let src := match inst_of H p with Some s => s | None => [] end in
  let pop := if is_empty src then true
             else has_kid_named H (Some (get_parent_path src)) name &&
                  (truthy (attr H p PROXY) || layer_has_kid L (get_parent_path p) name) in
  let H := remove_comp H p pop in
  if is_empty src then Some (H, [])
  else match fst (descendants same_string same_string fuel (view H) (get_root_path src) RPath false true) with
       | AList [] => Some (H, [])
       | AList des => if str_in p des then Some (fst (create_instance top_real one_object H src p), [])
                      else below_instance fuel H p
       | _ => None
       end.

(** stage.py 854-955 for the path [p], after the layer's part.  Lines 924-932
    never take anything out of the dirty map: [not node] and a proxy flag of the
    node exclude each other.  [None]: out of fuel, or a case that is not
    modelled. *)
Definition delete_comp (fuel : nat) (H : heap) (real : pystr) (L : layer) (p : pystr) : option (res (heap * list pystr)) :=
  if negb (here H p) then Some (Raise AttributeError)
  else
    let kept := negb (truthy (attr H p PROXY)) && has_kid_named H (inst_of H (get_parent_path p)) (name_of H p) in
    match dirties H p, other_specs H real (bases_in (comps H) (Co p)), kept with
    | [], [], false =>
        match ripple_delete fuel H L p with
        | None => None
        | Some (H, ds) => Some (Ok (if here H p then update_inherited [Reference; Parent; Instance] H p else H, ds))
        end
    | _, _, _ => None
    end.

(** stage.py 790-955 for a node of one layer, given by its path; [home] is the
    spec node of its parent in that layer, [L] the layer afterwards. *)
Definition delete_node (fuel : nat) (H : heap) (home : option nat) (real : pystr) (L : layer) (p : pystr) : option (res (heap * list pystr)) :=
  delete_comp fuel (name_out_of_layer H home (name_of H p)) real L p.
End Delete.
