(** Model of setting a node's instance path on a composed stage:
    Stage.set_node_instance_path with a comp layer and what it calls
    (nxt/stage.py 1490-1548, 3235-3289).  The deletion of the proxies that the old
    source brought (3271-3286) is not modelled: the model answers only when there
    are none.  Child caches and logging are left out. *)

From Coq Require Import String List NArith ZArith Bool Arith.
From Verif Require Import PyStr NxtPath Dict ListMerger SortRows Layer PyVal NodeIO PyClass NodeEdit Comp Live Arcs AddNode.
From Verif Require Opinions.
Import ListNotations.

(** list.remove. *)
Fixpoint take_out (r : ref) (l : list ref) : res (list ref) :=
  match l with
  | [] => Raise ValueError
  | x :: t => if ref_eqb x r then Ok t else bind (take_out r t) (fun t => Ok (x :: t))
  end.

(** The string of an instance path, empty for None. *)
Definition path_str (v : pyval) : pystr := match v with VStr s => s | _ => [] end.

(** stage.py 3253-3268: the bases of the comp node without its instance source.
    [_replace_base_classes] (3371-3381) assigns them. *)
Definition drop_source (H : heap) (p : pystr) : res heap :=
  let src := path_str (attr H p INSTANCE_PATH) in
  let pp := get_parent_path p in
  bind (if here H src then take_out (Co src) (bases_in (comps H) (Co p)) else Ok (bases_in (comps H) (Co p))) (fun cur =>
  set_bases H p (if here H pp && negb (isin ref_eqb (Co pp) cur) then cur ++ [Co pp] else cur)).

(** The descendants of a path in the comp layer. *)
Definition below_paths (fuel : nat) (H : heap) (p : pystr) : option (list pystr) :=
  match fst (descendants same_string same_string fuel (view H) p RPath false false) with
  | AList l => Some l
  | _ => None
  end.

(** stage.py 3235-3289 targeted_uncomp for the instance arc; [None]: out of
    fuel, or there are nodes to delete. *)
Definition uncomp_instance (fuel : nat) (H : heap) (p : pystr) : option (res (heap * list pystr)) :=
  match below_paths fuel H (path_str (attr H p INSTANCE_PATH)), below_paths fuel H p with
  | Some des, Some own_des =>
      let ds := flat_map (dirties H) des in
      if existsb (fun d => str_in d own_des) ds then None
      else Some (bind (drop_source H p) (fun H => Ok (update_inherited [Instance] H p, ds)))
  | _, _ => None
  end.

(** stage.py 1522-1536: the path the comp node gets. *)
Definition expanded (H : heap) (p : pystr) (v : pyval) : res pyval :=
  if has_opinion v then
    Ok (match expand_relative_node_path (path_str v) p with Some s => VStr s | None => VNone end)
  else bind (Opinions.get_historical_opinions H p INSTANCE_PATH false) (fun l =>
       Ok (match List.find (fun e => has_opinion (snd e)) l with
           | Some (_, w) => match expand_relative_node_path (path_str w) p with Some s => VStr s | None => VNone end
           | None => VNone
           end)).

Section Set_.
Variables (top_real : pyval) (one_object : bool).

(** stage.py 1517-1536 and the setting of the comp node's attributes (1537-1540). *)
Definition change_comp (fuel : nat) (H : heap) (p : pystr) (real v : pyval) : option (res (heap * list pystr)) :=
  let old := attr H p INSTANCE_PATH in
  let ds := dirties H (path_str old) in
  match (if truthy old then uncomp_instance fuel H p else Some (Ok (H, []))) with
  | None => None
  | Some r => Some (bind r (fun hd =>
      let '(H, more) := hd in
      bind (expanded H p v) (fun e =>
      Ok (set_attr (set_attr H p INSTANCE_PATH e) p (INSTANCE_PATH ++ META_SOURCE) (VTuple [real; VStr p]), ds ++ more))))
  end.

(** stage.py 1541-1543. *)
Definition change_spec (H : heap) (i : nat) (p : pystr) (real v : pyval) : heap :=
  match nth_error (specs H) i with
  | None => H
  | Some n => with_spec H i (dset (INSTANCE_PATH ++ META_SOURCE) (VTuple [real; VStr p]) (dset INSTANCE_PATH v n))
  end.

(** stage.py 1490-1548 for the spec node number [i] of the layer with the real
    path [real]; [v] is None or a string. *)
Definition set_instance (fuel : nat) (H : heap) (i : nat) (real v : pyval) : option (res (heap * list pystr)) :=
  let p := path_of H (Sp i) in
  match Opinions.has_stronger_opinion H p INSTANCE_PATH real with
  | Raise e => Some (Raise e)
  | Ok true => Some (Ok (change_spec H i p real v, []))
  | Ok false =>
      match change_comp fuel H p real v with
      | None => None
      | Some (Raise e) => Some (Raise e)
      | Some (Ok (H, ds)) =>
          match targeted_proxies top_real one_object fuel (change_spec H i p real v) p with
          | None => None
          | Some r => Some (bind r (fun hm => bind (targeted_post (fst hm) (snd hm)) (fun hd => Ok (fst hd, ds ++ snd hd))))
          end
      end
  end.
End Set_.
