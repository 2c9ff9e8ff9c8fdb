(** Model of the dirty map: CompLayer.get_node_dirties (nxt_layer.py 956-973),
    Stage.extend_dirty_map and Stage.remove_from_dirty_map
    (stage.py 3490-3517). *)

From Coq Require Import String List NArith Bool.
From Verif Require Import PyStr Dict ListMerger.
Import ListNotations.

Definition WORLD : pystr := lit "/".

(** nxt_layer.py 966-970: the items found from [new] that are not yet in
    [concerns + tmp]. *)
Definition dirty_round (m : dict (list pystr)) (concerns new : list pystr)
  : list pystr :=
  fold_left (fun tmp concern =>
    fold_left (fun tmp item =>
      if str_in item (concerns ++ tmp) then tmp else tmp ++ [item])
      (dget_def concern [] m) tmp) new [].

(** nxt_layer.py 964-972: the while loop; [None] = out of fuel. *)
Fixpoint dirty_loop (fuel : nat) (m : dict (list pystr))
         (concerns new : list pystr) : option (list pystr) :=
  match new with
  | [] => Some concerns
  | _ =>
      match fuel with
      | O => None
      | S f => let tmp := dirty_round m concerns new in
               dirty_loop f m (concerns ++ tmp) tmp
      end
  end.

(** nxt_layer.py 956-973 get_node_dirties. *)
Definition get_node_dirties (fuel : nat) (m : dict (list pystr)) (p : pystr)
  : option (list pystr) :=
  let concerns := dget_def p [] m in
  dirty_loop fuel m concerns (p :: concerns).

(** stage.py 3490-3506 extend_dirty_map.  [is_world s] models the identity test
    [s is nxt_path.WORLD] and [same] the identity test [concern is node_path];
    CPython may answer either way for equal strings, so theorems quantify over
    both and only assume that identical strings are equal. *)
Definition extend_dirty_map (is_world : pystr -> bool) (same : bool)
           (node_path concern : pystr) (m : dict (list pystr))
  : dict (list pystr) :=
  if is_world node_path || is_world concern then m
  else
    let node_concerns := dget_def node_path [] m in
    let m := match node_concerns with
             | [] => dset node_path node_concerns m
             | _ => m
             end in
    if negb same && negb (str_in concern node_concerns)
    then dset node_path (node_concerns ++ [concern]) m
    else m.

(** stage.py 3508-3517 remove_from_dirty_map. *)
Definition remove_from_dirty_map (is_world : pystr -> bool)
           (node_path : pystr) (m : dict (list pystr)) : dict (list pystr) :=
  if is_world node_path then m
  else
    let m := if str_in node_path (dkeys m) then ddel node_path m else m in
    map (fun kv => (fst kv,
           match py_remove node_path (snd kv) with
           | Some l => l
           | None => snd kv
           end)) m.
