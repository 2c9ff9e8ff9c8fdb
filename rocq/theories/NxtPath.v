(** Model of the NODE SECTION of nxt/nxt_path.py (lines 102-389).

    Simplification, common to the file: [x is WORLD] / [x is ATTR_SEP] with a
    one-character right-hand side is modelled as string equality.  CPython
    interns every one-character Latin-1 string, so identity and equality
    coincide for these operands; this is part of the trusted base. *)

From Coq Require Import String List NArith Bool ZArith.
From Verif Require Import PyStr.
Import ListNotations.

(** nxt_path.py 103: NODE_SEP = '/'. *)
Definition NODE_SEP_C : N := 47%N.
Definition NODE_SEP : pystr := [NODE_SEP_C].
(** nxt_path.py 104: ATTR_SEP = '.'. *)
Definition ATTR_SEP_C : N := 46%N.
Definition ATTR_SEP : pystr := [ATTR_SEP_C].
(** nxt_path.py 105: WORLD = NODE_SEP. *)
Definition WORLD : pystr := NODE_SEP.
(** The '..' of nxt_path.py 129. *)
Definition DOTDOT : pystr := [46%N; 46%N].
(** The '.' of nxt_path.py 132. *)
Definition DOT : pystr := [46%N].

Definition is_empty (s : pystr) : bool :=
  match s with [] => true | _ => false end.

(** nxt_path.py 128-138: the loop over the directives. *)
Fixpoint expand_loop (current : pystr) (dirs : list pystr) : pystr :=
  match dirs with
  | [] => current
  | d :: rest =>
      if str_eqb d DOTDOT then
        let '(b, _, _) := rpartition NODE_SEP current in expand_loop b rest
      else if str_eqb d DOT then expand_loop current rest
      else if is_empty d then expand_loop current rest
      else expand_loop ((current ++ NODE_SEP) ++ d) rest
  end.

(** nxt_path.py 108-139 expand_relative_node_path; [None] is Python None. *)
Definition expand_relative_node_path (rel_path start : pystr) : option pystr :=
  if is_empty rel_path then None
  else if str_eqb rel_path WORLD then Some rel_path
  else if startswith NODE_SEP rel_path then Some rel_path
  else Some (expand_loop start (split NODE_SEP_C rel_path)).

(** nxt_path.py 252-260 is_attr_path. *)
Definition is_attr_path (path : pystr) : bool := contains ATTR_SEP path.

(** nxt_path.py 142-164 path_attr_partition. *)
Definition path_attr_partition (str_path : pystr) : pystr * option pystr :=
  if negb (is_attr_path str_path) then (str_path, None)
  else if (match last_char str_path with
           | Some c => N.eqb c ATTR_SEP_C
           | None => false            (* unreachable: contains '.' *)
           end)
  then (str_path, None)
  else let '(node_path, _, attr_name) := rpartition ATTR_SEP str_path in
       (node_path, Some attr_name).

(** nxt_path.py 167-176 str_path_to_node_namespace. *)
Definition str_path_to_node_namespace (str_path : pystr) : list pystr :=
  let '(node_path, _) := path_attr_partition str_path in
  if startswith NODE_SEP node_path
  then skipn 1 (split NODE_SEP_C node_path)
  else split NODE_SEP_C node_path.

(** nxt_path.py 179-182 node_namespace_to_str_path. *)
Definition node_namespace_to_str_path (ns : list pystr) : pystr :=
  NODE_SEP ++ join NODE_SEP ns.

(** nxt_path.py 185-194. *)
Definition node_path_from_attr_path (attr_path : pystr) : pystr :=
  fst (path_attr_partition attr_path).

(** nxt_path.py 197-206. *)
Definition attr_name_from_attr_path (attr_path : pystr) : option pystr :=
  snd (path_attr_partition attr_path).

(** nxt_path.py 209-220. *)
Definition node_name_from_node_path (node_path : pystr) : pystr :=
  if str_eqb node_path WORLD then WORLD
  else let '(_, _, n) := rpartition NODE_SEP node_path in n.

(** nxt_path.py 223-236. *)
Definition get_parent_path (node_path : pystr) : pystr :=
  if str_eqb node_path WORLD then []
  else let '(p, _, _) := rpartition NODE_SEP node_path in
       if is_empty p then NODE_SEP else p.

(** nxt_path.py 239-249. *)
Definition get_root_path (node_path : pystr) : pystr :=
  let '(r, _, _) := partition NODE_SEP (skipn 1 node_path) in NODE_SEP ++ r.

(** nxt_path.py 263-273. *)
Definition make_attr_path (node_path attr_name : pystr) : pystr :=
  (node_path ++ ATTR_SEP) ++ attr_name.

(** nxt_path.py 276-291, second argument already a tuple/list of strings
    (lines 287-288 wrap a plain string in a tuple). *)
Definition join_node_paths_l (node_path1 : pystr) (rest : list pystr) : pystr :=
  replace (NODE_SEP ++ NODE_SEP) NODE_SEP (join NODE_SEP (node_path1 :: rest)).
(** nxt_path.py 276-291 with a string as second argument. *)
Definition join_node_paths (node_path1 node_path2 : pystr) : pystr :=
  join_node_paths_l node_path1 [node_path2].

(** nxt_path.py 351-353. *)
Definition add_path_terminator (path : pystr) : pystr := path ++ NODE_SEP.

(** nxt_path.py 294-315. *)
Definition replace_ancestor (path old_ancestor new_ancestor : pystr) : pystr :=
  let path := add_path_terminator path in
  let old_ancestor := add_path_terminator old_ancestor in
  let new_ancestor := add_path_terminator new_ancestor in
  let new_path :=
    if str_eqb old_ancestor WORLD then new_ancestor ++ path
    else replace_once old_ancestor new_ancestor path in
  replace (NODE_SEP ++ NODE_SEP) NODE_SEP (drop_last new_path).

(** nxt_path.py 318-330. *)
Definition is_ancestor (path_to_check ancestor_path : pystr) : bool :=
  if str_eqb ancestor_path WORLD then true
  else startswith (ancestor_path ++ NODE_SEP) path_to_check.

(** nxt_path.py 345-347: [None] = the loop did not end within the fuel. *)
Fixpoint ancestors_loop (fuel : nat) (parent_path : pystr)
  : option (list pystr) :=
  match fuel with
  | O => None
  | S f =>
      if str_eqb parent_path WORLD then Some []
      else option_map (cons parent_path)
                      (ancestors_loop f (get_parent_path parent_path))
  end.

(** nxt_path.py 333-348, with explicit fuel for the while loop. *)
Definition all_ancestor_paths_fuel (fuel : nat) (path : pystr)
  : option (list pystr) :=
  if str_eqb path WORLD then Some []
  else ancestors_loop fuel (get_parent_path path).
(** The fuel used by other parts of the model; [C04] shows it never runs out. *)
Definition all_ancestor_paths (path : pystr) : list pystr :=
  match all_ancestor_paths_fuel (length path + 2) path with
  | Some l => l
  | None => []
  end.

(** nxt_path.py 356-367. *)
Definition get_path_depth (path : pystr) : nat :=
  if str_eqb path WORLD then 0 else count_char NODE_SEP_C path.

(** nxt_path.py 370-389; the depth is a Python int. *)
Definition trim_to_depth (path : pystr) (trim_depth : Z) : pystr :=
  if Z.eqb trim_depth 0 then WORLD
  else
    let given := Z.of_nat (get_path_depth path) in
    if Z.leb given trim_depth then path
    else
      match rsplit NODE_SEP_C (Z.to_nat (given - trim_depth)) path with
      | h :: _ => h
      | [] => []                     (* unreachable: rsplit is never empty *)
      end.
