(** Model of the file converter, nxt/legacy.py 23-570.

    File data is a dict of values; where the code changes a dict in place the
    model returns the changed dict.  Python's [int] is modelled for ASCII
    digits, an optional sign, surrounding blanks and single underscores. *)

From Coq Require Import String List NArith ZArith Bool.
From Verif Require Import PyStr Dict PyVal.
Import ListNotations.

(** *** Reading a version number *)

Definition DOT : N := 46.
Definition SLASHC : N := 47.
Definition is_blank (c : N) : bool := (N.eqb c 32) || (N.leb 9 c && N.leb c 13).
Fixpoint lstrip (s : pystr) : pystr :=
  match s with
  | c :: t => if is_blank c then lstrip t else s
  | [] => []
  end.
Definition strip (s : pystr) : pystr := rev (lstrip (rev (lstrip s))).
Definition digit (c : N) : option Z :=
  if N.leb 48 c && N.leb c 57 then Some (Z.of_N (c - 48)) else None.
(** [acc] is the value so far; [us] says an underscore was just read. *)
Fixpoint digits (s : pystr) (acc : Z) (us : bool) : option Z :=
  match s with
  | [] => if us then None else Some acc
  | c :: t =>
      match digit c with
      | Some d => digits t (acc * 10 + d) false
      | None => if N.eqb c 95 && negb us then digits t acc true else None
      end
  end.
Definition digits1 (s : pystr) : option Z :=
  match s with
  | c :: t => match digit c with Some d => digits t d false | None => None end
  | [] => None
  end.
(** [int(s)]; [None] is ValueError. *)
Definition py_int (s : pystr) : option Z :=
  match strip s with
  | c :: t => if N.eqb c 45 then option_map Z.opp (digits1 t)
              else if N.eqb c 43 then digits1 t
              else digits1 (c :: t)
  | [] => None
  end.

(** [major, minor = [int(n) for n in s.split('.')[0:2]]] (legacy.py 52-53,
    nxt_io.py 91-92). *)
Definition two_ints (s : pystr) : res (Z * Z) :=
  match split DOT s with
  | a :: b :: _ => match py_int a, py_int b with
                   | Some x, Some y => Ok (x, y)
                   | _, _ => Raise ValueError
                   end
  | _ => Raise ValueError
  end.

(** legacy.py 20 and 47-64.  [Pre] is PRE_RELEASE. *)
Inductive version := Pre | Minor (v : Z).
Definition determine_version (d : dict pyval) : res version :=
  match dget_def (lit "version") (VStr (lit "0.45.0")) d with
  | VStr s => bind (two_ints s) (fun '(major, minor) =>
      if Z.eqb major 0 then
        if Z.leb 39 minor then Ok Pre else Raise IOError
      else Ok (Minor minor))
  | _ => Raise AttributeError
  end.

(** *** Shared by the converters *)

(** The nodes of the file; [None] when there are none (the KeyError that
    arrange_node_data catches, legacy.py 165-168). *)
Definition nodes_of (d : dict pyval) : res (option (dict pyval)) :=
  match dget (lit "nodes") d with
  | None => Ok None
  | Some (VDict n) => Ok (Some n)
  | Some _ => Raise AttributeError
  end.

(** legacy.py 238-247 (same text at 387-396 and 477-486). *)
Definition add_terminator (p : pystr) : pystr :=
  if endswith [SLASHC] p then p else p ++ [SLASHC].
Definition is_ancestor (path ancestor : pystr) : bool :=
  startswith (add_terminator ancestor) (add_terminator path).

(** legacy.py 164-200 (same text at 328-364 and 418-454). *)
Definition depth (p : pystr) : nat := count_char SLASHC p.
Definition at_depth (n : dict pyval) (d : nat) : list pystr :=
  dkeys (sort_items (filter (fun kv => Nat.eqb (depth (fst kv)) d) n)).
Definition max_depth (n : dict pyval) : nat := fold_left Nat.max (map depth (dkeys n)) 0.
(** handle_path_at_depth.  [fuel] is at least [max - cur_depth], so it runs out
    only where the range of depths is empty. *)
Fixpoint handle (n : dict pyval) (mx : nat) (fuel : nat) (cur_path : pystr) (cur_depth : nat)
         (sorted : list pystr) : list pystr :=
  match fuel with
  | O => sorted
  | S fuel =>
      fold_left (fun sorted d =>
        fold_left (fun sorted lower =>
          if is_ancestor lower cur_path then
            if str_in lower sorted then sorted
            else handle n mx fuel lower d (sorted ++ [lower])
          else sorted) (at_depth n d) sorted)
        (seq (cur_depth + 1) (mx - cur_depth)) sorted
  end.
Definition arranged_paths (n : dict pyval) : list pystr :=
  let mx := max_depth n in
  fold_left (fun sorted d =>
    fold_left (fun sorted path =>
      if str_in path sorted then sorted
      else handle n mx (mx - d) path d (sorted ++ [path])) (at_depth n d) sorted)
    (seq 1 mx) [].
Definition pick (n : dict pyval) (paths : list pystr) : dict pyval :=
  fold_left (fun acc p => match dget p n with Some v => dset p v acc | None => acc end) paths [].
Definition arrange_node_data (d : dict pyval) : res (dict pyval) :=
  bind (nodes_of d) (fun on =>
  match on with
  | None => Ok d
  | Some n => Ok (dset (lit "nodes") (VDict (pick n (arranged_paths n))) d)
  end).

(** legacy.py 202-220 (same text at 366-385 and 456-475): keys in the list go
    to the end, in the list's order; then the values that are dicts, or lists of
    dicts. *)
Definition to_end (d : dict pyval) (k : pystr) : dict pyval :=
  match dget k d with Some v => dset k v (ddel k d) | None => d end.
Definition reorder (keys_order : list pystr) (d : dict pyval) : dict pyval :=
  fold_left to_end keys_order d.
Fixpoint deep (keys_order : list pystr) (v : pyval) : pyval :=
  match v with
  | VDict d =>
      VDict (reorder keys_order
        (map (fun kv => (fst kv,
                match snd kv with
                | VDict _ => deep keys_order (snd kv)
                | VList l => VList (map (fun i => match i with VDict _ => deep keys_order i | _ => i end) l)
                | x => x
                end)) d))
  | _ => v
  end.
Definition deep_order_data (keys_order : list pystr) (d : dict pyval) : dict pyval :=
  match deep keys_order (VDict d) with VDict d' => d' | _ => d end.

(** *** V1: 0.39 to 0.45 *)

(** legacy.py 234-236. *)
Definition has_op (v : pyval) : bool :=
  match v with VNone => false | VList [] => false | VDict [] => false | _ => true end.

Definition put_op (k : string) (v : option pyval) (flat : dict pyval) : dict pyval :=
  match v with Some v => if has_op v then dset (lit k) v flat else flat | None => flat end.

(** legacy.py 129-157: the flattened data of one old node. *)
Definition flat_node (start_nodes : list pyval) (d data : dict pyval) (path : pystr) : dict pyval :=
  let flat := [] in
  let flat := put_op "widget_type" (dget (lit "widget_type") data) flat in
  let flat := put_op "execute_in" (dget (lit "execute_in") d) flat in
  let flat := put_op "instance" (dget (lit "instance") data) flat in
  let flat := match dget (lit "enabled") data with
              | Some VNone | None => flat
              | Some v => dset (lit "enabled") v flat
              end in
  let flat := put_op "code" (dget (lit "compute") data) flat in
  let flat := put_op "comment" (dget (lit "comment") d) flat in
  let flat := put_op "attrs" (dget (lit "attributes") data) flat in
  let flat := put_op "child_order" (dget (lit "execute_order") d) flat in
  if existsb (fun s => match s with VStr s => str_eqb s path | _ => false end) start_nodes
  then dset (lit "start_point") (VBool true) flat else flat.

(** legacy.py 129-162 unpack_node_data: the nodes it puts in the file data, in
    order.  The children are looked up by walking the dict so that Coq sees the
    recursion end; [unpack_eq] in LegacyProofs3 restates it with [dget]. *)
Fixpoint unpack (start_nodes : list pyval) (parent_path : pystr) (nd : pyval) {struct nd}
  : res (list (pystr * pyval)) :=
  match nd with
  | VDict d =>
      match dget (lit "data") d with
      | Some (VDict data) =>
          match dget (lit "name") d with
          | Some (VStr name) =>
              let path := parent_path ++ name in
              let all := (fix all (l : list pyval) : res (list (pystr * pyval)) :=
                 match l with
                 | [] => Ok []
                 | c :: t => bind (unpack start_nodes (path ++ [SLASHC]) c) (fun a =>
                             bind (all t) (fun b => Ok (a ++ b)))
                 end) in
              bind ((fix find (e : list (pystr * pyval)) : res (list (pystr * pyval)) :=
                 match e with
                 | [] => Ok []
                 | (k, v) :: t => if str_eqb k (lit "children")
                                  then match v with VList l => all l | _ => Raise TypeError end
                                  else find t
                 end) d) (fun below =>
              Ok ((path, VDict (flat_node start_nodes d data path)) :: below))
          | Some _ => Raise TypeError
          | None => Raise KeyError
          end
      | Some _ => Raise AttributeError
      | None => Raise KeyError
      end
  | _ => Raise TypeError
  end.
Definition unpack_all (start_nodes : list pyval) (parent_path : pystr)
  : list pyval -> res (list (pystr * pyval)) :=
  fix all (l : list pyval) : res (list (pystr * pyval)) :=
    match l with
    | [] => Ok []
    | c :: t => bind (unpack start_nodes parent_path c) (fun a =>
                bind (all t) (fun b => Ok (a ++ b)))
    end.

(** legacy.py 156: [self.file_data['data'].get('start_nodes', [])]; only
    evaluated when there is a node. *)
Definition start_nodes_of (d : dict pyval) : res (list pyval) :=
  match dget (lit "data") d with
  | Some (VDict data) =>
      match dget (lit "start_nodes") data with
      | None => Ok []
      | Some (VList l) => Ok l
      | Some _ => Raise TypeError
      end
  | Some _ => Raise AttributeError
  | None => Raise KeyError
  end.

(** legacy.py 222-233, 249-257.  A child_order that is not a list reads as
    empty here. *)
Definition v1_parent (p : pystr) : pystr := join [SLASHC] (removelast (split SLASHC p)).
Definition v1_name (p : pystr) : pystr := last (split SLASHC p) [].
Definition in_child_order (name : pystr) (co : option pyval) : bool :=
  match co with
  | Some (VList l) => existsb (fun s => match s with VStr s => str_eqb s name | _ => false end) l
  | _ => false
  end.
Definition dropped (n : dict pyval) (kv : pystr * pyval) : bool :=
  match dget (v1_parent (fst kv)) n with
  | Some (VDict parent) =>
      truthy (VDict parent) && negb (in_child_order (v1_name (fst kv)) (dget (lit "child_order") parent))
  | _ => false
  end.
Definition drop_nodes (d : dict pyval) : res (dict pyval) :=
  bind (nodes_of d) (fun on =>
  match on with
  | None => Ok d
  | Some n => Ok (dset (lit "nodes") (VDict (filter (fun kv => negb (dropped n kv)) n)) d)
  end).

Definition V1_KEYS : list pystr :=
  map lit ["version"; "alias"; "name"; "comment"; "color"; "mute"; "solo"; "references"; "path";
           "instance"; "enabled"; "widget_type"; "meta_data"; "execute_in"; "execute_order"; "nodes";
           "attributes"; "code"; "real_path"]%string.

(** legacy.py 114-121: the first loop. *)
Definition unpack_children (d : dict pyval) : res (dict pyval) :=
  match dget (lit "children") d with
  | None => Ok d
  | Some (VList []) => Ok (ddel (lit "children") d)
  | Some (VList l) =>
      let d := ddel (lit "children") d in
      bind (start_nodes_of d) (fun starts =>
      bind (unpack_all starts (lit "/") l) (fun entries =>
      bind (nodes_of d) (fun on =>
      let n := match on with Some n => n | None => [] end in
      Ok (dset (lit "nodes") (VDict (dupdate n entries)) d))))
  | Some _ => Raise TypeError
  end.

(** legacy.py 112-127. *)
Definition v1 (d : dict pyval) : res (dict pyval) :=
  bind (unpack_children d) (fun d =>
  let d := dset (lit "version") (VStr (lit "1.0.0")) d in
  let d := match dget (lit "data") d with
           | Some v => dset (lit "meta_data") v (ddel (lit "data") d)
           | None => d
           end in
  bind (arrange_node_data d) (fun d =>
  bind (drop_nodes d) (fun d => Ok (deep_order_data V1_KEYS d)))).

(** *** V109: 1.9 *)

(** [d.get(k, {})] where a dict is expected. *)
Definition sub_dict (k : string) (d : dict pyval) : res (dict pyval) :=
  match dget (lit k) d with
  | None => Ok []
  | Some (VDict v) => Ok v
  | Some _ => Raise AttributeError
  end.

(** [x.get(k, None)] is not None. *)
Definition opt_val (k : string) (d : dict pyval) : option pyval :=
  match dget (lit k) d with Some VNone | None => None | Some v => Some v end.
Definition set_opt (k : pystr) (v : option pyval) (d : dict pyval) : dict pyval :=
  match v with Some v => dset k v d | None => d end.

(** legacy.py 285-303: the state is refs, comp_overrides, aliases, colors. *)
Definition refs_state : Type := (list pystr * dict pyval * dict pyval * dict pyval)%type.
Definition ref_step (st : refs_state) (ref : pyval) : res refs_state :=
  let '(refs, overs, aliases, colors) := st in
  match ref with
  | VDict r =>
      match dget (lit "path") r with
      | Some (VStr path) =>
          match path with
          | [] => Ok st
          | _ =>
              bind (match dget path overs with
                    | None => Ok []
                    | Some (VDict v) => Ok v
                    | Some _ => Raise TypeError
                    end) (fun r_dat =>
              let r_dat := set_opt (lit "mute") (opt_val "mute" r) r_dat in
              let r_dat := set_opt (lit "solo") (opt_val "solo" r) r_dat in
              let aliases := set_opt path (opt_val "alias" r) aliases in
              let colors := set_opt path (opt_val "color" r) colors in
              let overs := match r_dat with [] => overs | _ => dset path (VDict r_dat) overs end in
              Ok (refs ++ [path], overs, aliases, colors))
          end
      | Some v => if truthy v then Raise TypeError else Ok st
      | None => Ok st
      end
  | _ => Raise AttributeError
  end.
Definition set_nonempty (k : string) (v d : dict pyval) : dict pyval :=
  match v with [] => d | _ => dset (lit k) (VDict v) d end.

(** legacy.py 274-315. *)
Definition update_refs (d : dict pyval) : res (dict pyval) :=
  match dget (lit "references") d with
  | None => Ok d
  | Some v =>
      if negb (truthy v) then Ok d else
      match v with
      | VList ref_dicts =>
          let d := ddel (lit "references") d in
          bind (sub_dict "meta_data" d) (fun meta =>
          bind (sub_dict "comp_overrides" d) (fun overs =>
          bind (sub_dict "aliases" meta) (fun aliases =>
          bind (sub_dict "colors" meta) (fun colors =>
          bind (fold_res ref_step ref_dicts ([], overs, aliases, colors)) (fun '(refs, overs, aliases, colors) =>
          match refs with
          | [] => Ok d
          | _ =>
              let d := dset (lit "references") (VList (map VStr refs)) d in
              let d := set_nonempty "comp_overrides" overs d in
              let meta := set_nonempty "aliases" aliases meta in
              let meta := set_nonempty "colors" colors meta in
              Ok (set_nonempty "meta_data" meta d)
          end)))))
      | _ => Raise TypeError
      end
  end.

(** legacy.py 317-326. *)
Definition rename_key (old new : string) (d : dict pyval) : dict pyval :=
  match dget (lit old) d with
  | Some v => if truthy v then dset (lit new) v (ddel (lit old) d) else d
  | None => d
  end.
Definition update_meta_data (d : dict pyval) : res (dict pyval) :=
  match dget (lit "meta_data") d with
  | None => Ok d
  | Some v =>
      if negb (truthy v) then Ok d else
      match v with
      | VDict m =>
          let m := rename_key "position_data" "positions" m in
          let m := rename_key "collapse_data" "collapse" m in
          Ok (dset (lit "meta_data") (VDict m) d)
      | _ => Raise AttributeError
      end
  end.

Definition V109_KEYS : list pystr :=
  map lit ["version"; "alias"; "name"; "comment"; "color"; "mute"; "solo"; "references";
           "comp_overrides"; "path"; "instance"; "enabled"; "widget_type"; "meta_data"; "aliases";
           "colors"; "collapse"; "positions"; "execute_in"; "execute_order"; "nodes"; "attributes";
           "code"; "real_path"]%string.

(** legacy.py 267-272. *)
Definition v109 (d : dict pyval) : res (dict pyval) :=
  bind (update_refs d) (fun d =>
  bind (update_meta_data d) (fun d =>
  bind (arrange_node_data d) (fun d => Ok (deep_order_data V109_KEYS d)))).

(** *** V114: 1.14 *)

(** legacy.py 409-414; [is False]; [is []] is never true. *)
Definition drop_false (k : string) (d : dict pyval) : dict pyval :=
  match dget (lit k) d with Some (VBool false) => ddel (lit k) d | _ => d end.

(** legacy.py 406-416; the key list at 459-464 is V109's. *)
Definition v114 (d : dict pyval) : res (dict pyval) :=
  let d := dset (lit "version") (VStr (lit "1.15")) d in
  let d := drop_false "mute" d in
  let d := drop_false "solo" d in
  bind (arrange_node_data d) (fun d => Ok (deep_order_data V109_KEYS d)).

(** *** V115: 1.15 *)

(** [x.items()] *)
Definition as_dict (v : pyval) : res (dict pyval) :=
  match v with VDict d => Ok d | _ => Raise AttributeError end.

(** legacy.py 543-552. *)
Definition order_attrs (v : pyval) : res pyval :=
  bind (as_dict v) (fun old_attrs =>
  bind (fold_res (fun acc (kv : pystr * pyval) =>
          bind (as_dict (snd kv)) (fun sub => Ok (dset (fst kv) (VDict (sort_items sub)) acc)))
        (sort_items old_attrs) []) (fun r => Ok (VDict r))).

Definition NODE_KEYS : list pystr :=
  map lit ["start_point"; "instance"; "execute_in"; "child_order"; "enabled"; "comment"; "attrs";
           "code"]%string.

(** legacy.py 536-555. *)
Definition order_node_data (v : pyval) : res pyval :=
  bind (as_dict v) (fun d =>
  bind (fold_res (fun acc key =>
          match dget key d with
          | None => Ok acc
          | Some v => if str_eqb key (lit "attrs")
                      then bind (order_attrs v) (fun a => Ok (dset key a acc))
                      else Ok (dset key v acc)
          end) NODE_KEYS []) (fun r => Ok (VDict r))).

(** legacy.py 528-534. *)
Definition order_nodes (n : dict pyval) : res (dict pyval) :=
  fold_res (fun acc (kv : pystr * pyval) =>
              bind (order_node_data (snd kv)) (fun v => Ok (dset (fst kv) v acc)))
           (sort_items n) [].

(** legacy.py 557-571. *)
Definition remove_key (k : pystr) (l : list pystr) : list pystr :=
  (fix go l := match l with [] => [] | x :: t => if str_eqb x k then t else x :: go t end) l.
Definition copy_keys (d : dict pyval) (ks : list pystr) (acc : dict pyval) : dict pyval :=
  fold_left (fun acc k => match dget k d with Some v => dset k v acc | None => acc end) ks acc.
Definition META_KEYS : list pystr := map lit ["aliases"; "colors"; "positions"; "collapse"]%string.
Definition order_meta_data (m : dict pyval) : res (dict pyval) :=
  bind (fold_res (fun (acc : dict pyval * list pystr) key =>
          let '(result, data_keys) := acc in
          match dget key m with
          | None => Ok acc
          | Some v => bind (as_dict v) (fun s =>
                      Ok (dset key (VDict (sort_items s)) result, remove_key key data_keys))
          end) META_KEYS ([], dkeys m)) (fun '(result, data_keys) =>
  Ok (copy_keys m data_keys result)).

Definition V115_KEYS : list pystr :=
  map lit ["version"; "alias"; "color"; "mute"; "solo"; "references"; "comp_overrides"; "meta_data";
           "nodes"; "real_path"]%string.

(** legacy.py 501-526. *)
Definition order_entry (key : pystr) (v : pyval) : res pyval :=
  if str_eqb key (lit "nodes") then
    bind (as_dict v) (fun n => bind (order_nodes n) (fun n => Ok (VDict n)))
  else if str_eqb key (lit "meta_data") then
    bind (as_dict v) (fun m => bind (order_meta_data m) (fun m => Ok (VDict m)))
  else if str_eqb key (lit "comp_overrides") then
    bind (as_dict v) (fun o => Ok (VDict (sort_items o)))
  else Ok v.
Definition order_save_data (d : dict pyval) : res (dict pyval) :=
  bind (fold_res (fun (acc : dict pyval * list pystr) key =>
          let '(result, data_keys) := acc in
          match dget key d with
          | None => Ok acc
          | Some v => bind (order_entry key v) (fun w =>
                      Ok (dset key w result, remove_key key data_keys))
          end) V115_KEYS ([], dkeys d)) (fun '(result, data_keys) =>
  Ok (copy_keys d data_keys result)).

(** legacy.py 496-499. *)
Definition v115 (d : dict pyval) : res (dict pyval) :=
  order_save_data (dset (lit "version") (VStr (lit "1.16")) d).

(** *** The driver *)

(** legacy.py 573-578 FILE_VERSIONS. *)
Definition converter (v : Z) : option (dict pyval -> res (dict pyval)) :=
  if Z.eqb v 9 then Some v109
  else if Z.eqb v 14 then Some v114
  else if Z.eqb v 15 then Some v115
  else None.

(** constants.GRAPH_VERSION, version.json. *)
Definition GRAPH_MAJOR : Z := 1.
Definition GRAPH_MINOR : Z := 17.

(** legacy.py 37-45: the while loop; [None] is still running after [fuel]
    steps. *)
Fixpoint step_versions (fuel : nat) (v : Z) (d : dict pyval) : option (res (dict pyval)) :=
  match fuel with
  | O => None
  | S fuel =>
      match (match converter v with Some c => c d | None => Ok d end) with
      | Raise e => Some (Raise e)
      | Ok d => if Z.eqb v GRAPH_MINOR then Some (Ok d) else step_versions fuel (v + 1) d
      end
  end.

(** legacy.py 24-45 and 66-75. *)
Definition convert_file (fuel : nat) (d : dict pyval) : option (res (dict pyval)) :=
  match determine_version d with
  | Raise e => Some (Raise e)
  | Ok (Minor v) => step_versions fuel v d
  | Ok Pre =>
      match v1 d with
      | Raise e => Some (Raise e)
      | Ok d =>
          match determine_version d with
          | Raise e => Some (Raise e)
          | Ok (Minor v) => step_versions fuel v d
          | Ok Pre => Some (Raise TypeError)
          end
      end
  end.
