(** Model of the file a finished execution leaves its results in:
    CacheLayer.add_node, save, get_save_data and load_from_layer_data
    (nxt/nxt_layer.py 1031-1068) and the frame node that is cached
    (nxt/stage.py 4059-4094).  session.py 147-190 returns such a file, loaded.

    The file holds JSON; writing and reading it is [json_norm] when everything in
    it can be written (nxt_io.py 119-149).  Reading adds the keys filepath,
    real_path and name to the data (nxt_io.py 112-115), which the cache layer does
    not look at.  The cache layer's times are CacheTimes.v. *)

From Coq Require Import String List NArith ZArith Bool.
From Verif Require Import PyStr NxtPath Dict PyVal NodeIO.
Import ListNotations.

Definition NEWLINE : N := 10%N.
Definition K_NODES := lit "nodes".
Definition K_VERSION := lit "version".

(** The nodes of a cache layer (nxt_layer.py 979). *)
Definition cache := dict node.

(** stage.py 4059-4073 and 4087-4091: the frame before its code runs, from the
    evaluated attributes. *)
Definition frame_node (p code : pystr) (attrs : list (pystr * pyval)) : node :=
  fold_left (fun n kv => dset (fst kv) (snd kv) n) attrs [(NODE_PATH, VStr p); (CACHED_CODE, VStr code)].

(** nxt_layer.py 1031-1035 *)
Definition add_node (c : cache) (p : pystr) (n : node) : res cache :=
  match match dget CACHED_CODE n with None => VStr [NEWLINE] | Some v => v end with
  | VStr cached_code => Ok (dset p (dset COMPUTE (VStrs (split NEWLINE cached_code)) n) c)
  | _ => Raise AttributeError
  end.

Section Save.
Variables (builtins : list pystr) (version : pystr).

(** nxt_layer.py 1042-1049 *)
Definition get_save_data (c : cache) : dict pyval :=
  [ (K_VERSION, VStr version);
    (K_NODES, VDict (fold_left (fun acc kv => dset (fst kv) (VDict (get_node_as_dict builtins (snd kv))) acc) c [])) ].

(** nxt_layer.py 1037-1040 and nxt_io.py 119-149: what the file holds; None when
    json.dump raises TypeError. *)
Definition save (c : cache) : option (dict pyval) :=
  if json_ok (VDict (get_save_data c))
  then Some (map (fun kv => (fst kv, json_norm (snd kv))) (get_save_data c)) else None.
End Save.

(** nxt_layer.py 1058-1066: one node.  A cache layer has no real path (978), and
    its nodes are only put in place at the end (1067), so no parent is found. *)
Definition load_node (acc : cache) (kv : pystr * pyval) : res cache :=
  let '(node_path, data) := kv in
  match data with
  | VDict node_data =>
      bind (create_node (dset (lit "name") (VStr (node_name_from_node_path node_path)) node_data) VNone
                        (get_parent_path node_path) false) (fun spec_node =>
      match dget COMPUTE spec_node with
      | Some (VList l) =>
          match strings l with
          | Some lines => Ok (dset node_path (dset CACHED_CODE (VStr (join [NEWLINE] lines)) spec_node) acc)
          | None => Raise TypeError
          end
      | _ => Raise TypeError
      end)
  | _ => Raise TypeError
  end.
(** nxt_layer.py 1052-1068 *)
Definition load (data : dict pyval) : res cache :=
  match dget K_NODES data with
  | None => Ok []
  | Some (VDict nodes) => fold_res load_node nodes []
  | Some _ => Raise AttributeError
  end.
