(** C22: saving and loading a node. *)

From Coq Require Import String List NArith ZArith Bool.
From Verif Require Import PyStr NxtPath Dict DictFacts PyVal PyValFacts NodeIO NodeIOSpec NodeIOProofs.
Import ListNotations.

(** Saving a node and loading what was saved (the caller puts the name back,
    see C23): every user attribute is there again and no other is; a value
    survives when it is truthy and can be written, a comment or type when it is
    truthy; every internal attribute of the file is what it was when it said
    something and its default otherwise; the world keeps its comment and code
    only. *)
Theorem C22_round_trip :
  forall bi n nm parent rp co,
  NoDup (dkeys n) -> dget (lit "_name") n = Some (VStr nm) ->
  dget (lit "_child_order") n = Some (VList (map VStr co)) ->
  exists n', create_node (dset (lit "name") (VStr nm) (get_node_as_dict bi n)) rp parent false = Ok n' /\
  (forall u, user_name bi u -> (In u (dkeys n') <-> In u (dkeys n))) /\
  (forall u, user_name bi u -> In u (dkeys n) ->
     dget u n' = Some (kept (attr n u)) /\
     dget (u ++ lit "_comment__nxt") n' = kept_meta (attr n (u ++ lit "_comment__nxt")) /\
     dget (u ++ lit "_type__nxt") n' = kept_meta (attr n (u ++ lit "_type__nxt")) /\
     dget (u ++ lit "_source__nxt") n' = Some (VTuple [rp; VStr (join_node_paths parent nm)])) /\
  (nm <> lit "/" ->
     (forall a d, In (a, d) saved_internal ->
        dget a n' = Some (if says (attr n a) then attr n a else d)) /\
     exists o, first_occ co o /\ dget (lit "_child_order") n' = Some (VList (map VStr o))) /\
  (nm = lit "/" ->
     (forall a d, In (a, d) saved_of_world ->
        dget a n' = Some (if says (attr n a) then attr n a else d)) /\
     (forall a d, In (a, d) saved_internal -> ~ In (a, d) saved_of_world -> dget a n' = Some d) /\
     dget (lit "_child_order") n' = Some (VList [])) /\
  dget (lit "_name") n' = Some (VStr nm) /\ dget (lit "_parent_path") n' = Some (VStr parent) /\
  dget (lit "_source_layer") n' = Some rp /\ dget (lit "_proxy") n' = Some (VBool false).
Proof. exact node_trip. Qed.
Print Assumptions C22_round_trip.

(** Saving again gives the same data (a child order does not name a child
    twice). *)
Theorem C22_save_again :
  forall bi n nm parent rp co n',
  NoDup (dkeys n) -> dget (lit "_name") n = Some (VStr nm) ->
  dget (lit "_child_order") n = Some (VList (map VStr co)) ->
  (nm = lit "/" \/ NoDup co) ->
  create_node (dset (lit "name") (VStr nm) (get_node_as_dict bi n)) rp parent false = Ok n' ->
  get_node_as_dict bi n' = get_node_as_dict bi n.
Proof. exact node_stable. Qed.
Print Assumptions C22_save_again.

(** The same through a JSON file, where a tuple comes back as a list. *)
Theorem C22_through_file :
  forall bi n nm parent rp co,
  NoDup (dkeys n) -> dget (lit "_name") n = Some (VStr nm) ->
  dget (lit "_child_order") n = Some (VList (map VStr co)) ->
  (forall a d, In (a, d) saved_internal -> attr n a <> VTuple []) ->
  exists n', create_node (dset (lit "name") (VStr nm) (through_json (get_node_as_dict bi n))) rp parent false = Ok n' /\
  (forall u, user_name bi u -> (In u (dkeys n') <-> In u (dkeys n))) /\
  (forall u, user_name bi u -> In u (dkeys n) -> dget u n' = Some (json_norm (kept (attr n u)))) /\
  (nm <> lit "/" -> forall a d, In (a, d) saved_internal ->
        dget a n' = Some (if says (attr n a) then json_norm (attr n a) else d)) /\
  (nm = lit "/" \/ NoDup co -> get_node_as_dict bi n' = through_json (get_node_as_dict bi n)).
Proof. exact file_trip. Qed.
Print Assumptions C22_through_file.

(** Whatever a node holds, its data lists its parts in one fixed order, so a
    re-save does not shuffle the file. *)
Theorem C22_file_order :
  forall bi n,
  dkeys (get_node_as_dict bi n) = filter (fun k => dmem k (get_node_as_dict bi n)) file_order.
Proof. exact save_key_order. Qed.
Print Assumptions C22_file_order.

(** User attributes are listed in alphabetical order. *)
Theorem C22_attrs_sorted :
  forall bi n, NoDup (dkeys n) ->
  dget (lit "attrs") (get_node_as_dict bi n)
  = match filter (fun u => is_user bi u) (dkeys n) with
    | [] => None
    | us => Some (VDict (sort_items (map (fun u => (u, save_user n u)) us)))
    end.
Proof. exact saved_attrs. Qed.
Print Assumptions C22_attrs_sorted.

(** A node with an attribute of every kind. *)
Definition ex_node : node :=
  [ (lit "zed", VInt 5); (lit "zed_comment__nxt", VStr (lit "why")); (lit "zed_source__nxt", VNone);
    (lit "flag", VBool false); (lit "pair", VTuple [VInt 1; VInt 2]); (lit "obj", VObj 3);
    (lit "_code", VList [VStr (lit "x = 1")]); (lit "_execute_in", VStr (lit "/a"));
    (lit "_comment", VNone); (lit "_start_point", VBool true); (lit "_enabled", VBool false);
    (lit "_instance", VNone); (lit "_child_order", VList [VStr (lit "b"); VStr (lit "c")]);
    (lit "_name", VStr (lit "n")) ].
Definition ex_bi : list pystr := [lit "__module__"; lit "__doc__"].

Example C22_ex_hyps :
  NoDup (dkeys ex_node) /\ dget (lit "_name") ex_node = Some (VStr (lit "n")) /\
  dget (lit "_child_order") ex_node = Some (VList (map VStr [lit "b"; lit "c"])) /\
  (forall a d, In (a, d) saved_internal -> attr ex_node a <> VTuple []) /\
  user_name ex_bi (lit "zed") /\ user_name ex_bi (lit "flag").
Proof.
  split; [repeat constructor; cbn; intuition discriminate|]. split; [reflexivity|]. split; [reflexivity|].
  split; [|split; apply is_user_iff; reflexivity].
  intros a d H. cbn [In saved_internal] in H.
  repeat (destruct H as [H|H]; [injection H as <- <-; vm_compute; discriminate|]). destruct H.
Qed.

Example C22_ex_saved :
  get_node_as_dict ex_bi ex_node =
  [ (lit "start_point", VBool true); (lit "execute_in", VStr (lit "/a"));
    (lit "child_order", VList [VStr (lit "b"); VStr (lit "c")]); (lit "enabled", VBool false);
    (lit "attrs", VDict [ (lit "flag", VDict []); (lit "obj", VDict []);
                          (lit "pair", VDict [(lit "value", VTuple [VInt 1; VInt 2])]);
                          (lit "zed", VDict [(lit "comment", VStr (lit "why")); (lit "value", VInt 5)])]);
    (lit "code", VList [VStr (lit "x = 1")]) ].
Proof. reflexivity. Qed.

(** Every falsy value is lost: a saved [False], 0 or empty string loads as
    None, although it was an opinion. *)
Theorem C22_falsy_value_lost_refuted :
  exists bi n nm parent rp n' u,
    NoDup (dkeys n) /\ dget (lit "_name") n = Some (VStr nm) /\ user_name bi u /\
    create_node (dset (lit "name") (VStr nm) (get_node_as_dict bi n)) rp parent false = Ok n' /\
    dget u n = Some (VBool false) /\ dget u n' = Some VNone.
Proof.
  eexists ex_bi, ex_node, (lit "n"), (lit "/"), VNone, _, (lit "flag").
  split; [apply C22_ex_hyps|]. split; [reflexivity|]. split; [apply C22_ex_hyps|].
  split; [vm_compute; reflexivity|]. split; reflexivity.
Qed.
Print Assumptions C22_falsy_value_lost_refuted.

(** A value json cannot write is dropped without an error. *)
Theorem C22_unwritable_value_lost_refuted :
  exists bi n nm parent rp n' u,
    NoDup (dkeys n) /\ dget (lit "_name") n = Some (VStr nm) /\ user_name bi u /\
    create_node (dset (lit "name") (VStr nm) (get_node_as_dict bi n)) rp parent false = Ok n' /\
    attr n u = VObj 3 /\ dget u n' = Some VNone.
Proof.
  eexists ex_bi, ex_node, (lit "n"), (lit "/"), VNone, _, (lit "obj").
  split; [apply C22_ex_hyps|]. split; [reflexivity|]. split; [apply is_user_iff; reflexivity|].
  split; [vm_compute; reflexivity|]. split; reflexivity.
Qed.
Print Assumptions C22_unwritable_value_lost_refuted.

(** The world's child order is not saved. *)
Theorem C22_world_child_order_lost_refuted :
  exists bi n rp n',
    NoDup (dkeys n) /\ dget (lit "_name") n = Some (VStr (lit "/")) /\
    dget (lit "_child_order") n = Some (VList [VStr (lit "b"); VStr (lit "a")]) /\
    create_node (dset (lit "name") (VStr (lit "/")) (get_node_as_dict bi n)) rp (lit "") false = Ok n' /\
    dget (lit "_child_order") n' = Some (VList []).
Proof.
  eexists ex_bi, [(lit "_name", VStr (lit "/")); (lit "_child_order", VList [VStr (lit "b"); VStr (lit "a")])], VNone, _.
  split; [repeat constructor; cbn; intuition discriminate|].
  split; [reflexivity|]. split; [reflexivity|]. split; [vm_compute; reflexivity|reflexivity].
Qed.
Print Assumptions C22_world_child_order_lost_refuted.
