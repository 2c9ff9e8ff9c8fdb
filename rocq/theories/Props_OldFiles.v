(** C25, continued: which files before 1.0 can be unpacked. *)

From Coq Require Import String List NArith ZArith Bool Arith Lia.
From Verif Require Import PyStr PyStrFacts Dict DictFacts PyVal Legacy LegacySpec LegacyProofs LegacyProofs2 LegacyProofs3 FileIOProofs.
Import ListNotations.

(** A nested node of an old file: it has data and a name, and its children, if
    any, are such nodes. *)
Inductive old_format : pyval -> Prop :=
| old_leaf d data name : dget (lit "data") d = Some (VDict data) -> dget (lit "name") d = Some (VStr name) -> dget (lit "children") d = None -> old_format (VDict d)
| old_inner d data name l : dget (lit "data") d = Some (VDict data) -> dget (lit "name") d = Some (VStr name) -> dget (lit "children") d = Some (VList l) -> all_old l -> old_format (VDict d)
with all_old : list pyval -> Prop :=
| all_none : all_old []
| all_more c t : old_format c -> all_old t -> all_old (c :: t).
(** An old file: nested nodes, no flat ones, and data in which start nodes, if
    any, are listed. *)
Definition old_file (d : dict pyval) : Prop :=
  exists l data, dget (lit "children") d = Some (VList l) /\ all_old l /\ dget (lit "nodes") d = None /\
  dget (lit "data") d = Some (VDict data) /\ (dget (lit "start_nodes") data = None \/ exists s, dget (lit "start_nodes") data = Some (VList s)).

Scheme old_format_ind2 := Induction for old_format Sort Prop with all_old_ind2 := Induction for all_old Sort Prop.
Lemma unpack_works starts l : all_old l -> forall pre, exists e, unpack_all starts pre l = Ok e.
Proof.
  apply (all_old_ind2 (fun v _ => forall pre, exists e, unpack starts pre v = Ok e) (fun l _ => forall pre, exists e, unpack_all starts pre l = Ok e)).
  - intros d data name D N C pre. rewrite unpack_eq, D, N, C. cbn [bind]. eauto.
  - intros d data name k D N C _ IH pre. rewrite unpack_eq, D, N, C. destruct (IH ((pre ++ name) ++ [SLASHC])) as (e & ->). cbn [bind]. eauto.
  - intros pre. now exists [].
  - intros c t _ IHc _ IHt pre. cbn [unpack_all]. destruct (IHc pre) as (a & ->). cbn [bind]. destruct (IHt pre) as (b & ->). cbn [bind]. eauto.
Qed.

(** Such a file is unpacked, and then converted like the file of 1.0 it is
    unpacked to: nothing but the later steps can fail. *)
Theorem C25_pre_release_unpacks : forall d s y fuel, proper (VDict d) -> old_file d ->
  dget (lit "version") d = Some (VStr s) -> two_numbers py_int s 0 y -> (39 <= y)%Z -> 17 < fuel ->
  exists d1, upgraded_pre d d1 /\ convert_file fuel d = convert_file fuel d1 /\ dget (lit "version") d1 = Some (VStr (lit "1.0.0")).
Proof.
  intros d s y fuel Hp (l & data & C & A & Nn & D & St) V T Y F.
  assert (G : exists d1, v1 d = Ok d1).
  { assert (U : exists d1 n, unpack_children d = Ok d1 /\ (dget (lit "nodes") d1 = Some (VDict n) \/ dget (lit "nodes") d1 = None)).
    { unfold unpack_children. rewrite C. destruct l as [|c t].
      - eexists _, []. split; [reflexivity|]. right. rewrite dget_ddel_other by discriminate. exact Nn.
      - assert (exists st, start_nodes_of (ddel (lit "children") d) = Ok st) as (st & ->).
        { unfold start_nodes_of. rewrite dget_ddel_other by discriminate. rewrite D. destruct St as [->|(x & ->)]; eauto. }
        cbn [bind]. destruct (unpack_works st (c :: t) A (lit "/")) as (e & ->). cbn [bind].
        unfold nodes_of. rewrite dget_ddel_other by discriminate. rewrite Nn. cbn [bind]. eexists _, _. split; [reflexivity|]. left. apply dget_dset_same. }
    destruct U as (d1 & n & U & Hn). unfold v1. rewrite U. cbn [bind].
    set (d2 := match dget (lit "data") _ with Some _ => _ | None => _ end).
    assert (E2 : dget (lit "nodes") d2 = dget (lit "nodes") d1).
    { unfold d2. destruct (dget (lit "data") (dset (lit "version") (VStr (lit "1.0.0")) d1)); rewrite ?dget_dset_other, ?dget_ddel_other, ?dget_dset_other by discriminate; reflexivity. }
    unfold arrange_node_data, nodes_of at 1. rewrite E2. destruct Hn as [Hn | Hn]; rewrite Hn; cbn [bind].
    - unfold drop_nodes, nodes_of. rewrite dget_dset_same. cbn [bind]. eauto.
    - unfold drop_nodes, nodes_of. rewrite E2, Hn. cbn [bind]. eauto. }
  destruct G as (d1 & G). exists d1.
  destruct (v1_ok d d1 Hp ltac:(intros n K; congruence) G) as (_ & _ & U). split; [exact U|]. pose proof (v1_version _ _ G) as V1. split; [|exact V1].
  unfold convert_file. rewrite (version_minor d s 0 y V T), (proj2 (Z.leb_le 39 y)) by auto. cbn [Z.eqb]. rewrite G.
  assert (T1 : two_numbers py_int (lit "1.0.0") 1 0) by (apply two_ints_ok; reflexivity). rewrite (version_minor _ _ _ _ V1 T1). reflexivity.
Qed.
Print Assumptions C25_pre_release_unpacks.

(** A file without start nodes. *)
Definition old_sample : dict pyval :=
  [(lit "version", VStr (lit "0.45.0")); (lit "data", VDict []);
   (lit "children", VList [VDict [(lit "name", VStr (lit "a")); (lit "data", VDict [(lit "compute", VList [VStr (lit "1")])])]])].
Example C25_old_sample : proper (VDict old_sample) /\ old_file old_sample /\
  convert_file 20 old_sample = Some (Ok [(lit "version", VStr (lit "1.16")); (lit "meta_data", VDict []); (lit "nodes", VDict [(lit "/a", VDict [(lit "code", VList [VStr (lit "1")])])])]).
Proof.
  split. { cbn [proper old_sample map]. repeat split; apply distinct_nodup; vm_compute; reflexivity. }
  split; [|vm_compute; reflexivity].
  eexists _, _. split; [reflexivity|]. split; [|split; [reflexivity|split; [reflexivity|now left]]].
  constructor; [|constructor]. eapply old_leaf; reflexivity.
Qed.
