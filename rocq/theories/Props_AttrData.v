(** C83: everything kept about an attribute. *)

From Coq Require Import String List NArith ZArith Bool Arith Lia.
From Verif Require Import PyStr PyStrFacts NxtPath Dict DictFacts PyVal NodeIO NodeIOProofs
  Names NamesSpec NamesProofs NodeEdit NodeEditSpec NodeEditProofs NodeCopyProofs Props_NodeEdit AttrData.
Import ListNotations.

(** What is listed: the comment, the source and the type if there are any, and
    the value, in this order. *)
Definition listed_as (o : option attribute) : dict pyval :=
  match o with
  | None => []
  | Some x =>
      (match comment x with Some c => [(lit "comment", c)] | None => [] end) ++
      (match source x with Some s => [(lit "source", s)] | None => [] end) ++
      (match type x with Some t => [(lit "type", t)] | None => [] end) ++ [(lit "value", value x)]
  end.
(** The attribute of a name that a lookup finds. *)
Definition found (getattr : pystr -> option pyval) (a : pystr) : option attribute :=
  match getattr a with
  | None => None
  | Some v => Some {| value := v; comment := getattr (a ++ lit "_comment__nxt"); type := getattr (a ++ lit "_type__nxt"); source := getattr (a ++ lit "_source__nxt") |}
  end.

Lemma plain_id a : ~ hidden a -> plain_name a = a.
Proof.
  intros Ha. unfold plain_name. destruct (List.find (fun m => endswith m a) META_ALL) as [m|] eqn:F; [|reflexivity]. exfalso.
  apply find_some in F as (I & E). apply endswith_iff in E as (r & ->). apply Ha. now apply hidden_meta.
Qed.

(** For every node, of a layer or of the composed stage, the data of an attribute
    is exactly what the node has under it, and nothing for an attribute the node
    does not have. *)
Theorem C83_data : forall getattr a, ~ hidden a -> get_node_attr_data getattr a = listed_as (found getattr a).
Proof.
  intros g a Ha. unfold get_node_attr_data, found. rewrite plain_id by exact Ha. destruct (g a) as [v|]; [|reflexivity].
  change META_ALL with [lit "_comment__nxt"; lit "_type__nxt"; lit "_source__nxt"]. cbn [fold_left listed_as comment type source value].
  destruct (g (a ++ lit "_comment__nxt")), (g (a ++ lit "_type__nxt")), (g (a ++ lit "_source__nxt")); reflexivity.
Qed.
Print Assumptions C83_data.

(** Asking by the name under which the comment, type or source is kept gives the
    data of the attribute itself. *)
Lemma last_part m a : contains m a = false -> m <> [] ->
  forallb (fun j => negb (str_eqb (firstn j m) (skipn (length m - j) m))) (seq 1 (length m - 1)) = true ->
  partition m (a ++ m) = (a, m, []).
Proof.
  intros Hc Hm B. destruct (partition m (a ++ m)) as [[b s] r] eqn:P. apply partition_spec in P as [(-> & E & _)|(_ & _ & _ & C)].
  2: { exfalso. assert (X : contains m (a ++ m) = true) by (apply contains_iff; exists a, []; now rewrite app_nil_r). congruence. }
  assert (L : length b + length r = length a) by (apply (f_equal (@length N)) in E; rewrite !app_length in E; lia).
  destruct r as [|c r]; [rewrite app_nil_r in E; apply app_inv_tail in E as ->; reflexivity|]. exfalso. set (r' := c :: r) in *.
  destruct (Nat.le_gt_cases (length m) (length r')) as [Le|Gt].
  - assert (Ea : a = b ++ m ++ firstn (length r' - length m) r').
    { apply (f_equal (firstn (length a))) in E. rewrite firstn_app, Nat.sub_diag, firstn_all, firstn_O, app_nil_r in E. rewrite E.
      rewrite firstn_app, firstn_all2 by lia. f_equal. rewrite firstn_app, firstn_all2 by lia. f_equal. f_equal. lia. }
    assert (X : contains m a = true) by (apply contains_iff; eauto). congruence.
  - rewrite forallb_forall in B. assert (R : 0 < length r') by (cbn; lia). specialize (B (length m - length r')).
    assert (I : In (length m - length r') (seq 1 (length m - 1))) by (apply in_seq; lia). apply B, negb_true_iff, str_eqb_neq in I. apply I. clear I B.
    assert (S1 : skipn (length a) (a ++ m) = m) by (rewrite skipn_app, Nat.sub_diag, skipn_all; reflexivity).
    rewrite E in S1. rewrite skipn_app, skipn_all2 in S1 by lia. cbn [app] in S1.
    rewrite skipn_app in S1. replace (length a - length b) with (length r') in S1 by lia. replace (length r' - length m) with 0 in S1 by lia. rewrite skipn_O in S1.
    refine (eq_trans (f_equal (firstn (length m - length r')) (eq_sym S1)) _). rewrite firstn_app. rewrite skipn_length. rewrite Nat.sub_diag, firstn_O, app_nil_r.
    rewrite firstn_all2 by (rewrite skipn_length; lia). f_equal. lia.
Qed.
Lemma plain_meta a m : In m [lit "_comment__nxt"; lit "_type__nxt"; lit "_source__nxt"] -> contains m a = false -> plain_name (a ++ m) = a.
Proof.
  intros I C. unfold plain_name.
  assert (O : forall x y, In x META_ALL -> In y META_ALL -> forall s t : pystr, s ++ x = t ++ y -> x = y).
  { intros x y Ix Iy s t E. apply (f_equal (@rev N)) in E. rewrite !rev_app_distr in E.
    change META_ALL with [lit "_comment__nxt"; lit "_type__nxt"; lit "_source__nxt"] in Ix, Iy.
    repeat destruct Ix as [<-|Ix]; try contradiction; repeat destruct Iy as [<-|Iy]; try contradiction; try reflexivity; vm_compute in E; discriminate. }
  destruct (List.find (fun x => endswith x (a ++ m)) META_ALL) as [x|] eqn:F.
  - apply find_some in F as (Ix & E). apply endswith_iff in E as (r & E). rewrite <- (O m x I Ix a r E). rewrite last_part; [reflexivity|exact C| |].
    + repeat destruct I as [<-|I]; try contradiction; discriminate.
    + repeat destruct I as [<-|I]; try contradiction; vm_compute; reflexivity.
  - exfalso. pose proof (find_none _ _ F m I) as X. cbv beta in X. assert (Y : endswith m (a ++ m) = true) by (apply endswith_iff; eauto). congruence.
Qed.
Theorem C83_by_meta_name : forall getattr a m,
  ~ hidden a -> In m [lit "_comment__nxt"; lit "_type__nxt"; lit "_source__nxt"] -> contains m a = false ->
  get_node_attr_data getattr (a ++ m) = get_node_attr_data getattr a.
Proof. intros g a m Ha I C. unfold get_node_attr_data. now rewrite plain_meta, plain_id. Qed.
Print Assumptions C83_by_meta_name.

(** The source alone: that of the attribute, and empty texts if there is none. *)
Theorem C83_source : forall getattr a,
  (forall l p, getattr (a ++ lit "_source__nxt") = Some (VTuple [l; p]) -> get_node_attr_source getattr a = Ok (l, p)) /\
  (getattr (a ++ lit "_source__nxt") = None -> get_node_attr_source getattr a = Ok (VStr [], VStr [])).
Proof. intros g a. unfold get_node_attr_source. change META_SOURCE with (lit "_source__nxt"). split; [intros l p ->|intros ->]; reflexivity. Qed.
Print Assumptions C83_source.

(** ** On the node of a layer *)

Definition plain_base (base : pystr -> option pyval) : Prop :=
  forall a m, In m [lit "_comment__nxt"; lit "_type__nxt"; lit "_source__nxt"] -> base (a ++ m) = None.
Lemma found_spec base n a : plain_base base -> (dget a n <> None \/ base a = None) -> found (spec_getattr base n) a = read n a.
Proof.
  intros P Ha. unfold found, read, spec_getattr. destruct (dget a n) as [v|]; [|destruct Ha as [Ha|Ha]; [congruence|now rewrite Ha]].
  f_equal. rewrite !P by (cbn; tauto). destruct (dget (a ++ lit "_comment__nxt") n), (dget (a ++ lit "_type__nxt") n), (dget (a ++ lit "_source__nxt") n); reflexivity.
Qed.
Theorem C83_layer_node : forall base n a, plain_base base -> ~ hidden a -> dget a n <> None \/ base a = None ->
  get_node_attr_data (spec_getattr base n) a = listed_as (read n a).
Proof. intros base n a P Ha Hb. rewrite C83_data by exact Ha. now rewrite found_spec. Qed.
Print Assumptions C83_layer_node.

Lemma listed_nodup o : NoDup (dkeys (listed_as o)).
Proof.
  destruct o as [[v [c|] [t|] [s|]]|]; cbn [listed_as comment source type value app dkeys map fst]; repeat constructor; cbn; intuition discriminate.
Qed.
Lemma listed_gets x : dget (lit "value") (listed_as (Some x)) = Some (value x) /\ dget (lit "comment") (listed_as (Some x)) = comment x /\
  dget (lit "type") (listed_as (Some x)) = type x.
Proof. destruct x as [v [c|] [t|] [s|]]; repeat split; reflexivity. Qed.

(** Giving another node an attribute with this data copies it: value, comment
    and type are the same, the source is the new place, and all else on that
    node is as it was. *)
Theorem C83_copy :
  forall base ud uw bi pl n a x n2 attr,
  plain_base base -> ~ hidden a -> read n a = Some x ->
  active pl = true -> attr <> [] -> ~ hidden (legal_form (isdigit ud) (is_word uw) attr) -> tidy n2 -> NoDup (dkeys n2) ->
  exists b n', add_node_attr ud uw bi pl n2 attr (get_node_attr_data (spec_getattr base n) a) true = Some (n', Ok b) /\
    read n2 b = None /\
    becomes b (Some (Attribute (value x) (comment x) (type x) (Some (VTuple [real pl; VStr (at_path pl)])))) n2 n' /\
    get_node_attr_data (spec_getattr base n') b =
      listed_as (Some (Attribute (value x) (comment x) (type x) (Some (VTuple [real pl; VStr (at_path pl)])))).
Proof.
  intros base ud uw bi pl n a x n2 attr P Ha R Hac Hat Hl T Nd.
  assert (D : dget a n <> None) by (unfold read in R; destruct (dget a n); [discriminate|discriminate R]).
  rewrite (C83_layer_node base n a P Ha (or_introl D)), R. destruct (listed_gets x) as (Gv & Gc & Gt).
  destruct (C46_add ud uw bi pl n2 attr (listed_as (Some x)) (value x) Hac Hat Hl T Nd (listed_nodup _) Gv)
    as (b & n' & E & _ & _ & Hb & Rb & _ & Be & _). rewrite Gc, Gt in Be. exists b, n'. split; [exact E|]. split; [exact Rb|]. split; [exact Be|].
  pose proof (Be b Hb) as Q. rewrite str_eqb_refl in Q. rewrite C83_layer_node; auto.
  - now rewrite Q.
  - left. unfold read in Q. destruct (dget b n'); [discriminate|discriminate Q].
Qed.
Print Assumptions C83_copy.

(** Finding: the name under which data is kept for an attribute that is not
    there, when a second suffix is on it, answers for another attribute. *)
Theorem C83_suffixes_refuted : exists n a,
  read n a = None /\ get_node_attr_data (spec_getattr (fun _ => None) n) a = [(lit "value", VStr (lit "1"))].
Proof. exists [(lit "x", VStr (lit "1"))], (lit "x_type__nxt_type__nxt"). split; vm_compute; reflexivity. Qed.
Print Assumptions C83_suffixes_refuted.

Example C83_sample :
  let n := [(lit "x", VStr (lit "1")); (lit "x_type__nxt", VStr (lit "int")); (lit "x_source__nxt", VTuple [VStr (lit "/l.nxt"); VStr (lit "/n")]); (lit "x_comment__nxt", VStr (lit "c"))] in
  plain_base (fun _ => None) /\ tidy n /\
  get_node_attr_data (spec_getattr (fun _ => None) n) (lit "x") =
    [(lit "comment", VStr (lit "c")); (lit "source", VTuple [VStr (lit "/l.nxt"); VStr (lit "/n")]); (lit "type", VStr (lit "int")); (lit "value", VStr (lit "1"))] /\
  get_node_attr_data (spec_getattr (fun _ => None) n) (lit "x_comment__nxt") = get_node_attr_data (spec_getattr (fun _ => None) n) (lit "x").
Proof.
  cbv zeta. split; [now intros a m _|]. split; [|split; vm_compute; reflexivity].
  intros a m Hm Hh. cbn [dget]. intros Q.
  assert (X : a = lit "x").
  { destruct (str_eqb (lit "x") (a ++ m)) eqn:E0; [apply str_eqb_eq in E0; exfalso; apply (f_equal (@length N)) in E0; rewrite app_length in E0; repeat destruct Hm as [<-|Hm]; try contradiction; vm_compute (length (lit _)) in E0; cbn in E0; lia|].
    assert (K : forall u : pystr, u ++ [] = u) by (intros; apply app_nil_r).
    assert (S : forall y, In y META_ALL -> lit "x" ++ y = a ++ m -> a = lit "x").
    { intros y Hy E. assert (O : y = m).
      { apply (f_equal (@rev N)) in E. rewrite !rev_app_distr in E.
        change META_ALL with [lit "_comment__nxt"; lit "_type__nxt"; lit "_source__nxt"] in Hy.
        repeat destruct Hm as [<-|Hm]; try contradiction; repeat destruct Hy as [<-|Hy]; try contradiction; try reflexivity; vm_compute in E; discriminate. }
      subst y. now apply app_inv_tail in E. }
    destruct (str_eqb (lit "x_type__nxt") (a ++ m)) eqn:E1; [apply str_eqb_eq in E1; apply (S (lit "_type__nxt")); [cbn; tauto|exact E1]|].
    destruct (str_eqb (lit "x_source__nxt") (a ++ m)) eqn:E2; [apply str_eqb_eq in E2; apply (S (lit "_source__nxt")); [cbn; tauto|exact E2]|].
    destruct (str_eqb (lit "x_comment__nxt") (a ++ m)) eqn:E3; [apply str_eqb_eq in E3; apply (S (lit "_comment__nxt")); [cbn; tauto|exact E3]|]. now destruct Q. }
  subst a. vm_compute. discriminate.
Qed.
