(** C46 and C47: editing a node's attributes and copying a node's data. *)

From Coq Require Import String List NArith ZArith Bool Lia.
From Verif Require Import PyStr PyStrFacts NxtPath Dict DictFacts PyVal NodeIO NodeIOProofs
  Names NamesSpec NamesProofs NodeEdit NodeEditSpec NodeEditProofs NodeCopyProofs.
Import ListNotations.

Notation digit ud := (isdigit ud).
Notation word uw := (is_word uw).

(** A node read from a file is tidy: no comment, type or source without its
    attribute (unless the file names an attribute like one of those). *)
Theorem C46_loaded_nodes_tidy :
  forall data real_path parent proxy n,
  (forall us u, dget (lit "attrs") data = Some (VDict us) -> In u (dkeys us) -> ~ hidden u) ->
  create_node data real_path parent proxy = Ok n -> tidy n /\ NoDup (dkeys n).
Proof. exact created_tidy. Qed.
Print Assumptions C46_loaded_nodes_tidy.

(** Adding an attribute: it gets a legal, free, unreserved name, the wanted one
    if that is free; it has the given value, comment and type and this node as
    its source; nothing else on the node changes. *)
Theorem C46_add :
  forall ud uw bi pl n attr data v,
  active pl = true -> attr <> [] -> ~ hidden (legal_form (digit ud) (word uw) attr) ->
  tidy n -> NoDup (dkeys n) -> NoDup (dkeys data) -> dget (lit "value") data = Some v ->
  exists a n',
    add_node_attr ud uw bi pl n attr data true = Some (n', Ok a) /\
    legal (digit ud) (word uw) a /\ ~ In a (PROTECTED bi) /\ ~ hidden a /\ read n a = None /\
    (read n (legal_form (digit ud) (word uw) attr) = None ->
     ~ In (legal_form (digit ud) (word uw) attr) (PROTECTED bi) ->
     a = legal_form (digit ud) (word uw) attr) /\
    becomes a (Some (Attribute v (dget (lit "comment") data) (dget (lit "type") data)
                               (Some (VTuple [real pl; VStr (at_path pl)])))) n n' /\
    local_names bi pl n' = local_names bi pl n ++ [a] /\ tidy n' /\ NoDup (dkeys n').
Proof. intros ud uw bi. exact (add_ok ud uw bi (fun _ => NotLiteral)). Qed.
Print Assumptions C46_add.

(** Deleting an attribute takes it away with its comment, type and source, and
    changes nothing else; deleting what is not there does nothing. *)
Theorem C46_delete :
  forall bi pl n a, ~ hidden a -> tidy n -> NoDup (dkeys n) ->
  (read n a <> None ->
   exists n', delete_node_attr bi n a = (n', Ok true) /\ becomes a None n n' /\
     (active pl = true ->
      local_names bi pl n' = filter (fun x => negb (str_eqb x a)) (local_names bi pl n)) /\
     tidy n' /\ NoDup (dkeys n')) /\
  (read n a = None -> ~ of_every_node bi a -> delete_node_attr bi n a = (n, Ok false)).
Proof.
  intros bi pl n a Hh T Hn. split; [intros Hr; now apply delete_ok|].
  intros Hr Hb. now apply delete_missing.
Qed.
Print Assumptions C46_delete.

(** Renaming an attribute moves its value, comment, type and source to the new
    name, which is legal and was free, and changes nothing else. *)
Theorem C46_rename :
  forall ud uw bi pl n a attr,
  active pl = true -> attr <> [] -> ~ hidden (legal_form (digit ud) (word uw) attr) ->
  tidy n -> NoDup (dkeys n) ->
  (user_attr (PROTECTED bi) n a ->
   exists x n', rename_node_attr ud uw bi pl n a attr = Some (n', Ok tt) /\
     legal (digit ud) (word uw) x /\ ~ In x (PROTECTED bi) /\ ~ hidden x /\ read n x = None /\
     (read n (legal_form (digit ud) (word uw) attr) = None ->
      ~ In (legal_form (digit ud) (word uw) attr) (PROTECTED bi) ->
      x = legal_form (digit ud) (word uw) attr) /\
     (forall b, ~ hidden b -> read n' b = if str_eqb b x then read n a
                                         else if str_eqb b a then None else read n b) /\
     local_names bi pl n' = filter (fun b => negb (str_eqb b a)) (local_names bi pl n) ++ [x] /\
     tidy n' /\ NoDup (dkeys n')) /\
  (~ user_attr (PROTECTED bi) n a -> rename_node_attr ud uw bi pl n a attr = Some (n, Ok tt)).
Proof.
  intros ud uw bi pl n a attr Hact Hne Hh T Hn. split; intros H.
  - now apply rename_ok.
  - now apply rename_missing.
Qed.
Print Assumptions C46_rename.

(** Setting the value or comment of an attribute the node has (a user
    attribute, or an internal one such as the comment or start point): a new
    value comes with its type and this node as its source; nothing else
    changes. *)
Theorem C46_set :
  forall ud uw bi literal_eval pl n a create values old,
  ~ In a HANDED_OVER -> ~ hidden a -> active pl = true ->
  (~ In a (PROTECTED bi) \/ In a TRACKED) -> read n a = Some old ->
  tidy n -> NoDup (dkeys n) -> NoDup (dkeys values) ->
  ~ In (lit "type") (dkeys values) -> ~ In (lit "source") (dkeys values) ->
  (forall s e, dget (lit "value") values = Some (VStr s) -> literal_eval s <> Breaks e) ->
  exists n', node_setattr_data ud uw bi literal_eval pl n a create values = Some (n', Ok tt) /\
  becomes a (Some
    {| value := match dget (lit "value") values with Some v => emptied v | None => value old end;
       comment := match dget (lit "comment") values with Some c => Some (emptied c) | None => comment old end;
       type := match dget (lit "value") values with
               | Some v => Some (VStr (type_of (fun s => match literal_eval s with Literal t => Some t | _ => None end)
                                               (emptied v)))
               | None => type old
               end;
       source := match dget (lit "value") values with
                 | Some _ => Some (VTuple [real pl; VStr (at_path pl)])
                 | None => source old
                 end |}) n n' /\
  local_names bi pl n' = local_names bi pl n /\ tidy n' /\ NoDup (dkeys n').
Proof.
  intros ud uw bi le pl n a create values old Hho Hh Hact Hp Ho T Hn Hd H1 H2 Hr.
  destruct (set_ok ud uw bi le pl n a create values old) as (n' & E & B & L & T' & N'); auto.
  { destruct Hp as [Hp|Hp]; [now left|right]. unfold ALL_INTERNAL. apply in_app_iff. now left. }
  exists n'. split; [exact E|]. split; [|auto].
  assert (Ht : tracked_attr bi a = true).
  { unfold tracked_attr. destruct Hp as [Hp|Hp].
    - now rewrite (proj2 (str_in_not_In _ _) Hp).
    - apply str_in_In in Hp. rewrite Hp. apply orb_true_r. }
  rewrite Ht in B.
  destruct (dget (lit "value") values); destruct (dget (lit "comment") values); exact B.
Qed.
Print Assumptions C46_set.

(** An attribute the node does not have is left alone unless it is to be
    created; created under a legal, free name, it is there with the given value
    and comment (an empty text and None count as the same). *)
Theorem C46_set_missing :
  forall ud uw bi literal_eval pl n a values,
  active pl = true ->
  (~ In a HANDED_OVER -> ~ In a ALL_INTERNAL -> ~ user_attr (PROTECTED bi) n a ->
   node_setattr_data ud uw bi literal_eval pl n a false values = Some (n, Ok tt)) /\
  (forall v, legal (digit ud) (word uw) a -> ~ hidden a -> ~ In a (PROTECTED bi) -> read n a = None ->
   tidy n -> NoDup (dkeys n) -> NoDup (dkeys values) ->
   ~ In (lit "type") (dkeys values) -> ~ In (lit "source") (dkeys values) ->
   dget (lit "value") values = Some v ->
   (forall s e, v = VStr s -> literal_eval s <> Breaks e) ->
   exists n' x, node_setattr_data ud uw bi literal_eval pl n a true values = Some (n', Ok tt) /\
     becomes a (Some x) n n' /\
     (value x = v \/ value x = emptied v) /\
     option_map emptied (comment x) = option_map emptied (dget (lit "comment") values) /\
     (type x = None \/
      type x = Some (VStr (type_of (fun s => match literal_eval s with Literal t => Some t | _ => None end) (emptied v)))) /\
     source x = Some (VTuple [real pl; VStr (at_path pl)]) /\
     local_names bi pl n' = local_names bi pl n ++ [a] /\ tidy n' /\ NoDup (dkeys n')).
Proof.
  intros ud uw bi le pl n a values Hact. split.
  - intros H1 H2 H3. now apply set_missing.
  - intros v Hl Hh Hp Hr T Hn Hd H1 H2 Hv Hb.
    destruct (create_ok ud uw bi le pl n a values v) as (n' & x & E & B & X1 & X2 & X3 & X4 & L & T' & N'); auto.
    { intros s e K. apply Hb. congruence. }
    exists n', x. repeat (split; [assumption|]). auto.
Qed.
Print Assumptions C46_set_missing.

(** Any history of such edits keeps the node tidy. *)
Inductive attr_edit :=
| AddAttr (attr : pystr) (data : dict pyval)
| SetAttr (a : pystr) (values : dict pyval)
| RenameAttr (a new : pystr)
| DeleteAttr (a : pystr).

Section Histories.
Variables ud uw : N -> bool.
Variable bi : list pystr.
Variable literal_eval : pystr -> literal.

Definition sound_edit (e : attr_edit) : Prop :=
  match e with
  | AddAttr a data => a <> [] /\ ~ hidden (legal_form (digit ud) (word uw) a) /\ NoDup (dkeys data) /\
                      dget (lit "value") data <> None
  | SetAttr a values => ~ hidden a /\ ~ In a (PROTECTED bi) /\ NoDup (dkeys values) /\
      ~ In (lit "type") (dkeys values) /\ ~ In (lit "source") (dkeys values) /\
      (forall s e, dget (lit "value") values = Some (VStr s) -> literal_eval s <> Breaks e)
  | RenameAttr a new => new <> [] /\ ~ hidden (legal_form (digit ud) (word uw) new)
  | DeleteAttr a => ~ hidden a /\ ~ of_every_node bi a
  end.

Definition edited (pl : place) (n : node) (e : attr_edit) : node :=
  match e with
  | AddAttr a data => match add_node_attr ud uw bi pl n a data true with Some (n', _) => n' | None => n end
  | SetAttr a values => match node_setattr_data ud uw bi literal_eval pl n a false values with
                        | Some (n', _) => n' | None => n end
  | RenameAttr a new => match rename_node_attr ud uw bi pl n a new with Some (n', _) => n' | None => n end
  | DeleteAttr a => fst (delete_node_attr bi n a)
  end.

Theorem C46_history_tidy :
  forall pl edits n, active pl = true -> Forall sound_edit edits ->
  tidy n -> NoDup (dkeys n) ->
  tidy (fold_left (edited pl) edits n) /\ NoDup (dkeys (fold_left (edited pl) edits n)).
Proof.
  intros pl edits n Hact F. revert n. induction F as [|e edits He F IH]; intros n T Hn; [split; assumption|].
  cbn [fold_left]. assert (K : tidy (edited pl n e) /\ NoDup (dkeys (edited pl n e))); [|destruct K; now apply IH].
  destruct e as [a data|a values|a new|a]; cbn [edited sound_edit] in *.
  - destruct He as (H1 & H2 & H3 & H4). destruct (dget (lit "value") data) as [v|] eqn:Ev; [|congruence].
    destruct (add_ok ud uw bi literal_eval pl n a data v) as (x & n' & E & _ & _ & _ & _ & _ & _ & _ & T' & N'); auto.
    rewrite E. auto.
  - destruct He as (H1 & H2 & H3 & H4 & H5 & H6).
    assert (Hi : ~ In a ALL_INTERNAL).
    { intros H. apply H2. unfold PROTECTED. rewrite in_app_iff. right. unfold ALL_INTERNAL in H.
      rewrite app_assoc. apply in_app_iff. now left. }
    assert (Hh : ~ In a HANDED_OVER) by (intros H; apply Hi; revert H; cbn; tauto).
    destruct (read n a) as [old|] eqn:Er.
    + destruct (set_ok ud uw bi literal_eval pl n a false values old) as (n' & E & _ & _ & T' & N'); auto.
      rewrite E. auto.
    + rewrite set_missing; auto. intros [H _]. congruence.
  - destruct He as [H1 H2].
    destruct (in_dec (list_eq_dec N.eq_dec) a (local_names bi pl n)) as [Hi|Hi].
    + apply local_names_iff in Hi; [|exact Hact].
      destruct (rename_ok ud uw bi pl n a new) as (x & n' & E & _ & _ & _ & _ & _ & _ & _ & T' & N'); auto.
      rewrite E. auto.
    + rewrite rename_missing; auto. intros H. apply Hi. now apply local_names_iff.
  - destruct He as [H1 H2]. destruct (read n a) eqn:Er.
    + destruct (delete_ok bi pl n a) as (n' & E & _ & _ & T' & N'); auto; [congruence|]. rewrite E. auto.
    + rewrite delete_missing; auto.
Qed.
End Histories.
Print Assumptions C46_history_tidy.

(** *** A node to try them on *)

Definition nodigit : N -> bool := fun _ => false.
Definition dunders : list pystr := map lit ["__class__"; "__doc__"; "__name__"]%string.
Definition lits (s : pystr) : literal :=
  if str_eqb s (lit "5") then Literal (lit "int")
  else if str_eqb s (lit "{[]: 1}") then Breaks TypeError else NotLiteral.
Definition spot : place := {| real := VStr (lit "/g.nxt"); at_path := lit "/n"; active := true |}.
Definition muted_spot : place := {| real := VStr (lit "/g.nxt"); at_path := lit "/n"; active := false |}.
Definition one_data : dict pyval :=
  [(lit "name", VStr (lit "n"));
   (lit "attrs", VDict [(lit "a", VDict [(lit "comment", VStr (lit "c")); (lit "type", VStr (lit "raw"));
                                         (lit "value", VStr (lit "x"))]);
                        (lit "b", VDict [(lit "value", VStr (lit "y"))])])].
Definition one : node :=
  match create_node one_data (VStr (lit "/g.nxt")) (lit "/") false with Ok n => n | Raise _ => [] end.
Definition here_src : pyval := VTuple [VStr (lit "/g.nxt"); VStr (lit "/n")].

Lemma one_tidy : tidy one /\ NoDup (dkeys one).
Proof.
  apply (created_tidy one_data (VStr (lit "/g.nxt")) (lit "/") false); [|vm_compute; reflexivity].
  intros us u [= <-] [<-|[<-|[]]] [b E];
    apply (f_equal (@length N)) in E; rewrite app_length in E; cbn in E; lia.
Qed.

Definition node_of {A} (r : option (node * A)) : node := match r with Some (n, _) => n | None => [] end.

Example C46_ex :
  tidy one /\ local_names dunders spot one = [lit "a"; lit "b"] /\
  read one (lit "a") = Some (Attribute (VStr (lit "x")) (Some (VStr (lit "c"))) (Some (VStr (lit "raw"))) (Some here_src)) /\
  (* adding a third attribute under a taken name *)
  (let n := node_of (add_node_attr nodigit nodigit dunders spot one (lit "a") [(lit "value", VInt 3)] true) in
   local_names dunders spot n = [lit "a"; lit "b"; lit "a2"] /\
   read n (lit "a2") = Some (Attribute (VInt 3) None None (Some here_src)) /\
   read n (lit "a") = read one (lit "a")) /\
  (* renaming a to c *)
  (let n := node_of (rename_node_attr nodigit nodigit dunders spot one (lit "a") (lit "c")) in
   local_names dunders spot n = [lit "b"; lit "c"] /\ read n (lit "c") = read one (lit "a") /\
   read n (lit "a") = None) /\
  (* setting a value *)
  (let n := node_of (node_setattr_data nodigit nodigit dunders lits spot one (lit "b") false [(lit "value", VStr (lit "5"))]) in
   read n (lit "b") = Some (Attribute (VStr (lit "5")) None (Some (VStr (lit "int"))) (Some here_src))) /\
  (* deleting *)
  local_names dunders spot (fst (delete_node_attr dunders one (lit "a"))) = [lit "b"].
Proof. split; [apply one_tidy|]. repeat split; vm_compute; reflexivity. Qed.

(** An attribute whose wanted name ends like nxt's own names is accepted under
    that name: it is no attribute afterwards, and another one's comment has
    become its value. *)
Theorem C46_add_hidden_name_refuted :
  exists bi pl n data,
    tidy n /\ active pl = true /\
    exists n', add_node_attr nodigit nodigit bi pl n (lit "a_comment__nxt") data true = Some (n', Ok (lit "a_comment__nxt")) /\
    local_names bi pl n' = local_names bi pl n /\
    option_map comment (read n (lit "a")) <> option_map comment (read n' (lit "a")).
Proof.
  exists dunders, spot, one, [(lit "value", VInt 1)]. split; [apply one_tidy|]. split; [reflexivity|].
  eexists. split; [vm_compute; reflexivity|]. split; [vm_compute; reflexivity|]. vm_compute. discriminate.
Qed.
Print Assumptions C46_add_hidden_name_refuted.

(** On a muted layer names in use are not seen: adding an attribute replaces
    the one of that name. *)
Theorem C46_add_muted_refuted :
  exists bi pl n data,
    tidy n /\ active pl = false /\ read n (lit "a") <> None /\
    exists n', add_node_attr nodigit nodigit bi pl n (lit "a") data true = Some (n', Ok (lit "a")) /\
    option_map value (read n' (lit "a")) = Some (VInt 1) /\ option_map value (read n (lit "a")) = Some (VStr (lit "x")).
Proof.
  exists dunders, muted_spot, one, [(lit "value", VInt 1)]. split; [apply one_tidy|]. split; [reflexivity|].
  split; [vm_compute; discriminate|]. eexists. split; [vm_compute; reflexivity|]. split; vm_compute; reflexivity.
Qed.
Print Assumptions C46_add_muted_refuted.

(** Renaming an attribute to the name it has gives it another name. *)
Theorem C46_rename_to_itself_refuted :
  forall ud uw bi pl n a,
  active pl = true -> legal (digit ud) (word uw) a -> tidy n -> NoDup (dkeys n) ->
  user_attr (PROTECTED bi) n a ->
  exists n', rename_node_attr ud uw bi pl n a a = Some (n', Ok tt) /\ read n' a = None.
Proof.
  intros ud uw bi pl n a Hact Hl T Hn Hu. destruct Hu as (Hr & Hh & Hp).
  assert (Hf : legal_form (digit ud) (word uw) a = a) by now apply legal_form_id.
  destruct (rename_ok ud uw bi pl n a a) as (x & n' & E & _ & _ & _ & Hx & _ & R & _).
  - exact Hact.
  - destruct Hl as (c & t & -> & _). discriminate.
  - now rewrite Hf.
  - exact T.
  - exact Hn.
  - split; auto.
  - exists n'. split; [exact E|]. rewrite R by exact Hh. destruct (str_eqb_spec a x) as [->|]; [congruence|].
    now rewrite str_eqb_refl.
Qed.
Print Assumptions C46_rename_to_itself_refuted.

(** An attribute created by setting its value has no type, whatever the value;
    setting the same value again records one. *)
Theorem C46_created_type_refuted :
  exists bi le pl n v n' n'',
    tidy n /\ active pl = true /\
    node_setattr_data nodigit nodigit bi le pl n (lit "c") true [(lit "value", v)] = Some (n', Ok tt) /\
    option_map type (read n' (lit "c")) = Some None /\
    node_setattr_data nodigit nodigit bi le pl n' (lit "c") true [(lit "value", v)] = Some (n'', Ok tt) /\
    option_map type (read n'' (lit "c")) = Some (Some (VStr (lit "int"))).
Proof.
  exists dunders, lits, spot, one, (VStr (lit "5")). eexists. eexists.
  split; [apply one_tidy|]. split; [reflexivity|]. split; [vm_compute; reflexivity|].
  split; [vm_compute; reflexivity|]. split; vm_compute; reflexivity.
Qed.
Print Assumptions C46_created_type_refuted.

(** Creating an attribute under a name that is not legal, with a comment and a
    value, makes two attributes: one under the legal form of the name and one
    under the name as given. *)
Theorem C46_created_twice_refuted :
  exists bi le pl n n',
    tidy n /\ active pl = true /\
    node_setattr_data nodigit nodigit bi le pl n (lit "my attr") true
      [(lit "comment", VStr (lit "c")); (lit "value", VInt 1)] = Some (n', Ok tt) /\
    local_names bi pl n' = local_names bi pl n ++ [lit "my_attr"; lit "my attr"].
Proof.
  exists dunders, lits, spot, one. eexists. split; [apply one_tidy|]. split; [reflexivity|].
  split; vm_compute; reflexivity.
Qed.
Print Assumptions C46_created_twice_refuted.

(** A text that looks like a Python display with an unhashable key makes the
    edit fail half way: the value is replaced, its type and source are not. *)
Theorem C46_set_fails_half_way_refuted :
  exists bi le pl n n' e,
    tidy n /\ active pl = true /\
    node_setattr_data nodigit nodigit bi le pl n (lit "b") false [(lit "value", VStr (lit "{[]: 1}"))] = Some (n', Raise e) /\
    option_map value (read n' (lit "b")) = Some (VStr (lit "{[]: 1}")) /\
    option_map type (read n' (lit "b")) = option_map type (read n (lit "b")) /\
    option_map source (read n' (lit "b")) = option_map source (read n (lit "b")).
Proof.
  exists dunders, lits, spot, one. eexists. eexists. split; [apply one_tidy|]. split; [reflexivity|].
  split; [vm_compute; reflexivity|]. repeat split; vm_compute; reflexivity.
Qed.
Print Assumptions C46_set_fails_half_way_refuted.

(** Adding an attribute without a value leaves a comment that belongs to no
    attribute; the next attribute of that name gets it. *)
Theorem C46_add_without_value_refuted :
  exists bi pl n n' n'',
    tidy n /\ active pl = true /\
    add_node_attr nodigit nodigit bi pl n (lit "c") [(lit "comment", VStr (lit "old"))] true = Some (n', Ok (lit "c")) /\
    read n' (lit "c") = None /\
    add_node_attr nodigit nodigit bi pl n' (lit "c") [(lit "value", VInt 1)] true = Some (n'', Ok (lit "c")) /\
    option_map comment (read n'' (lit "c")) = Some (Some (VStr (lit "old"))).
Proof.
  exists dunders, spot, one. eexists. eexists. split; [apply one_tidy|]. split; [reflexivity|].
  split; [vm_compute; reflexivity|]. split; [vm_compute; reflexivity|]. split; vm_compute; reflexivity.
Qed.
Print Assumptions C46_add_without_value_refuted.

(** *** Copying *)

(** What a node shows of one of its attributes: None as an empty text, other
    empty values as the text Python writes for them. *)
Definition shown (to_str : pyval -> pystr) (n : node) (a : pystr) : pyval :=
  match dget a n with
  | None | Some VNone => VStr []
  | Some v => if truthy v then v else VStr (to_str v)
  end.

(** What a node says that has no word of its own on an internal attribute. *)
Definition unsaid (a : pystr) : pyval :=
  match dget a [(lit "_name", VStr (lit "node")); (lit "_parent_path", VStr (lit "/"));
                (lit "_child_order", VList []); (lit "_proxy", VBool false);
                (lit "_enabled", VBool true)] with
  | Some v => v | None => VNone end.

(** Copying a node's data onto another node: every internal attribute the
    source has something to say about, and the enabled state in any case, is
    that of the source; every user attribute of the source is there with its
    value and comment; everything else on the target stays. *)
Theorem C47_transfer :
  forall ud uw bi literal_eval to_str pl tn from sn,
  (forall a, In a bi -> exists s, a = lit "__" ++ s) ->
  active pl = true -> active from = true -> tidy tn -> NoDup (dkeys tn) -> NoDup (dkeys sn) ->
  (forall a, user_attr (PROTECTED bi) sn a ->
     legal (digit ud) (word uw) a /\
     forall s e, shown to_str sn a = VStr s -> literal_eval s <> Breaks e) ->
  exists n', transfer_node_data ud uw bi literal_eval to_str pl tn from sn = Some (n', Ok tt) /\
    (forall a, In a ALL_INTERNAL ->
       let v := match dget a sn with Some v => v | None => unsaid a end in
       dget a n' = if (negb (match v with VNone | VList [] => true | _ => false end) || str_eqb a (lit "_enabled"))
                   then Some v else dget a tn) /\
    (forall a, user_attr (PROTECTED bi) sn a -> exists x,
       read n' a = Some x /\ emptied (value x) = emptied (shown to_str sn a) /\
       option_map emptied (comment x)
         = Some (match dget (a ++ lit "_comment__nxt") sn with Some c => emptied c | None => VNone end) /\
       source x = Some (VTuple [real pl; VStr (at_path pl)])) /\
    (forall a, ~ hidden a -> ~ In a ALL_INTERNAL -> ~ user_attr (PROTECTED bi) sn a ->
       read n' a = read tn a) /\
    tidy n' /\ NoDup (dkeys n').
Proof.
  intros ud uw bi le ts pl tn from sn Hd Hact Hfr T Hn Hsn Hu.
  assert (Hs : forall a, raw_value ts sn a = shown ts sn a).
  { intros a. unfold raw_value, shown. destruct (dget a sn) as [v|]; [|reflexivity]. now destruct v. }
  destruct (copy_ok ud uw bi le ts Hd pl tn from sn) as (n' & E & A1 & A2 & A3 & A4 & A5); auto.
  { intros a Ha. destruct (Hu a Ha) as [H1 H2]. split; [exact H1|]. intros s e K. injection K as K.
    rewrite Hs in K. now apply H2. }
  exists n'. split; [exact E|]. split; [|split; [|split; [exact A3|split; assumption]]].
  - intros a Ha. cbv zeta. rewrite A1 by exact Ha. unfold takes, internal_value, has_opinion.
    assert (Hb : unsaid a = base_value a).
    { revert Ha. unfold ALL_INTERNAL, unsaid. intros Ha. cbn in Ha.
      repeat (destruct Ha as [<-|Ha]; [vm_compute; reflexivity|]). destruct Ha. }
    rewrite Hb.
    destruct (dget a sn) as [v|]; [destruct v as [| | | |[|]| | |]|destruct (base_value a) as [| | | |[|]| | |]]; reflexivity.
  - intros a Ha. destruct (A2 a Ha) as (x & R & C1 & C2 & C3). exists x. split; [exact R|].
    rewrite <- Hs. split; [exact C1|]. split; [|exact C3].
    etransitivity; [exact C2|]. unfold attr_or_none. change META_COMMENT with (lit "_comment__nxt").
    now destruct (dget (a ++ lit "_comment__nxt") sn).
Qed.
Print Assumptions C47_transfer.

Definition other : node :=
  match create_node [(lit "name", VStr (lit "m")); (lit "comment", VStr (lit "mine"));
                     (lit "attrs", VDict [(lit "b", VDict [(lit "value", VStr (lit "z"))]);
                                          (lit "d", VDict [(lit "value", VInt 7)])])]
                    (VStr (lit "/h.nxt")) (lit "/") false with
  | Ok n => n | Raise _ => []
  end.
Definition other_spot : place := {| real := VStr (lit "/h.nxt"); at_path := lit "/m"; active := true |}.

Example C47_ex :
  let n := node_of (transfer_node_data nodigit nodigit dunders lits (fun _ => []) other_spot other spot one) in
  local_names dunders other_spot n = [lit "b"; lit "d"; lit "a"] /\
  option_map value (read n (lit "b")) = Some (VStr (lit "y")) /\
  option_map value (read n (lit "d")) = Some (VInt 7) /\
  option_map source (read n (lit "a")) = Some (Some (VTuple [VStr (lit "/h.nxt"); VStr (lit "/m")])) /\
  dget (lit "_comment") n = Some (VStr (lit "mine")).
Proof. repeat split; vm_compute; reflexivity. Qed.

(** Copying onto a node also makes it answer with the source's name and layer,
    while its layer goes on listing it where it was. *)
Theorem C47_target_keeps_its_name_refuted :
  exists bi le ts pl tn from sn n',
    transfer_node_data nodigit nodigit bi le ts pl tn from sn = Some (n', Ok tt) /\
    dget (lit "_name") tn = Some (VStr (lit "m")) /\ dget (lit "_name") n' = Some (VStr (lit "n")) /\
    dget (lit "_source_layer") tn = Some (VStr (lit "/h.nxt")) /\
    dget (lit "_source_layer") n' = Some (VStr (lit "/g.nxt")).
Proof.
  exists dunders, lits, (fun _ => []), other_spot, other, spot, one. eexists.
  split; [vm_compute; reflexivity|]. repeat split; vm_compute; reflexivity.
Qed.
Print Assumptions C47_target_keeps_its_name_refuted.
