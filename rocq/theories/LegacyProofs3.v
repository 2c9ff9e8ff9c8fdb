(** Files before 1.0, and the whole conversion. *)

From Coq Require Import String List NArith ZArith Bool Lia.
From Verif Require Import PyStr PyStrFacts Dict DictFacts PyVal PyValFacts Legacy LegacySpec LegacyProofs LegacyProofs2.
Import ListNotations.

Lemma put_op_get k v flat k' :
  dget k' (put_op k v flat) =
  if str_eqb (lit k) k' then match not_empty v with Some x => Some x | None => dget k' flat end else dget k' flat.
Proof.
  destruct v as [[| | | |[]|[]|[]|]|]; cbn [put_op has_op not_empty]; rewrite ?dget_dset; destruct (str_eqb (lit k) k'); auto.
Qed.
Lemma put_op_proper k v flat : proper (VDict flat) -> (forall x, v = Some x -> proper x) ->
  proper (VDict (put_op k v flat)).
Proof. intros H G. destruct v as [x|]; cbn [put_op]; auto. destruct (has_op x); auto. apply proper_dset; auto. Qed.

Lemma in_starts starts path :
  existsb (fun s => match s with VStr s => str_eqb s path | _ => false end) starts = true <-> In (VStr path) starts.
Proof.
  rewrite existsb_exists. split.
  - intros (x & Hi & Hx). destruct x; try discriminate. apply str_eqb_eq in Hx as ->. auto.
  - intros H. exists (VStr path). split; auto. apply str_eqb_refl.
Qed.

Definition set_all (l : list (pystr * option pyval)) (acc : dict pyval) : dict pyval :=
  fold_left (fun f kv => set_opt (fst kv) (snd kv) f) l acc.
Lemma set_all_get l : NoDup (map fst l) -> forall acc k v, In (k, v) l -> ~ In k (dkeys acc) ->
  dget k (set_all l acc) = v.
Proof.
  assert (O : forall l acc k, ~ In k (map fst l) -> dget k (set_all l acc) = dget k acc).
  { clear. induction l as [|[k0 v0] l IH]; intros acc k H; cbn; auto. cbn in H. unfold set_all in IH. rewrite IH by tauto.
    destruct v0; cbn [set_opt]; auto. rewrite dget_dset_other; auto. }
  induction l as [|[k0 v0] l IH]; intros Hn acc k v Hi Hk; [destruct Hi|]. inversion Hn as [|? ? N1 N2]; subst.
  destruct Hi as [E|Hi].
  - injection E as -> ->. cbn. unfold set_all in O. rewrite O by auto. destruct v; cbn [set_opt].
    + apply dget_dset_same.
    + now apply dget_none.
  - cbn. unfold set_all in IH. apply IH; auto. cbn in N1.
    assert (k <> k0) by (intros ->; apply N1; now apply (in_map fst) in Hi).
    destruct v0; cbn [set_opt]; auto. rewrite in_dkeys_dset. tauto.
Qed.
Lemma set_all_other l k : ~ In k (map fst l) -> forall acc, dget k (set_all l acc) = dget k acc.
Proof.
  intros H. induction l as [|[k0 v0] l IH]; intros acc; cbn; auto. cbn in H. unfold set_all in IH. rewrite IH by tauto.
  destruct v0; cbn [set_opt]; auto. rewrite dget_dset_other; auto.
Qed.
Lemma set_all_proper l : (forall k v, In (k, Some v) l -> proper v) -> forall acc, proper (VDict acc) ->
  proper (VDict (set_all l acc)).
Proof.
  induction l as [|[k v] l IH]; intros H acc Ha; cbn; auto. unfold set_all in IH. apply IH.
  - intros k' v' Hi. apply (H k'). now right.
  - destruct v as [v|]; cbn [set_opt]; auto. apply proper_dset; auto. apply (H k). now left.
Qed.

Definition flat_parts (starts : list pyval) (d data : dict pyval) (path : pystr) : list (pystr * option pyval) :=
  [(lit "widget_type", not_empty (dget (lit "widget_type") data));
   (lit "execute_in", not_empty (dget (lit "execute_in") d));
   (lit "instance", not_empty (dget (lit "instance") data));
   (lit "enabled", not_none (dget (lit "enabled") data));
   (lit "code", not_empty (dget (lit "compute") data));
   (lit "comment", not_empty (dget (lit "comment") d));
   (lit "attrs", not_empty (dget (lit "attributes") data));
   (lit "child_order", not_empty (dget (lit "execute_order") d));
   (lit "start_point", if existsb (fun s => match s with VStr s => str_eqb s path | _ => false end) starts
                       then Some (VBool true) else None)].
Lemma put_op_set k v f : put_op k v f = set_opt (lit k) (not_empty v) f.
Proof. destruct v as [[| | | |[]|[]|[]|]|]; reflexivity. Qed.
Lemma flat_set starts d data path : flat_node starts d data path = set_all (flat_parts starts d data path) [].
Proof.
  unfold flat_node, flat_parts, set_all. cbn zeta. cbn [fold_left fst snd]. rewrite <- !put_op_set.
  destruct (existsb _ starts); cbn [set_opt]; repeat f_equal;
  destruct (dget (lit "enabled") data) as [[| | | | | | |]|]; reflexivity.
Qed.

Lemma flat_ok starts d path :
  flattened starts path d (flat_node starts d (dict_at (lit "data") d) path).
Proof.
  rewrite flat_set. unfold flattened. cbn zeta. set (data := dict_at (lit "data") d). clearbody data.
  assert (G : forall k v, In (k, v) (flat_parts starts d data path) -> dget k (set_all (flat_parts starts d data path) []) = v).
  { intros k v H. apply set_all_get; auto. change (map fst (flat_parts starts d data path)) with
      (map lit ["widget_type"; "execute_in"; "instance"; "enabled"; "code"; "comment"; "attrs"; "child_order"; "start_point"]%string).
    nodup_lits. }
  split; [apply G; unfold flat_parts; now left|].
  split; [apply G; unfold flat_parts; do 1 right; now left|].
  split; [apply G; unfold flat_parts; do 2 right; now left|].
  split; [apply G; unfold flat_parts; do 3 right; now left|].
  split; [apply G; unfold flat_parts; do 4 right; now left|].
  split; [apply G; unfold flat_parts; do 5 right; now left|].
  split; [apply G; unfold flat_parts; do 6 right; now left|].
  split; [apply G; unfold flat_parts; do 7 right; now left|].
  split; [|split].
  - intros H. apply in_starts in H. apply G. unfold flat_parts. rewrite H. do 8 right. now left.
  - intros H. rewrite <- in_starts in H. apply not_true_is_false in H. apply G. unfold flat_parts. rewrite H. do 8 right. now left.
  - intros k Hk. now rewrite set_all_other by exact Hk.
Qed.
Lemma not_empty_inv v x : not_empty v = Some x -> v = Some x.
Proof. destruct v as [[| | | |[]|[]|[]|]|]; cbn; congruence. Qed.
Lemma not_none_inv v x : not_none v = Some x -> v = Some x.
Proof. destruct v as [[| | | | | | |]|]; cbn; congruence. Qed.
Lemma flat_proper starts d data path : proper (VDict d) -> proper (VDict data) ->
  proper (VDict (flat_node starts d data path)).
Proof.
  intros Hd Hp. rewrite flat_set. apply set_all_proper; [|apply proper_nil].
  intros k v Hi. unfold flat_parts in Hi. cbn [In] in Hi.
  repeat (destruct Hi as [E|Hi]; [injection E as _ E;
    first [apply not_empty_inv in E; eapply proper_get; [|exact E]; assumption
          |apply not_none_inv in E; eapply proper_get; [|exact E]; assumption
          |destruct (existsb _ starts); [injection E as <-; exact I|discriminate]]|]).
  destruct Hi.
Qed.

Lemma unpack_eq starts pre d :
  unpack starts pre (VDict d) =
  match dget (lit "data") d with
  | Some (VDict data) =>
      match dget (lit "name") d with
      | Some (VStr name) =>
          bind (match dget (lit "children") d with
                | None => Ok []
                | Some (VList l) => unpack_all starts ((pre ++ name) ++ [SLASHC]) l
                | Some _ => Raise TypeError
                end) (fun below => Ok ((pre ++ name, VDict (flat_node starts d data (pre ++ name))) :: below))
      | Some _ => Raise TypeError
      | None => Raise KeyError
      end
  | Some _ => Raise AttributeError
  | None => Raise KeyError
  end.
Proof.
  cbn [unpack]. destruct (dget (lit "data") d) as [[| | | | | |data|]|]; auto.
  destruct (dget (lit "name") d) as [[| | |name| | | |]|]; auto.
  f_equal. generalize d. intros e.
  induction e as [|[k v] t IH]; [reflexivity|]. cbn [dget]. destruct (str_eqb k (lit "children")); [|exact IH].
  destruct v; reflexivity.
Qed.

Definition entry starts p o : pystr * pyval := (p, VDict (flat_node starts o (dict_at (lit "data") o) p)).

Lemma old_node_in pre l p o : old_node pre l p o -> exists x, In x l /\ old_node pre [x] p o.
Proof.
  destruct 1 as [pre l d name Hi Hn|pre l d name l' p e Hi Hn Hc Ho]; exists (VDict d); split; auto.
  - constructor; auto. now left.
  - econstructor; eauto. now left.
Qed.
Lemma old_node_incl pre l m p o : incl l m -> old_node pre l p o -> old_node pre m p o.
Proof. intros H. destruct 1; econstructor; eauto. Qed.

Definition unpack_claim starts (nd : pyval) : Prop := forall pre es, unpack starts pre nd = Ok es ->
  forall x, In x es <-> exists p o, x = entry starts p o /\ old_node pre [nd] p o.

Lemma unpack_all_ok starts l : Forall (unpack_claim starts) l -> forall pre es, unpack_all starts pre l = Ok es ->
  forall x, In x es <-> exists p o, x = entry starts p o /\ old_node pre l p o.
Proof.
  induction 1 as [|nd l H _ IH]; intros pre es E x; cbn [unpack_all] in E.
  - injection E as <-. split; [intros []|]. intros (p & o & _ & Ho). apply old_node_in in Ho as (? & [] & _).
  - destruct (unpack starts pre nd) as [a|] eqn:Ea; [|discriminate]. cbn [bind] in E.
    change (bind (unpack_all starts pre l) (fun b => Ok (a ++ b)) = Ok es) in E.
    destruct (unpack_all starts pre l) as [b|] eqn:Eb; [|discriminate]. cbn [bind] in E. injection E as <-.
    rewrite in_app_iff, (H _ _ Ea), (IH _ _ Eb). split.
    + intros [(p & o & -> & Ho)|(p & o & -> & Ho)]; exists p, o; split; auto.
      * eapply old_node_incl; [|exact Ho]. intros y [<-|[]]. now left.
      * eapply old_node_incl; [|exact Ho]. intros y Hy. now right.
    + intros (p & o & -> & Ho). apply old_node_in in Ho as (y & [<-|Hy] & Ho); [left|right]; exists p, o; split; auto.
      eapply old_node_incl; [|exact Ho]. intros z [<-|[]]. auto.
Qed.

Lemma unpack_ok starts nd : unpack_claim starts nd.
Proof.
  enough (G : unpack_claim starts nd /\ forall l, nd = VList l -> Forall (unpack_claim starts) l) by apply G.
  induction nd as [| | | | |l IH|l IH|d IH] using pyval_ind2;
    try (split; [intros pre es E; discriminate|intros l0 E; discriminate]).
  - split; [intros pre es E; discriminate|]. intros l0 E. injection E as <-. eapply Forall_impl; [|exact IH]. intros a H. apply H.
  - split; [|intros l0 E; discriminate].
    intros pre es. rewrite unpack_eq.
    destruct (dget (lit "data") d) as [[| | | | | |data|]|] eqn:Ed; try discriminate.
    destruct (dget (lit "name") d) as [[| | |name| | | |]|] eqn:En; try discriminate.
    assert (Hf : flat_node starts d data (pre ++ name) = flat_node starts d (dict_at (lit "data") d) (pre ++ name))
      by (unfold dict_at; now rewrite Ed). rewrite Hf. clear Hf.
    assert (Down : forall p o, old_node pre [VDict d] p o ->
       (p = pre ++ name /\ o = d) \/ exists l', dget (lit "children") d = Some (VList l') /\
                                               old_node (pre ++ name ++ [slash]) l' p o).
    { intros p o Ho. inversion Ho as [? ? ? ? Hi Hn|? ? ? ? ? ? ? Hi Hn Hc Hb]; subst; destruct Hi as [E|[]]; injection E as <-;
      rewrite En in Hn; injection Hn as <-; [left; auto|right; eauto]. }
    assert (Here : old_node pre [VDict d] (pre ++ name) d) by (constructor; auto; now left).
    destruct (dget (lit "children") d) as [cv|] eqn:Ec.
    + destruct cv as [| | | |l'| | |]; try discriminate.
      assert (HF : Forall (unpack_claim starts) l').
      { apply dget_In in Ec. rewrite Forall_forall in IH. now apply (IH _ Ec). }
      destruct (unpack_all starts ((pre ++ name) ++ [SLASHC]) l') as [below|] eqn:Eb; [|discriminate].
      cbn [bind]. intros H. injection H as <-. intros x. pose proof (unpack_all_ok starts l' HF _ _ Eb x) as G.
      rewrite <- app_assoc in G. cbn [In]. split.
      * intros [<-|Hi]; [exists (pre ++ name), d; auto|]. apply G in Hi as (p & o & -> & Ho). exists p, o. split; auto.
        econstructor; eauto. now left.
      * intros (p & o & -> & Ho). apply Down in Ho as [[-> ->]|(l2 & El & Ho)]; [now left|].
        injection El as <-. right. apply G. eauto.
    + cbn [bind]. intros H. injection H as <-. intros x. cbn [In]. split.
      * intros [<-|[]]. exists (pre ++ name), d. auto.
      * intros (p & o & -> & Ho). apply Down in Ho as [[-> ->]|(l2 & El & Ho)]; [now left|discriminate].
Qed.
Lemma unpack_list_ok starts l pre es : unpack_all starts pre l = Ok es ->
  forall x, In x es <-> exists p o, x = entry starts p o /\ old_node pre l p o.
Proof. apply unpack_all_ok. apply Forall_forall. intros. apply unpack_ok. Qed.

Lemma old_proper pre l p o : old_node pre l p o -> Forall proper l -> proper (VDict o).
Proof.
  induction 1 as [pre l d name Hi Hn|pre l d name l' p e Hi Hn Hc Ho IH]; intros H; rewrite Forall_forall in H.
  - exact (H _ Hi).
  - apply IH. apply proper_list. eapply proper_get; [exact (H _ Hi)|exact Hc].
Qed.
Lemma old_prefix pre l p o : old_node pre l p o -> exists r, p = pre ++ r.
Proof.
  induction 1 as [pre l d name Hi Hn|pre l d name l' p e Hi Hn Hc Ho [r ->]]; eauto.
  rewrite <- app_assoc. eauto.
Qed.

Lemma dupdate_get (d e : dict pyval) p :
  (exists v, In (p, v) e /\ dget p (dupdate d e) = Some v) \/ (~ In p (dkeys e) /\ dget p (dupdate d e) = dget p d).
Proof.
  revert d. induction e as [|[k x] e IH]; intros d; [right; split; auto|].
  change (dupdate d ((k, x) :: e)) with (dupdate (dset k x d) e).
  destruct (IH (dset k x d)) as [(v & Hi & Hg)|[Hn Hg]].
  - left. exists v. split; auto. now right.
  - rewrite Hg, dget_dset. destruct (str_eqb_spec k p) as [->|H].
    + left. exists x. split; auto. now left.
    + right. split; auto. intros [E|E]; auto.
Qed.

Lemma split_snoc c a n : ~ In c n -> split c (a ++ c :: n) = split c a ++ [n].
Proof.
  intros H. assert (E : a ++ c :: n = join [c] (split c a ++ [n])).
  { rewrite join_app; [|apply split_nonempty|discriminate]. now rewrite join_split. }
  rewrite E at 1. apply split_join; [destruct (split c a); discriminate|].
  apply Forall_app. split; [apply split_forall_no_sep|]. repeat constructor. auto.
Qed.
Lemma v1_parts par name : ~ In slash name ->
  v1_parent (par ++ slash :: name) = par /\ v1_name (par ++ slash :: name) = name.
Proof.
  intros H. unfold v1_parent, v1_name. change SLASHC with slash. rewrite split_snoc by auto.
  rewrite removelast_last, last_last. split; auto. apply join_split.
Qed.
Lemma last_slash p : In slash p -> exists par name, p = par ++ slash :: name /\ ~ In slash name.
Proof.
  induction p as [|c p IH]; intros H; [destruct H|].
  destruct (in_dec N.eq_dec slash p) as [Hi|Hn].
  - destruct (IH Hi) as (par & name & -> & H'). exists (c :: par), name. auto.
  - destruct H as [->|H]; [|contradiction]. exists [], p. auto.
Qed.
Lemma dropped_ok n p v : In slash p -> (dropped n (p, v) = true <-> unlisted n p).
Proof.
  intros H. destruct (last_slash p H) as (par & name & -> & Hn). unfold dropped. cbn [fst].
  destruct (v1_parts par name Hn) as [-> ->]. split.
  - destruct (dget par n) as [[| | | | | |e|]|] eqn:E; try discriminate. intros [H1 H2]%andb_prop.
    exists par, name, e. split; auto. split; auto. split; auto. split; [intros ->; discriminate|].
    intros (co & Hc & Hi). rewrite Hc in H2. cbn [in_child_order] in H2. apply negb_true_iff in H2.
    apply in_starts in Hi. rewrite Hi in H2. discriminate.
  - intros (par' & name' & e & E & Hn' & Hg & He & Hco).
    assert (X : par = par' /\ name = name').
    { pose proof (v1_parts par name Hn) as [X1 X2]. pose proof (v1_parts par' name' Hn') as [Y1 Y2].
      rewrite E in X1, X2. split; congruence. }
    destruct X as [<- <-]. rewrite Hg. destruct e as [|kv e]; [congruence|]. cbn [truthy andb].
    apply negb_true_iff. destruct (in_child_order _ _) eqn:I; auto. exfalso. apply Hco.
    unfold in_child_order in I. destruct (dget (lit "child_order") (kv :: e)) as [[| | | |l| | |]|]; try discriminate.
    apply in_starts in I. eauto.
Qed.
Lemma dget_filter (f : pystr * pyval -> bool) n p : NoDup (dkeys n) ->
  dget p (filter f n) = match dget p n with Some v => if f (p, v) then Some v else None | None => None end.
Proof.
  intros H. induction n as [|[k v] n IH]; cbn; auto. inversion H as [|? ? N1 N2]; subst.
  destruct (str_eqb k p) eqn:E.
  - apply str_eqb_eq in E as ->. destruct (f (p, v)); cbn; rewrite ?str_eqb_refl; auto.
    rewrite IH by auto. assert (X : dget p n = None) by (now apply dget_none). now rewrite X.
  - destruct (f (k, v)); cbn; rewrite ?E; auto.
Qed.
Lemma filter_keys_nodup (f : pystr * pyval -> bool) n : NoDup (dkeys n) -> NoDup (dkeys (filter f n)).
Proof.
  intros H. induction n as [|[k v] n IH]; cbn; auto. inversion H as [|? ? N1 N2]; subst.
  destruct (f (k, v)); cbn; auto. constructor; auto. intros Hi. apply N1. apply in_map_iff in Hi as (x & <- & Hi).
  apply filter_In in Hi as [Hi _]. now apply in_map.
Qed.

Notation kids d := (match dget (lit "children") d with Some (VList l) => l | _ => [] end).
Notation starts d := (match dget (lit "start_nodes") (dict_at (lit "data") d) with Some (VList l) => l | _ => [] end).

Lemma unpack_children_ok d d1 : proper (VDict d) -> rooted_file d -> unpack_children d = Ok d1 ->
  proper (VDict d1) /\ rooted_file d1 /\
  dget (lit "children") d1 = None /\
  (forall k, k <> lit "children" -> k <> lit "nodes" -> dget k d1 = dget k d) /\
  (kids d = [] -> dget (lit "nodes") d1 = dget (lit "nodes") d) /\
  (kids d <> [] -> exists all, dget (lit "nodes") d1 = Some (VDict all) /\
     (forall p v, dget p all = Some v ->
        (exists o, old_node [slash] (kids d) p o /\ v = snd (entry (starts d) p o)) \/
        (dget p (dict_at (lit "nodes") d) = Some v /\ forall o, ~ old_node [slash] (kids d) p o)) /\
     (forall p, (exists o, old_node [slash] (kids d) p o) \/ In p (map fst (dict_at (lit "nodes") d)) -> In p (map fst all))).
Proof.
  intros Hp Hr. pose proof (proper_nodup _ Hp) as Hn. unfold unpack_children.
  destruct (dget (lit "children") d) as [cv|] eqn:Ec.
  2:{ intros H. injection H as <-. split; auto. split; auto. split; auto. split; auto. split; auto. congruence. }
  destruct cv as [| | | |l| | |]; try discriminate.
  assert (Dn : forall k, k <> lit "children" -> dget k (ddel (lit "children") d) = dget k d)
    by (intros k Hk; now rewrite dget_ddel_other by auto).
  assert (Dc : dget (lit "children") (ddel (lit "children") d) = None)
    by (rewrite dget_ddel by auto; now rewrite str_eqb_refl).
  assert (Pd : proper (VDict (ddel (lit "children") d))) by now apply proper_ddel.
  destruct l as [|x l].
  { intros H. injection H as <-. split; auto. split; [intros n; rewrite Dn by discriminate; apply Hr|].
    split; auto. split; auto. split; [intros _; now apply Dn|congruence]. }
  set (lst := x :: l) in *. assert (Hl : lst <> []) by discriminate.
  assert (Pl : Forall proper lst) by (apply proper_list; exact (proper_get _ _ _ Hp Ec)). clearbody lst.
  destruct (start_nodes_of (ddel (lit "children") d)) as [st|] eqn:Es; [|discriminate]. cbn [bind].
  assert (Est : st = starts d).
  { unfold start_nodes_of in Es. rewrite Dn in Es by discriminate. unfold dict_at.
    destruct (dget (lit "data") d) as [[| | | | | |da|]|]; try discriminate.
    destruct (dget (lit "start_nodes") da) as [[| | | | | | |]|]; try discriminate; now injection Es. }
  rewrite <- Est. clear Es Est.
  destruct (unpack_all st (lit "/") lst) as [es|] eqn:Ee; [|discriminate]. cbn [bind].
  pose proof (unpack_list_ok _ _ _ _ Ee) as U. change (lit "/") with [slash] in U. clear Ee.
  unfold nodes_of. rewrite Dn by discriminate.
  assert (O : forall old on, proper (VDict old) -> rooted old -> dict_at (lit "nodes") d = old -> on = old ->
     Ok (dset (lit "nodes") (VDict (dupdate on es)) (ddel (lit "children") d)) = Ok d1 ->
  proper (VDict d1) /\ rooted_file d1 /\
  dget (lit "children") d1 = None /\
  (forall k, k <> lit "children" -> k <> lit "nodes" -> dget k d1 = dget k d) /\
  (lst = [] -> dget (lit "nodes") d1 = dget (lit "nodes") d) /\
  (lst <> [] -> exists all, dget (lit "nodes") d1 = Some (VDict all) /\
     (forall p v, dget p all = Some v ->
        (exists o, old_node [slash] lst p o /\ v = snd (entry st p o)) \/
        (dget p (dict_at (lit "nodes") d) = Some v /\ forall o, ~ old_node [slash] lst p o)) /\
     (forall p, (exists o, old_node [slash] lst p o) \/ In p (map fst (dict_at (lit "nodes") d)) -> In p (map fst all)))).
  { intros old on Po Ro Eo -> H. injection H as <-. rewrite Eo.
    assert (Keys : forall p, In p (dkeys es) <-> exists o, old_node [slash] lst p o).
    { intros p. unfold dkeys. rewrite in_map_iff. split.
      - intros ([q v] & <- & Hi). apply U in Hi as (p' & o & E & Ho). injection E as -> ->. eauto.
      - intros [o Ho]. exists (entry st p o). split; auto. apply U. eauto. }
    assert (Gt : forall p v, dget p (dupdate old es) = Some v ->
        (exists o, old_node [slash] lst p o /\ v = snd (entry st p o)) \/
        (dget p old = Some v /\ forall o, ~ old_node [slash] lst p o)).
    { intros p v Hv. destruct (dupdate_get old es p) as [(w & Hi & Hg)|[Hk Hg]]; rewrite Hg in Hv.
      - injection Hv as ->. apply U in Hi as (p' & o & E & Ho). left. exists o. injection E as -> ->. auto.
      - right. split; auto. intros o Ho. apply Hk. apply Keys. eauto. }
    assert (Pa : proper (VDict (dupdate old es))).
    { apply proper_of_get; [apply NoDup_dupdate; now apply proper_nodup|]. intros p v Hv.
      destruct (Gt p v Hv) as [(o & Ho & ->)|[Hg _]]; [|exact (proper_get _ _ _ Po Hg)].
      pose proof (old_proper _ _ _ _ Ho Pl) as Q. apply flat_proper; auto. now apply dict_at_proper. }
    split; [now apply proper_dset|]. split.
    { intros n. rewrite dget_dset_same. intros E. injection E as <-. intros p Hi. change (In p (dkeys (dupdate old es))) in Hi.
      apply dget_some_key in Hi as [v Hv]. destruct (Gt p v Hv) as [(o & Ho & _)|[Hg _]].
      - apply old_prefix in Ho as [r ->]. now left.
      - apply Ro. apply dget_In in Hg. now apply (in_map fst) in Hg. }
    split; [now rewrite dget_dset_other by discriminate|].
    split; [intros k K1 K2; rewrite dget_dset_other by auto; now apply Dn|].
    split; [congruence|]. intros _. exists (dupdate old es). rewrite dget_dset_same. split; auto. split; auto.
    intros p Hx. change (In p (dkeys (dupdate old es))). apply dget_some_key.
    destruct (dupdate_get old es p) as [(w & Hi & Hg)|[Hk Hg]]; [eauto|]. rewrite Hg.
    destruct Hx as [Hx|Hx]; [now apply Keys in Hx|]. now apply dget_some_key. }
  destruct (dget (lit "nodes") d) as [nv|] eqn:En; cbn [bind].
  - destruct nv as [| | | | | |old|]; try discriminate. cbn [bind]. apply (O old); auto.
    + exact (proper_get _ _ _ Hp En).
    + unfold dict_at. now rewrite En.
  - apply (O []); auto; [apply proper_nil|intros p []|unfold dict_at; now rewrite En].
Qed.

Lemma v1_ok d d' : proper (VDict d) -> rooted_file d -> v1 d = Ok d' ->
  proper (VDict d') /\ rooted_file d' /\ upgraded_pre d d'.
Proof.
  intros Hp Hr. unfold v1.
  destruct (unpack_children d) as [d1|] eqn:E1; [|discriminate]. cbn [bind].
  destruct (unpack_children_ok _ _ Hp Hr E1) as (P1 & R1 & C1 & O1 & K1 & K2).
  set (d2 := match dget (lit "data") (dset (lit "version") (VStr (lit "1.0.0")) d1) with
             | Some v => dset (lit "meta_data") v (ddel (lit "data") (dset (lit "version") (VStr (lit "1.0.0")) d1))
             | None => dset (lit "version") (VStr (lit "1.0.0")) d1
             end).
  assert (Pv : proper (VDict (dset (lit "version") (VStr (lit "1.0.0")) d1))) by (apply proper_dset; cbn; auto).
  assert (Edat : dget (lit "data") (dset (lit "version") (VStr (lit "1.0.0")) d1) = dget (lit "data") d).
  { rewrite dget_dset_other by discriminate. now apply O1. }
  assert (P2 : proper (VDict d2)).
  { unfold d2. destruct (dget (lit "data") _) as [v|] eqn:Ev; auto. apply proper_dset; [now apply proper_ddel|].
    exact (proper_get _ _ _ Pv Ev). }
  assert (O2 : forall k, ~ In k [lit "version"; lit "data"; lit "meta_data"] -> dget k d2 = dget k d1).
  { intros k Hk. cbn [In] in Hk. unfold d2. destruct (dget (lit "data") _) as [v|]; rewrite ?dget_dset_other by tauto; auto.
    rewrite dget_ddel_other by tauto. now rewrite dget_dset_other by tauto. }
  assert (V2 : dget (lit "version") d2 = Some (VStr (lit "1.0.0"))).
  { unfold d2. destruct (dget (lit "data") _) as [v|]; [|apply dget_dset_same].
    rewrite dget_dset_other by discriminate. rewrite dget_ddel_other by discriminate. apply dget_dset_same. }
  assert (D2 : dget (lit "data") d2 = None).
  { unfold d2. destruct (dget (lit "data") _) as [v|] eqn:Ev; auto.
    rewrite dget_dset_other by discriminate. rewrite dget_ddel by now apply proper_nodup. now rewrite str_eqb_refl. }
  assert (M2 : dget (lit "meta_data") d2 = match dget (lit "data") d with Some v => Some v | None => dget (lit "meta_data") d end).
  { unfold d2. rewrite Edat. destruct (dget (lit "data") d) as [v|].
    - now rewrite dget_dset_same.
    - rewrite dget_dset_other by discriminate. now apply O1. }
  assert (N2 : dget (lit "nodes") d2 = dget (lit "nodes") d1).
  { apply O2. cbn [In]. intros [H|[H|[H|[]]]]; discriminate. }
  assert (C2 : dget (lit "children") d2 = None).
  { rewrite O2; auto. cbn [In]. intros [H|[H|[H|[]]]]; discriminate. }
  clearbody d2. clear Edat Pv.
  assert (Fin : forall d4, proper (VDict d4) -> rooted_file d4 ->
     (forall k, k <> lit "nodes" -> dget k d4 = dget k d2) ->
     let d' := deep_order_data V1_KEYS d4 in
     proper (VDict d') /\ rooted_file d' /\
     dget (lit "version") d' = Some (VStr (lit "1.0.0")) /\
     dget (lit "children") d' = None /\ dget (lit "data") d' = None /\
     osame (match dget (lit "data") d with Some v => Some v | None => dget (lit "meta_data") d end)
           (dget (lit "meta_data") d') /\
     (forall k, ~ In k (map lit ["version"; "children"; "data"; "meta_data"; "nodes"]%string) ->
        osame (dget k d) (dget k d')) /\ osame (dget (lit "nodes") d4) (dget (lit "nodes") d')).
  { intros d4 P4 R4 O4 d5. destruct (deep_order_same V1_KEYS d4 P4) as [P5 S5]. fold d5 in P5, S5.
    assert (G : forall k, osame (dget k d4) (dget k d5)) by (intros k; now apply same_get_p). clearbody d5.
    split; auto. split; [now apply (rooted_same d4)|].
    split. { specialize (G (lit "version")). rewrite O4, V2 in G by discriminate.
             apply osame_inv in G as (w & -> & Hw). destruct w; try discriminate Hw. now injection Hw as ->. }
    split. { specialize (G (lit "children")). rewrite O4, C2 in G by discriminate. now apply osame_none in G. }
    split. { specialize (G (lit "data")). rewrite O4, D2 in G by discriminate. now apply osame_none in G. }
    split. { rewrite <- M2. rewrite <- O4 by discriminate. apply G. }
    split; [|apply G]. intros k Hk. cbn [map In] in Hk. rewrite <- (O1 k) by (intros ->; apply Hk; tauto).
    rewrite <- (O2 k), <- (O4 k); [apply G|intros ->; apply Hk; tauto|cbn [In]; tauto]. }
  unfold arrange_node_data, nodes_of at 1. rewrite N2.
  assert (Has : (kids d = [] /\ dget (lit "nodes") d = None /\ dget (lit "nodes") d1 = None) \/
    ((kids d <> [] \/ dget (lit "nodes") d <> None) /\
     forall all, dget (lit "nodes") d1 = Some (VDict all) ->
     (forall p v, dget p all = Some v ->
        (exists o, old_node [slash] (kids d) p o /\ v = snd (entry (starts d) p o)) \/
        (dget p (dict_at (lit "nodes") d) = Some v /\ forall o, ~ old_node [slash] (kids d) p o)) /\
     (forall p, (exists o, old_node [slash] (kids d) p o) \/ In p (map fst (dict_at (lit "nodes") d)) -> In p (map fst all)))).
  { assert (D : kids d = [] \/ kids d <> []) by (destruct (kids d); [now left|right; discriminate]).
    destruct D as [D|D].
    - rewrite (K1 D). destruct (dget (lit "nodes") d) as [v|] eqn:En; [right|left; auto].
      split; [right; discriminate|]. intros all H. injection H as ->.
      rewrite D. unfold dict_at. rewrite En. split.
      + intros p v Hv. right. split; auto. intros o Ho. apply old_node_in in Ho as (? & [] & _).
      + intros p [[o Ho]|H]; auto. apply old_node_in in Ho as (? & [] & _).
    - right. split; auto. intros all E. destruct (K2 D) as (all' & E' & G). rewrite E in E'. injection E' as <-. exact G. }
  destruct (dget (lit "nodes") d1) as [nv|] eqn:En1.
  - destruct nv as [| | | | | |all|]; try discriminate. cbn [bind].
    destruct Has as [(_ & _ & H)|[Hor Hall]]; [discriminate|]. destruct (Hall all eq_refl) as [A1 A2]. clear Hall.
    assert (Ra : rooted all) by now apply R1.
    assert (Pa : proper (VDict all)) by (exact (proper_get _ _ _ P1 En1)).
    set (n3 := pick all (arranged_paths all)).
    assert (G3 : forall k, dget k n3 = dget k all) by (intros k; now apply pick_arranged).
    assert (Nn : NoDup (dkeys n3)) by apply pick_nodup. clearbody n3.
    unfold drop_nodes, nodes_of. rewrite dget_dset_same. cbn [bind]. intros H. injection H as <-.
    set (n4 := filter (fun kv => negb (dropped n3 kv)) n3).
    set (d4 := dset (lit "nodes") (VDict n4) (dset (lit "nodes") (VDict n3) d2)).
    assert (G4 : forall p, dget p n4 = match dget p all with Some v => if dropped n3 (p, v) then None else Some v | None => None end).
    { intros p. unfold n4. rewrite dget_filter, G3 by auto. destruct (dget p all); auto. now destruct (dropped _ _). }
    assert (Un : forall p, unlisted n3 p <-> unlisted all p).
    { intros p. unfold unlisted. split; intros (par & name & e & H); exists par, name, e; rewrite G3 in *; exact H. }
    assert (R4 : rooted n4).
    { intros p Hi. change (In p (dkeys n4)) in Hi. apply Ra. change (In p (dkeys all)). apply dget_some_key in Hi as [v Hv]. rewrite G4 in Hv.
      apply dget_some_key. destruct (dget p all); [eauto|discriminate]. }
    assert (P4n : proper (VDict n4)).
    { apply proper_of_get; [now apply filter_keys_nodup|]. intros p v Hv. rewrite G4 in Hv.
      destruct (dget p all) as [v'|] eqn:Ev; [|discriminate]. destruct (dropped n3 (p, v')); [discriminate|]. injection Hv as ->.
      exact (proper_get _ _ _ Pa Ev). }
    assert (P3n : proper (VDict n3)).
    { apply proper_of_get; auto. intros p v Hv. rewrite G3 in Hv. exact (proper_get _ _ _ Pa Hv). }
    destruct (Fin d4) as (F1 & F2 & F3 & F4 & F5 & F6 & F7 & F8).
    { unfold d4. now apply proper_dset; [apply proper_dset|]. }
    { intros n. unfold d4. rewrite dget_dset_same. intros H. now injection H as <-. }
    { intros k Hk. unfold d4. now rewrite !dget_dset_other by auto. }
    split; auto. split; auto. unfold upgraded_pre. cbn zeta.
    split; auto. split; auto. split; auto. split; auto. split; auto.
    split. { intros Z1 Z2. destruct Hor as [Hor|Hor]; [now elim Hor|]. congruence. }
    intros _. unfold d4 in F8. rewrite dget_dset_same in F8. fold d4 in F8.
    apply osame_inv in F8 as (w & Ew & Sw). destruct (same_dict_inv _ _ Sw) as [n' ->].
    exists all, n'. split.
    { intros p v Hv. destruct (A1 p v Hv) as [(o & Ho & ->)|H]; [left|right; auto].
      exists o. eexists. split; [exact Ho|]. split; [reflexivity|]. apply flat_ok. }
    split; auto. split; auto.
    assert (Pn' : proper (VDict n')) by exact (proper_get _ _ _ F1 Ew).
    intros p. pose proof (same_get_p _ _ p P4n Pn' Sw) as Q. rewrite G4 in Q. split.
    + intros Hu. destruct (dget p all) as [v|] eqn:Ev; [|now apply osame_none in Q].
      assert (Hs : In slash p) by (apply Ra; apply dget_In in Ev; now apply (in_map fst) in Ev).
      assert (Hd : dropped n3 (p, v) = true) by (apply dropped_ok; auto; now apply Un).
      rewrite Hd in Q. now apply osame_none in Q.
    + intros Hu. destruct (dget p all) as [v|] eqn:Ev; auto.
      assert (Hs : In slash p) by (apply Ra; apply dget_In in Ev; now apply (in_map fst) in Ev).
      destruct (dropped n3 (p, v)) eqn:Hd; auto. apply dropped_ok in Hd; auto. apply Un in Hd. contradiction.
  - cbn [bind]. unfold drop_nodes, nodes_of. rewrite N2. cbn [bind]. intros H. injection H as <-.
    assert (Z : kids d = [] /\ dget (lit "nodes") d = None).
    { destruct Has as [(Z1 & Z2 & _)|_]; auto. split.
      - destruct (kids d) as [|x l] eqn:D; auto. destruct (K2 ltac:(discriminate)) as (all & E & _). discriminate.
      - destruct (kids d) as [|x l] eqn:D; [now rewrite K1|]. destruct (K2 ltac:(discriminate)) as (all & E & _). discriminate. }
    destruct (Fin d2 P2) as (F1 & F2 & F3 & F4 & F5 & F6 & F7 & F8); auto.
    { intros n. rewrite N2. discriminate. }
    split; auto. split; auto. unfold upgraded_pre. cbn zeta.
    split; auto. split; auto. split; auto. split; auto. split; auto.
    rewrite N2 in F8. apply osame_none in F8. split; auto.
    intros [H|H]; [now elim H; apply Z|]. elim H. apply Z.
Qed.
