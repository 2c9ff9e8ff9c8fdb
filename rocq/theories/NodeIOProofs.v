(** Proofs about saving and loading nodes. *)

From Coq Require Import String List NArith ZArith Bool Lia Permutation Sorted.
From Verif Require Import PyStr PyStrFacts NxtPath Dict DictFacts PyVal PyValFacts
  ListMerger NodeIO NodeIOSpec.
Import ListNotations.

Lemma app_no_suffix {A} (u : list A) m : m <> [] -> u ++ m <> u.
Proof. intros Hm E. apply Hm. apply (app_inv_head u). now rewrite app_nil_r. Qed.

Lemma app_inj_len {A} (a : list A) : forall b p q,
  length p = length q -> a ++ p = b ++ q -> a = b.
Proof.
  induction a as [|x a IH]; intros [|y b] p q Hl E; cbn in E.
  - reflexivity.
  - subst p. cbn in Hl. rewrite app_length in Hl. lia.
  - subst q. cbn in Hl. rewrite app_length in Hl. lia.
  - injection E as <- E. f_equal. eauto.
Qed.

Section S.
Variable bi : list pystr.

Lemma is_user_iff u : is_user bi u = true <-> user_name bi u.
Proof.
  unfold is_user, user_name. rewrite negb_true_iff, orb_false_iff, str_in_not_In.
  unfold PROTECTED. split.
  - intros [H1 H2]. split; [|split].
    + intros H. apply H1. apply in_app_iff. now left.
    + intros H. apply H1. apply in_app_iff. now right.
    + intros m Hm a ->. rewrite <- not_true_iff_false in H2. apply H2.
      apply existsb_exists. exists (lit m). split.
      * cbn in Hm. destruct Hm as [<-|[<-|[<-|[]]]]; cbn; auto.
      * apply endswith_iff. now exists a.
  - intros (H1 & H2 & H3). split.
    + intros H. apply in_app_iff in H as [H|H]; [now apply H1|now apply H2].
    + apply not_true_iff_false. intros H. apply existsb_exists in H as (m & Hm & He).
      apply endswith_iff in He as (a & ->). cbn in Hm.
      destruct Hm as [<-|[<-|[<-|[]]]].
      * now apply (H3 "_comment__nxt"%string (or_introl eq_refl) a).
      * now apply (H3 "_type__nxt"%string (or_intror (or_introl eq_refl)) a).
      * now apply (H3 "_source__nxt"%string (or_intror (or_intror (or_introl eq_refl))) a).
Qed.

(** *** The saved user attributes *)

Lemma save_users_map n :
  NoDup (dkeys n) ->
  save_users bi n = map (fun u => (u, save_user n u)) (filter (is_user bi) (dkeys n)).
Proof.
  intros Hn. unfold save_users.
  assert (G : forall ks acc, NoDup ks -> (forall k, In k ks -> ~ In k (dkeys acc)) ->
    fold_left (fun acc key => if is_user bi key then dset key (save_user n key) acc else acc) ks acc
    = acc ++ map (fun u => (u, save_user n u)) (filter (is_user bi) ks)).
  { induction ks as [|k ks IH]; intros acc Hk Hd; cbn [fold_left filter].
    - now rewrite app_nil_r.
    - inversion Hk as [|? ? K1 K2]; subst. destruct (is_user bi k) eqn:E.
      + rewrite dset_new by (apply Hd; now left). rewrite IH; auto.
        * cbn [map]. now rewrite <- app_assoc.
        * intros x Hx. unfold dkeys. rewrite map_app, in_app_iff. intros [H|[<-|[]]].
          -- now apply (Hd x); [right|].
          -- contradiction.
      + apply IH; auto. intros x Hx. apply Hd. now right. }
  rewrite G; auto.
Qed.

Lemma dkeys_map {V} (f : pystr -> V) l : dkeys (map (fun u => (u, f u)) l) = l.
Proof. unfold dkeys. rewrite map_map. cbn. apply map_id. Qed.

Lemma dget_map {V} (f : pystr -> V) l k :
  dget k (map (fun u => (u, f u)) l) = if str_in k l then Some (f k) else None.
Proof.
  induction l as [|x l IH]; [reflexivity|]. cbn [map dget].
  unfold str_in. cbn [existsb]. fold (str_in k l).
  destruct (str_eqb_spec x k) as [->|Hne].
  - now rewrite str_eqb_refl.
  - destruct (str_eqb_spec k x); [congruence|]. exact IH.
Qed.

Lemma save_users_keys n : NoDup (dkeys n) -> dkeys (save_users bi n) = filter (is_user bi) (dkeys n).
Proof. intros H. rewrite save_users_map by auto. apply dkeys_map. Qed.

Lemma save_users_nodup n : NoDup (dkeys n) -> NoDup (dkeys (save_users bi n)).
Proof. intros H. rewrite save_users_keys by auto. now apply NoDup_filter. Qed.

Lemma map_of_keys {V} (f : pystr -> V) (l : dict V) :
  (forall kv, In kv l -> kv = (fst kv, f (fst kv))) ->
  l = map (fun u => (u, f u)) (dkeys l).
Proof.
  induction l as [|kv l IH]; intros H; [reflexivity|]. cbn. f_equal.
  - apply H. now left.
  - apply IH. intros. apply H. now right.
Qed.

Lemma sorted_users_map n :
  NoDup (dkeys n) ->
  sort_items (save_users bi n) = map (fun u => (u, save_user n u)) (dkeys (sort_items (save_users bi n))).
Proof.
  intros H. apply map_of_keys. intros kv Hk. apply (proj1 (sort_in _ _)) in Hk.
  rewrite save_users_map in Hk by auto. apply in_map_iff in Hk as (u & <- & _). reflexivity.
Qed.

(** *** The order of a node's data keeps its content *)

Lemma py_remove_in x l l' y : py_remove x l = Some l' -> In y l -> y = x \/ In y l'.
Proof.
  revert l'. induction l as [|z l IH]; intros l'; [discriminate|]. cbn [py_remove].
  destruct (str_eqb_spec z x) as [->|Hne].
  - intros [= <-] [<-|H]; auto.
  - destruct (py_remove x l) as [t|]; [|discriminate]. intros [= <-] [<-|H].
    + right. now left.
    + destruct (IH t eq_refl H); auto. right. now right.
Qed.

Lemma remove_first_in x l y : In y l -> y = x \/ In y (remove_first x l).
Proof.
  intros H. unfold remove_first. destruct (py_remove x l) eqn:E; auto.
  eapply py_remove_in; eauto.
Qed.

Definition order_inv (d : dict pyval) (acc : dict pyval * list pystr) : Prop :=
  NoDup (dkeys (fst acc)) /\
  (forall k v, dget k (fst acc) = Some v -> dget k d = Some v) /\
  (forall k, In k (dkeys d) -> In k (snd acc) \/ dget k (fst acc) = dget k d).

Lemma dset_inv (d r : dict pyval) k v :
  (forall k v, dget k r = Some v -> dget k d = Some v) -> dget k d = Some v ->
  forall k' v', dget k' (dset k v r) = Some v' -> dget k' d = Some v'.
Proof.
  intros H1 H2 k' v'. rewrite dget_dset. destruct (str_eqb_spec k k') as [<-|_]; [|apply H1].
  intros [= <-]. exact H2.
Qed.

Lemma order_step_inv d acc a : order_inv d acc -> order_inv d (order_step d acc a).
Proof.
  destruct acc as [r rem]. intros (H0 & H1 & H2). cbn [fst snd] in *. unfold order_step.
  set (r1 := match dget K_ATTRS d with
             | Some ua => if str_eqb a COMPUTE && truthy ua then dset K_ATTRS ua r else r
             | None => r end).
  assert (G : order_inv d (r1, rem)).
  { unfold r1. destruct (dget K_ATTRS d) as [ua|] eqn:E; [|now split].
    destruct (str_eqb a COMPUTE && truthy ua); [|now split].
    split; [|split]; cbn [fst snd].
    - now apply NoDup_dset.
    - now apply dset_inv.
    - intros k Hk. destruct (H2 k Hk) as [H|H]; auto. right.
      rewrite dget_dset. destruct (str_eqb_spec K_ATTRS k) as [<-|_]; auto. }
  clearbody r1. destruct G as (G0 & G1 & G2). cbn [fst snd] in *.
  destruct (dget (as_save_key a) d) as [v|] eqn:E; [|now split].
  split; [|split]; cbn [fst snd].
  - now apply NoDup_dset.
  - now apply dset_inv.
  - intros k Hk. rewrite dget_dset. destruct (str_eqb_spec (as_save_key a) k) as [<-|Hne]; auto.
    destruct (G2 k Hk) as [H|H]; auto.
    destruct (remove_first_in (as_save_key a) rem k H) as [->|H3]; auto. congruence.
Qed.

Lemma fold_order_inv d l acc : order_inv d acc -> order_inv d (fold_left (order_step d) l acc).
Proof.
  revert acc. induction l as [|a l IH]; intros acc H; cbn [fold_left]; auto.
  apply IH. now apply order_step_inv.
Qed.

Lemma order_node_dict_get d k : dget k (order_node_dict d) = dget k d.
Proof.
  unfold order_node_dict.
  assert (H : order_inv d (fold_left (order_step d) SAVED ([], dkeys d))).
  { apply fold_order_inv. split; [constructor|]. split; cbn; [discriminate|auto]. }
  destruct (fold_left (order_step d) SAVED ([], dkeys d)) as [r rem].
  destruct H as (H0 & H1 & H2). cbn [fst snd] in *.
  assert (G : forall rem r,
    (forall k v, dget k r = Some v -> dget k d = Some v) ->
    (forall k, In k (dkeys d) -> In k rem \/ dget k r = dget k d) ->
    dget k (fold_left (fun acc k => match dget k d with Some v => dset k v acc | None => acc end) rem r)
    = dget k d).
  { clear. induction rem as [|x rem IH]; intros r H1 H2; cbn [fold_left].
    - destruct (dget k d) as [v|] eqn:E.
      + destruct (H2 k) as [[]|H]; [|congruence]. apply dget_some_key. eauto.
      + destruct (dget k r) as [v|] eqn:E2; auto. apply H1 in E2. congruence.
    - apply IH.
      + destruct (dget x d) as [v|] eqn:E; auto. now apply dset_inv.
      + intros y Hy. destruct (H2 y Hy) as [[<-|H]|H]; auto.
        * right. apply dget_some_key in Hy as (v & E). rewrite E. now rewrite dget_dset_same.
        * right. destruct (dget x d) as [v|] eqn:E; auto. rewrite dget_dset.
          destruct (str_eqb_spec x y) as [<-|_]; auto. }
  now apply G.
Qed.

(** *** The saved internal attributes *)

Lemma save_internals_get n attrs spec k :
  NoDup (map as_save_key attrs) ->
  dget k (fold_left (save_internal n) attrs spec)
  = match find (fun a => str_eqb (as_save_key a) k && has_opinion (attr_or_none n a)) attrs with
    | Some a => Some (attr_or_none n a)
    | None => dget k spec
    end.
Proof.
  revert spec. induction attrs as [|a attrs IH]; intros spec Hn; [reflexivity|].
  cbn [fold_left find map] in *. inversion Hn as [|? ? N1 N2]; subst.
  rewrite IH by auto. unfold save_internal.
  destruct (str_eqb_spec (as_save_key a) k) as [<-|Hne]; cbn [andb].
  - assert (G : find (fun a0 => str_eqb (as_save_key a0) (as_save_key a)
                                && has_opinion (attr_or_none n a0)) attrs = None).
    { destruct (find _ attrs) as [b|] eqn:E; auto. exfalso. apply find_some in E as [E1 E2].
      apply andb_true_iff in E2 as [E2 _]. apply str_eqb_eq in E2. apply N1. rewrite <- E2.
      now apply in_map. }
    rewrite G. destruct (has_opinion (attr_or_none n a)); [now rewrite dget_dset_same|reflexivity].
  - destruct (find _ attrs); auto. destruct (has_opinion _); auto. now rewrite dget_dset_other.
Qed.

Definition save_list (n : node) : list pystr :=
  match dget NAME n with
  | Some (VStr nm) => if str_eqb nm WORLD then WORLD_NODE_SAVED else SAVED
  | _ => SAVED
  end.

Lemma save_list_nodup n : NoDup (map as_save_key (save_list n)).
Proof.
  unfold save_list.
  destruct (dget NAME n) as [[]|]; try destruct (str_eqb _ _);
    vm_compute; repeat constructor; cbn; intuition discriminate.
Qed.

Lemma save_list_incl n a : In a (save_list n) -> In a SAVED.
Proof.
  unfold save_list. destruct (dget NAME n) as [[]|]; try destruct (str_eqb _ _); auto.
  cbn [In WORLD_NODE_SAVED SAVED]. tauto.
Qed.

(** What the saved data says at every key. *)
Lemma save_get n k :
  dget k (get_node_as_dict bi n)
  = match find (fun a => str_eqb (as_save_key a) k && has_opinion (attr_or_none n a)) (save_list n) with
    | Some a => Some (attr_or_none n a)
    | None => if str_eqb k K_ATTRS then
                match save_users bi n with
                | [] => None
                | _ => Some (VDict (sort_items (save_users bi n)))
                end
              else None
    end.
Proof.
  unfold get_node_as_dict. rewrite order_node_dict_get.
  change (match dget NAME n with
          | Some (VStr nm) => if str_eqb nm WORLD then WORLD_NODE_SAVED else SAVED
          | _ => SAVED end) with (save_list n).
  rewrite save_internals_get by apply save_list_nodup.
  destruct (find _ _); auto. destruct (save_users bi n) eqn:E.
  - cbn [dget]. destruct (str_eqb k K_ATTRS); reflexivity.
  - cbn [dget]. rewrite str_eqb_sym. now destruct (str_eqb k K_ATTRS).
Qed.

Lemma save_get_attrs n :
  dget K_ATTRS (get_node_as_dict bi n)
  = match save_users bi n with [] => None | _ => Some (VDict (sort_items (save_users bi n))) end.
Proof.
  rewrite save_get. rewrite str_eqb_refl.
  replace (find _ _) with (@None pystr); auto. symmetry.
  unfold save_list. destruct (dget NAME n) as [[]|]; try destruct (str_eqb _ _); reflexivity.
Qed.

(** *** Loading user attributes *)

Section Load.
Variables (src : pyval) (n : node).

(** What loading the saved form of attribute [u] writes at [k]. *)
Definition user_write (u k : pystr) : option pyval :=
  if str_eqb u k then Some (kept (attr n u))
  else if str_eqb (u ++ META_SOURCE) k then Some src
  else if str_eqb (u ++ META_COMMENT) k then kept_meta (attr n (u ++ META_COMMENT))
  else if str_eqb (u ++ META_TYPE) k then kept_meta (attr n (u ++ META_TYPE))
  else None.

Lemma save_user_form u :
  save_user n u =
  VDict ((if truthy (attr n (u ++ META_COMMENT)) then [(lit "comment", attr n (u ++ META_COMMENT))] else []) ++
         (if truthy (attr n (u ++ META_TYPE)) then [(lit "type", attr n (u ++ META_TYPE))] else []) ++
         (if truthy (attr n u) && json_ok (attr n u) then [(lit "value", attr n u)] else [])).
Proof.
  unfold save_user. change (attr_or_none n) with (attr n).
  generalize (attr n (u ++ META_COMMENT)) as c, (attr n (u ++ META_TYPE)) as t, (attr n u) as v.
  intros. destruct (truthy c), (truthy t), (truthy v), (json_ok v); reflexivity.
Qed.

Lemma load_saved_user u attrs :
  exists attrs', load_user src attrs (u, save_user n u) = Ok attrs' /\
  forall k, dget k attrs' = match user_write u k with Some v => Some v | None => dget k attrs end.
Proof.
  assert (N1 : forall a b, u ++ a = u ++ b -> a = b) by (intros a b; apply app_inv_head).
  rewrite save_user_form. unfold load_user.
  eexists. split; [reflexivity|]. intros k. unfold user_write, kept, kept_meta.
  generalize (attr n (u ++ META_COMMENT)) as c, (attr n (u ++ META_TYPE)) as t, (attr n u) as v.
  intros c t v.
  assert (Hs1 : u ++ META_SOURCE <> u) by (apply app_no_suffix; discriminate).
  assert (Hs2 : u ++ META_COMMENT <> u) by (apply app_no_suffix; discriminate).
  assert (Hs3 : u ++ META_TYPE <> u) by (apply app_no_suffix; discriminate).
  assert (Hd1 : u ++ META_SOURCE <> u ++ META_COMMENT) by (intros E; apply N1 in E; discriminate).
  assert (Hd2 : u ++ META_SOURCE <> u ++ META_TYPE) by (intros E; apply N1 in E; discriminate).
  assert (Hd3 : u ++ META_COMMENT <> u ++ META_TYPE) by (intros E; apply N1 in E; discriminate).
  rewrite !fold_left_app.
  assert (E1 : forall A : node, fold_left (load_sub u) (if truthy c then [(lit "comment", c)] else []) A
               = if truthy c then dset (u ++ META_COMMENT) c A else A).
  { intros. destruct (truthy c); reflexivity. }
  assert (E2 : forall A : node, fold_left (load_sub u) (if truthy t then [(lit "type", t)] else []) A
               = if truthy t then dset (u ++ META_TYPE) t A else A).
  { intros. destruct (truthy t); reflexivity. }
  assert (E3 : forall A : node,
     fold_left (load_sub u) (if truthy v && json_ok v then [(lit "value", v)] else []) A
               = if truthy v && json_ok v then dset u v A else A).
  { intros. destruct (truthy v && json_ok v); reflexivity. }
  rewrite E3, E2, E1. clear E1 E2 E3.
  destruct (truthy c), (truthy t), (truthy v && json_ok v); rewrite ?dget_dset;
    destruct (str_eqb_spec u k) as [X1|X1], (str_eqb_spec (u ++ META_SOURCE) k) as [X2|X2],
      (str_eqb_spec (u ++ META_COMMENT) k) as [X3|X3], (str_eqb_spec (u ++ META_TYPE) k) as [X4|X4];
    try congruence.
Qed.

Lemma user_write_where u k :
  user_write u k <> None ->
  k = u \/ exists m, In m ["_comment__nxt"; "_type__nxt"; "_source__nxt"]%string /\ k = u ++ lit m.
Proof.
  unfold user_write.
  destruct (str_eqb_spec u k) as [<-|X1]; [now left|].
  destruct (str_eqb_spec (u ++ META_SOURCE) k) as [<-|X2].
  { intros _. right. exists "_source__nxt"%string. split; [cbn; tauto|reflexivity]. }
  destruct (str_eqb_spec (u ++ META_COMMENT) k) as [<-|X3].
  { intros _. right. exists "_comment__nxt"%string. split; [cbn; tauto|reflexivity]. }
  destruct (str_eqb_spec (u ++ META_TYPE) k) as [<-|X4]; [|congruence].
  intros _. right. exists "_type__nxt"%string. split; [cbn; tauto|reflexivity].
Qed.

(** Two attributes never write at the same place. *)
Lemma user_write_disjoint u w k :
  user_name bi u -> user_name bi w -> user_write u k <> None -> user_write w k <> None -> u = w.
Proof.
  intros (_ & _ & Hu) (_ & _ & Hw).
  assert (S : forall a b x y, In x ["_comment__nxt"; "_type__nxt"; "_source__nxt"]%string ->
     In y ["_comment__nxt"; "_type__nxt"; "_source__nxt"]%string ->
     a ++ lit x = b ++ lit y -> a = b).
  { intros a b x y Hx Hy E.
    assert (G : forall (p q : pystr), length p = length q -> a ++ p = b ++ q -> a = b).
    { intros p q Hl E2. eapply app_inj_len; eauto. }
    cbn in Hx, Hy. destruct Hx as [<-|[<-|[<-|[]]]], Hy as [<-|[<-|[<-|[]]]];
      try (apply (G _ _ eq_refl E)); exfalso;
      apply (f_equal (@rev N)) in E; rewrite !rev_app_distr in E; cbn in E; discriminate. }
  intros A B. apply user_write_where in A. apply user_write_where in B.
  destruct A as [->|(x & Hx & ->)], B as [E|(y & Hy & E)]; auto.
  - exfalso. now apply (Hu y Hy w).
  - exfalso. now apply (Hw x Hx u).
  - exact (S u w x y Hx Hy E).
Qed.

Lemma load_saved_users us : forall attrs,
  NoDup us -> (forall u, In u us -> user_name bi u) ->
  exists attrs', fold_res (load_user src) (map (fun u => (u, save_user n u)) us) attrs = Ok attrs' /\
  (forall u k v, In u us -> user_write u k = Some v -> dget k attrs' = Some v) /\
  (forall k, (forall u, In u us -> user_write u k = None) -> dget k attrs' = dget k attrs).
Proof.
  induction us as [|u us IH]; intros attrs Hn Hu.
  - exists attrs. split; [reflexivity|]. split; [intros u k v []|auto].
  - inversion Hn as [|? ? N1 N2]; subst. cbn [map fold_res].
    destruct (load_saved_user u attrs) as (a1 & E1 & G1). rewrite E1. cbn [bind].
    destruct (IH a1 N2) as (a2 & E2 & G2 & G3). { intros. apply Hu. now right. }
    exists a2. split; [exact E2|]. split.
    + intros w k v [<-|Hw] Hwr.
      * rewrite G3.
        -- rewrite G1, Hwr. reflexivity.
        -- intros w Hw. destruct (user_write w k) eqn:E; auto. exfalso.
           assert (w = u); [|congruence].
           apply (user_write_disjoint w u k); [apply Hu; now right|apply Hu; now left|congruence|congruence].
      * eapply G2; eauto.
    + intros k Hk. rewrite G3.
      * rewrite G1, Hk by now left. reflexivity.
      * intros w Hw. apply Hk. now right.
Qed.
End Load.

(** *** Loading a node *)

Definition load_val (data : dict pyval) (a : pystr) : pyval :=
  let val := match dget (as_save_key a) data with Some v => v | None => VNone end in
  if negb (has_opinion val) && negb (str_in a ALLOW_NO_OPINION) then default_of a else val.

Lemma load_internals_get data l : forall attrs k,
  dget k (fold_left (load_internal data) l attrs)
  = if str_in k l then Some (load_val data k) else dget k attrs.
Proof.
  induction l as [|a l IH]; intros attrs k; [reflexivity|]. cbn [fold_left]. rewrite IH.
  unfold str_in at 2. cbn [existsb]. fold (str_in k l).
  destruct (str_in k l); [now rewrite orb_true_r|]. rewrite orb_false_r.
  unfold load_internal. fold (load_val data a). rewrite dget_dset, str_eqb_sym.
  destruct (str_eqb_spec k a) as [->|_]; reflexivity.
Qed.

Lemma set_sources_get src l : forall (n : node) k,
  dget k (fold_left (fun n a => dset (a ++ META_SOURCE) src n) l n)
  = if str_in k (map (fun a => a ++ META_SOURCE) l) then Some src else dget k n.
Proof.
  induction l as [|a l IH]; intros n k; [reflexivity|]. cbn [fold_left map]. rewrite IH.
  unfold str_in at 2. cbn [existsb]. fold (str_in k (map (fun a => a ++ META_SOURCE) l)).
  destruct (str_in k _); [now rewrite orb_true_r|]. rewrite orb_false_r.
  rewrite dget_dset, str_eqb_sym. destruct (str_eqb k (a ++ META_SOURCE)); reflexivity.
Qed.

Lemma fold_dset_nodup {A} (f : node -> A -> node) l :
  (forall n x, NoDup (dkeys n) -> NoDup (dkeys (f n x))) ->
  forall n, NoDup (dkeys n) -> NoDup (dkeys (fold_left f l n)).
Proof.
  intros H. induction l as [|x l IH]; intros n Hn; cbn [fold_left]; [exact Hn|]. apply IH. now apply H.
Qed.

Lemma load_user_nodup src attrs kv attrs' :
  NoDup (dkeys attrs) -> load_user src attrs kv = Ok attrs' -> NoDup (dkeys attrs').
Proof.
  intros Hn. unfold load_user. destruct kv as [u data]. destruct data; try discriminate.
  intros E. injection E as <-. apply fold_dset_nodup.
  - intros n [k v] H. unfold load_sub. destruct (str_eqb _ _); [now apply NoDup_dset|].
    destruct (str_in _ _); [now apply NoDup_dset|auto].
  - now apply NoDup_dset, NoDup_dset.
Qed.

Lemma load_users_nodup src us : forall attrs attrs',
  NoDup (dkeys attrs) -> fold_res (load_user src) us attrs = Ok attrs' -> NoDup (dkeys attrs').
Proof.
  induction us as [|kv us IH]; intros attrs attrs' Hn; cbn [fold_res].
  - now intros [= <-].
  - destruct (load_user src attrs kv) as [a|] eqn:E; [|discriminate]. cbn [bind].
    apply IH. eapply load_user_nodup; eauto.
Qed.

Definition user_part (src : pyval) (data : dict pyval) : res node :=
  match dget K_ATTRS data with
  | None => Ok []
  | Some (VDict user_attrs) => fold_res (load_user src) user_attrs []
  | Some _ => Raise AttributeError
  end.

Definition src_of (rp : pyval) (parent nm : pystr) : pyval :=
  VTuple [rp; VStr (join_node_paths parent nm)].

Lemma create_get data rp parent nm attrs co :
  dget (lit "name") data = Some (VStr nm) ->
  user_part (src_of rp parent nm) data = Ok attrs ->
  load_child_order data = Ok co ->
  exists n', create_node data rp parent false = Ok n' /\ NoDup (dkeys n') /\
  forall k, dget k n' =
    if str_in k (map (fun a => a ++ META_SOURCE) TRACKED) then Some (src_of rp parent nm)
    else if str_eqb PARENT_PATH k then Some (VStr parent)
    else if str_eqb SOURCE_LAYER k then Some rp
    else if str_eqb CHILD_ORDER k then Some (VStrs co)
    else if str_eqb PROXY k then Some (VBool false)
    else if str_eqb NAME k then Some (VStr nm)
    else if str_in k ALL_INTERNAL then Some (load_val data k)
    else dget k attrs.
Proof.
  intros Hn Hu Hc. unfold create_node. rewrite Hn. unfold user_part, src_of in Hu. rewrite Hu.
  cbn [bind]. rewrite Hc. cbn [bind]. eexists. split; [reflexivity|]. split.
  - apply fold_dset_nodup; [intros; now apply NoDup_dset|]. do 5 apply NoDup_dset.
    apply fold_dset_nodup; [intros; now apply NoDup_dset|].
    destruct (dget K_ATTRS data) as [[| | | | | |us|]|]; try discriminate.
    + eapply load_users_nodup; [|exact Hu]. constructor.
    + injection Hu as <-. constructor.
  - intros k. rewrite set_sources_get. rewrite !dget_dset. rewrite load_internals_get. reflexivity.
Qed.

(** *** Round trip *)

Lemma dedup_snoc l x : dedup (l ++ [x]) = if str_in x (dedup l) then dedup l else dedup l ++ [x].
Proof. unfold dedup. now rewrite fold_left_app. Qed.

Lemma dedup_in l x : In x (dedup l) <-> In x l.
Proof.
  induction l as [|y l IH] using rev_ind; [reflexivity|]. rewrite dedup_snoc, in_app_iff.
  destruct (str_in y (dedup l)) eqn:E.
  - apply str_in_In in E. rewrite IH in *. cbn. intuition (subst; auto).
  - rewrite in_app_iff, IH. reflexivity.
Qed.

Lemma dedup_first l : first_occ l (dedup l).
Proof.
  induction l as [|y l IH] using rev_ind; [constructor|]. rewrite dedup_snoc.
  destruct (str_in y (dedup l)) eqn:E.
  - apply str_in_In in E. constructor; auto. now apply dedup_in.
  - apply str_in_not_In in E. constructor; auto. now rewrite <- dedup_in.
Qed.

Lemma dedup_nodup l : NoDup (dedup l).
Proof.
  induction l as [|y l IH] using rev_ind; [constructor|]. rewrite dedup_snoc.
  destruct (str_in y (dedup l)) eqn:E; auto. apply str_in_not_In in E.
  apply NoDup_rev in IH. rewrite <- (rev_involutive (dedup l ++ [y])). apply NoDup_rev.
  rewrite rev_app_distr. cbn. constructor; auto. now rewrite <- in_rev.
Qed.

Lemma dedup_id l : NoDup l -> dedup l = l.
Proof.
  induction l as [|y l IH] using rev_ind; intros H; [reflexivity|]. rewrite dedup_snoc.
  apply NoDup_remove in H. rewrite app_nil_r in H. destruct H as [H1 H2].
  rewrite (IH H1). replace (str_in y l) with false; auto. symmetry. now apply str_in_not_In.
Qed.

Lemma strings_vstrs l : strings (map VStr l) = Some l.
Proof. induction l as [|x l IH]; cbn; auto. now rewrite IH. Qed.

Section Trip.
Variables (n : node) (nm parent : pystr) (rp : pyval) (co : list pystr).
Hypotheses (Hnd : NoDup (dkeys n)) (Hname : dget NAME n = Some (VStr nm))
  (Hco : dget CHILD_ORDER n = Some (VStrs co)).

Definition trip_data : dict pyval := dset (lit "name") (VStr nm) (get_node_as_dict bi n).

Lemma trip_get k : k <> lit "name" -> dget k trip_data = dget k (get_node_as_dict bi n).
Proof. intros H. unfold trip_data. apply dget_dset_other. congruence. Qed.

Lemma trip_saved a :
  In a (save_list n) ->
  dget (as_save_key a) trip_data
  = if has_opinion (attr n a) then Some (attr n a) else None.
Proof.
  intros Ha. rewrite trip_get.
  - rewrite save_get.
    replace (str_eqb (as_save_key a) K_ATTRS) with false.
    + destruct (find _ (save_list n)) as [b|] eqn:E.
      * apply find_some in E as [E1 E2]. apply andb_true_iff in E2 as [E2 E3].
        apply str_eqb_eq in E2. change (attr_or_none n) with (attr n) in *.
        assert (b = a).
        { pose proof (save_list_nodup n) as Hn. clear -Hn E1 E2 Ha.
          induction (save_list n) as [|x l IH]; [destruct Ha|]. cbn in Hn.
          inversion Hn as [|? ? N1 N2]; subst.
          destruct Ha as [->|Ha], E1 as [->|E1]; auto.
          - exfalso. apply N1. rewrite <- E2. now apply in_map.
          - exfalso. apply N1. rewrite E2. now apply in_map. }
        subst b. now rewrite E3.
      * destruct (has_opinion (attr n a)) eqn:Eh; auto. exfalso.
        apply (find_none _ _ E) in Ha. rewrite str_eqb_refl in Ha. cbn in Ha.
        change (attr_or_none n) with (attr n) in Ha. congruence.
    + symmetry. apply save_list_incl in Ha. clear -Ha. cbn [In SAVED] in Ha.
      repeat (destruct Ha as [<-|Ha]; [reflexivity|]); destruct Ha.
  - apply save_list_incl in Ha. clear -Ha. cbn [In SAVED] in Ha.
    repeat (destruct Ha as [<-|Ha]; [vm_compute; discriminate|]); destruct Ha.
Qed.

Definition sorted_users : list pystr := dkeys (sort_items (save_users bi n)).

Lemma sorted_users_in u : In u sorted_users <-> user_name bi u /\ In u (dkeys n).
Proof.
  unfold sorted_users. rewrite sort_keys_in, save_users_keys by auto.
  rewrite filter_In, is_user_iff. tauto.
Qed.

Lemma trip_users src :
  exists attrs, user_part src trip_data = Ok attrs /\ 
  (forall u k v, In u sorted_users -> user_write src n u k = Some v -> dget k attrs = Some v) /\
  (forall k, (forall u, In u sorted_users -> user_write src n u k = None) -> dget k attrs = None).
Proof.
  unfold user_part. rewrite trip_get by discriminate. rewrite save_get_attrs.
  assert (N : NoDup sorted_users) by (apply sort_nodup, save_users_nodup; auto).
  assert (U : forall u, In u sorted_users -> user_name bi u) by (intros u H; now apply sorted_users_in).
  destruct (load_saved_users src n sorted_users [] N U) as (a & E & G1 & G2).
  rewrite (sorted_users_map n Hnd). fold sorted_users.
  destruct (save_users bi n) eqn:Es.
  - exists []. split; [reflexivity|]. assert (E0 : sorted_users = []) by (unfold sorted_users; now rewrite Es).
    rewrite E0. split; [intros u k v []|auto].
  - exists a. split; [exact E|]. split; [exact G1|]. intros k Hk. now rewrite G2.
Qed.

Definition is_world : bool := str_eqb nm WORLD.

Lemma save_list_name : save_list n = if is_world then WORLD_NODE_SAVED else SAVED.
Proof. unfold save_list. now rewrite Hname. Qed.

Lemma trip_unsaved k :
  k <> lit "name" -> k <> K_ATTRS -> ~ In k (map as_save_key (save_list n)) ->
  dget k trip_data = None.
Proof.
  intros H1 H2 H3. rewrite trip_get by auto. rewrite save_get.
  destruct (str_eqb_spec k K_ATTRS); [congruence|].
  destruct (find _ (save_list n)) as [b|] eqn:E; auto. exfalso.
  apply find_some in E as [E1 E2]. apply andb_true_iff in E2 as [E2 _]. apply str_eqb_eq in E2.
  apply H3. rewrite <- E2. now apply in_map.
Qed.

Definition loaded_order : list pystr := if is_world then [] else dedup co.

Lemma trip_child_order : load_child_order trip_data = Ok loaded_order.
Proof.
  unfold load_child_order, loaded_order. change (lit "child_order") with (as_save_key CHILD_ORDER).
  pose proof save_list_name as Hs. destruct is_world.
  - rewrite trip_unsaved; auto; try (vm_compute; discriminate).
    rewrite Hs. vm_compute. intuition discriminate.
  - rewrite trip_saved by (rewrite Hs; cbn; tauto).
    unfold attr. rewrite Hco. destruct co as [|c l]; [reflexivity|].
    cbn [has_opinion VStrs map]. change (VStr c :: map VStr l) with (map VStr (c :: l)).
    now rewrite strings_vstrs.
Qed.

Lemma load_val_saved a :
  In a (save_list n) ->
  load_val trip_data a = if has_opinion (attr n a) then attr n a else default_of a.
Proof.
  intros Ha. unfold load_val. rewrite trip_saved by auto.
  destruct (has_opinion (attr n a)) eqn:E; cbn [has_opinion negb andb].
  - now rewrite E.
  - destruct (str_in a ALLOW_NO_OPINION) eqn:E2; auto.
    apply str_in_In in E2. cbn in E2. destruct E2 as [<-|[]]. reflexivity.
Qed.

Ltac lits :=
  repeat match goal with
  | |- context [str_in ?x ?l] =>
      let b := eval vm_compute in (str_in x l) in
      match b with true => idtac | false => idtac end; change (str_in x l) with b; cbv iota
  | |- context [str_eqb ?x ?l] =>
      let b := eval vm_compute in (str_eqb x l) in
      match b with true => idtac | false => idtac end; change (str_eqb x l) with b; cbv iota
  end.

Lemma user_not_internal u k :
  user_name bi u -> (k = u \/ exists m, In m ["_comment__nxt"; "_type__nxt"; "_source__nxt"]%string /\ k = u ++ lit m) ->
  str_in k ALL_INTERNAL = false /\ str_eqb PARENT_PATH k = false /\ str_eqb SOURCE_LAYER k = false /\
  str_eqb CHILD_ORDER k = false /\ str_eqb PROXY k = false /\ str_eqb NAME k = false.
Proof.
  intros (_ & Hu & Hm) Hk.
  assert (G : ~ In k ALL_INTERNAL).
  { destruct Hk as [->|(m & Hm2 & ->)].
    - intros H. apply Hu. unfold internal_names. cbn [map]. cbn [In ALL_INTERNAL TRACKED UNTRACKED app] in H.
      cbn [In]. tauto.
    - intros H. assert (E : forall x, In x ALL_INTERNAL -> forall a, x <> a ++ lit m).
      { intros x Hx a E. apply (f_equal (@rev N)) in E. rewrite rev_app_distr in E.
        cbn in Hm2. cbn [In ALL_INTERNAL TRACKED UNTRACKED app] in Hx.
        repeat (destruct Hx as [<-|Hx]; [destruct Hm2 as [<-|[<-|[<-|[]]]]; cbn in E; discriminate|]).
        destruct Hx. }
      now apply (E _ H u). }
  assert (F : forall x, In x ALL_INTERNAL -> str_eqb x k = false).
  { intros x Hx. apply str_eqb_neq. intros ->. contradiction. }
  split; [now apply str_in_not_In|]. repeat split; apply F; cbn; tauto.
Qed.

Lemma user_not_source u k :
  user_name bi u -> (k = u \/ k = u ++ META_COMMENT \/ k = u ++ META_TYPE \/ k = u ++ META_SOURCE) ->
  str_in k (map (fun a => a ++ META_SOURCE) TRACKED) = false.
Proof.
  intros (_ & Hi & Hm) Hk. apply str_in_not_In. intros H.
  apply in_map_iff in H as (a & E & Ha). destruct Hk as [->|[->|[->| ->]]].
  - refine (Hm "_source__nxt"%string _ a (eq_sym E)). cbn; tauto.
  - apply (f_equal (@rev N)) in E. rewrite !rev_app_distr in E. discriminate.
  - apply (f_equal (@rev N)) in E. rewrite !rev_app_distr in E. discriminate.
  - apply app_inv_tail in E. subst a. apply Hi. unfold internal_names. cbn [map In].
    cbn [In TRACKED] in Ha. tauto.
Qed.

Lemma round_trip_load :
  exists n', create_node trip_data rp parent false = Ok n' /\ NoDup (dkeys n') /\
  (forall u, user_name bi u -> (In u (dkeys n') <-> In u (dkeys n))) /\
  (forall u, user_name bi u -> In u (dkeys n) ->
     dget u n' = Some (kept (attr n u)) /\
     dget (u ++ META_COMMENT) n' = kept_meta (attr n (u ++ META_COMMENT)) /\
     dget (u ++ META_TYPE) n' = kept_meta (attr n (u ++ META_TYPE)) /\
     dget (u ++ META_SOURCE) n' = Some (src_of rp parent nm)) /\
  (forall a, In a SAVED -> a <> CHILD_ORDER ->
     dget a n' = Some (if str_in a (save_list n) && has_opinion (attr n a) then attr n a else default_of a)) /\
  dget CHILD_ORDER n' = Some (VStrs loaded_order) /\
  dget NAME n' = Some (VStr nm) /\ dget PARENT_PATH n' = Some (VStr parent) /\
  dget SOURCE_LAYER n' = Some rp /\ dget PROXY n' = Some (VBool false).
Proof.
  destruct (trip_users (src_of rp parent nm)) as (attrs & Ea & G1 & G2).
  destruct (create_get trip_data rp parent nm attrs loaded_order) as (n' & E & Nd & G); auto.
  { apply dget_dset_same. } { apply trip_child_order. }
  assert (Hb : forall u k, user_name bi u ->
     (k = u \/ k = u ++ META_COMMENT \/ k = u ++ META_TYPE \/ k = u ++ META_SOURCE) -> dget k n' = dget k attrs).
  { intros u k Hu Hk. rewrite G. rewrite (user_not_source u k) by auto.
    destruct (user_not_internal u k Hu) as (A & B & C & D & F & H).
    { destruct Hk as [->|[->|[->| ->]]]; [now left| | |].
      - right. exists "_comment__nxt"%string. split; [cbn; tauto|reflexivity].
      - right. exists "_type__nxt"%string. split; [cbn; tauto|reflexivity].
      - right. exists "_source__nxt"%string. split; [cbn; tauto|reflexivity]. }
    now rewrite A, B, C, D, F, H. }
  exists n'. split; [exact E|]. split; [exact Nd|]. split; [|split; [|split; [|]]].
  - intros u Hu. destruct (in_dec (list_eq_dec N.eq_dec) u (dkeys n)) as [Hi|Hi].
    + split; auto. intros _. apply dget_some_key. rewrite (Hb u u) by auto.
      exists (kept (attr n u)). apply (G1 u).
      * now apply sorted_users_in.
      * unfold user_write. now rewrite str_eqb_refl.
    + split; [|tauto]. intros Hk. apply dget_some_key in Hk as (v & Hv).
      rewrite (Hb u u) in Hv by auto. rewrite G2 in Hv; [discriminate|].
      intros w Hw. destruct (user_write (src_of rp parent nm) n w u) eqn:Ew; auto. exfalso.
      assert (Hww : user_write (src_of rp parent nm) n w u <> None) by congruence.
      apply user_write_where in Hww. apply sorted_users_in in Hw as [Hw1 Hw2].
      destruct Hww as [->|(m & Hm & ->)]; [contradiction|].
      destruct Hu as (_ & _ & Hu). now apply (Hu m Hm w).
  - intros u Hu Hi. assert (Hs : In u sorted_users) by (now apply sorted_users_in).
    rewrite !(Hb u) by auto.
    assert (Hs2 : u ++ META_COMMENT <> u) by (apply app_no_suffix; discriminate).
    assert (Hs3 : u ++ META_TYPE <> u) by (apply app_no_suffix; discriminate).
    assert (Hd1 : u ++ META_SOURCE <> u ++ META_COMMENT) by (intros X; apply app_inv_head in X; discriminate).
    assert (Hd2 : u ++ META_SOURCE <> u ++ META_TYPE) by (intros X; apply app_inv_head in X; discriminate).
    assert (Hd3 : u ++ META_COMMENT <> u ++ META_TYPE) by (intros X; apply app_inv_head in X; discriminate).
    assert (W : forall k, (k = u ++ META_COMMENT \/ k = u ++ META_TYPE) ->
       dget k attrs = user_write (src_of rp parent nm) n u k).
    { intros k Hk. destruct (user_write (src_of rp parent nm) n u k) as [v|] eqn:Ew.
      - apply (G1 u); auto.
      - apply G2. intros w Hw. destruct (user_write (src_of rp parent nm) n w k) eqn:Ew2; auto. exfalso.
        assert (Hww : user_write (src_of rp parent nm) n w k <> None) by congruence.
        apply user_write_where in Hww. apply sorted_users_in in Hw as [Hw1 Hw2].
        assert (w = u); [|subst; congruence].
        destruct Hww as [->|(m & Hm & Ek)].
        + destruct Hw1 as (_ & _ & Hw1). destruct Hk as [Hk|Hk]; exfalso.
          * now apply (Hw1 "_comment__nxt"%string (or_introl eq_refl) u).
          * now apply (Hw1 "_type__nxt"%string (or_intror (or_introl eq_refl)) u).
        + subst k. cbn in Hm. destruct Hm as [<-|[<-|[<-|[]]]], Hk as [Hk|Hk];
            try (eapply app_inj_len; [|exact Hk]; reflexivity); exfalso;
            apply (f_equal (@rev N)) in Hk; rewrite !rev_app_distr in Hk; discriminate. }
    split; [|split; [|split]].
    + apply (G1 u); auto. unfold user_write. now rewrite str_eqb_refl.
    + rewrite W by auto. unfold user_write.
      destruct (str_eqb_spec u (u ++ META_COMMENT)); [congruence|].
      destruct (str_eqb_spec (u ++ META_SOURCE) (u ++ META_COMMENT)); [congruence|].
      now rewrite str_eqb_refl.
    + rewrite W by auto. unfold user_write.
      destruct (str_eqb_spec u (u ++ META_TYPE)); [congruence|].
      destruct (str_eqb_spec (u ++ META_SOURCE) (u ++ META_TYPE)); [congruence|].
      destruct (str_eqb_spec (u ++ META_COMMENT) (u ++ META_TYPE)); [congruence|].
      now rewrite str_eqb_refl.
    + apply (G1 u); auto. unfold user_write.
      destruct (str_eqb_spec u (u ++ META_SOURCE)) as [X|X];
        [symmetry in X; apply app_no_suffix in X; [destruct X|discriminate]|].
      now rewrite str_eqb_refl.
  - intros a Ha Hne.
    assert (Hv : dget a n' = Some (load_val trip_data a)).
    { rewrite G. cbn [In SAVED] in Ha.
      repeat (destruct Ha as [<-|Ha]; [first [congruence | lits; reflexivity]|]); destruct Ha. }
    rewrite Hv. f_equal. destruct (str_in a (save_list n)) eqn:Es.
    + rewrite load_val_saved by (now apply str_in_In). reflexivity.
    + cbn [andb]. unfold load_val. rewrite trip_unsaved.
      * cbn [has_opinion negb andb]. destruct (str_in a ALLOW_NO_OPINION) eqn:E2; auto.
        apply str_in_In in E2. cbn in E2. destruct E2 as [<-|[]]. reflexivity.
      * cbn [In SAVED] in Ha.
        repeat (destruct Ha as [<-|Ha]; [vm_compute; discriminate|]); destruct Ha.
      * cbn [In SAVED] in Ha.
        repeat (destruct Ha as [<-|Ha]; [vm_compute; discriminate|]); destruct Ha.
      * rewrite save_list_name in *. apply str_in_not_In in Es. destruct is_world.
        -- cbn [In SAVED] in Ha.
           repeat (destruct Ha as [<-|Ha];
             [first [exfalso; apply Es; cbn; tauto | vm_compute; intuition discriminate]|]); destruct Ha.
        -- contradiction.
  - split; [|split; [|split; [|split]]]; rewrite G; lits; reflexivity.
Qed.

Lemma save_users_get (m : node) k :
  NoDup (dkeys m) ->
  dget k (save_users bi m) = if is_user bi k && str_in k (dkeys m) then Some (save_user m k) else None.
Proof.
  intros Hm. rewrite save_users_map by auto. rewrite dget_map.
  destruct (str_in k (filter (is_user bi) (dkeys m))) eqn:E.
  - apply str_in_In, filter_In in E as [E1 E2]. rewrite E2. apply str_in_In in E1. now rewrite E1.
  - destruct (is_user bi k) eqn:E2; auto. destruct (str_in k (dkeys m)) eqn:E3; auto. exfalso.
    apply str_in_not_In in E. apply E. apply filter_In. split; auto. now apply str_in_In.
Qed.

Lemma save_ext (m m' : node) :
  NoDup (dkeys m) -> NoDup (dkeys m') -> dget NAME m' = dget NAME m ->
  (forall u, user_name bi u -> (In u (dkeys m') <-> In u (dkeys m))) ->
  (forall u, user_name bi u -> In u (dkeys m) -> save_user m' u = save_user m u) ->
  (forall a, In a (save_list m) ->
     (if has_opinion (attr m' a) then Some (attr m' a) else None)
     = (if has_opinion (attr m a) then Some (attr m a) else None)) ->
  get_node_as_dict bi m' = get_node_as_dict bi m.
Proof.
  intros H1 H2 Hn Hu Hs Ha. unfold get_node_as_dict.
  assert (E : sort_items (save_users bi m') = sort_items (save_users bi m)).
  { apply sort_ext; auto using save_users_nodup. intros k.
    rewrite !save_users_get by auto. destruct (is_user bi k) eqn:E; auto. cbn [andb].
    apply is_user_iff in E. specialize (Hu k E).
    destruct (str_in k (dkeys m)) eqn:E1.
    - apply str_in_In in E1. rewrite (proj2 (str_in_In _ _)) by (now apply Hu).
      now rewrite Hs.
    - apply str_in_not_In in E1. destruct (str_in k (dkeys m')) eqn:E2; auto.
      apply str_in_In, Hu in E2. contradiction. }
  assert (E2 : match save_users bi m' with [] => [] | _ => [(K_ATTRS, VDict (sort_items (save_users bi m')))] end
             = match save_users bi m with [] => [] | _ => [(K_ATTRS, VDict (sort_items (save_users bi m)))] end).
  { rewrite E. pose proof (sort_perm (save_users bi m)) as P1. pose proof (sort_perm (save_users bi m')) as P2.
    rewrite E in P2. destruct (save_users bi m), (save_users bi m'); auto; exfalso.
    - apply Permutation_sym in P1. apply Permutation_nil in P1. rewrite P1 in P2.
      apply Permutation_nil in P2. discriminate.
    - apply Permutation_sym in P2. apply Permutation_nil in P2. rewrite P2 in P1.
      apply Permutation_nil in P1. discriminate. }
  rewrite E2, Hn. f_equal. fold (save_list m). clear E E2 Hs Hu.
  generalize (match save_users bi m with [] => [] | _ => [(K_ATTRS, VDict (sort_items (save_users bi m)))] end).
  revert Ha. generalize (save_list m). induction l as [|a l IH]; intros Ha d; [reflexivity|].
  cbn [fold_left]. rewrite IH by (intros; apply Ha; now right). f_equal.
  unfold save_internal. specialize (Ha a (or_introl eq_refl)).
  change (attr_or_none m' a) with (attr m' a). change (attr_or_none m a) with (attr m a).
  destruct (has_opinion (attr m' a)), (has_opinion (attr m a)); congruence.
Qed.

Lemma attr_some (m : node) a v : dget a m = Some v -> attr m a = v.
Proof. unfold attr. now intros ->. Qed.

Lemma round_trip_stable n' :
  (nm = WORLD \/ NoDup co) ->
  create_node trip_data rp parent false = Ok n' ->
  get_node_as_dict bi n' = get_node_as_dict bi n.
Proof.
  intros Hc E. destruct round_trip_load as (m & E' & Nd & U1 & U2 & I & CO & NM & _).
  rewrite E in E'. injection E' as <-. apply save_ext; auto.
  - congruence.
  - intros u Hu Hi. destruct (U2 u Hu Hi) as (A & B & C & _). rewrite !save_user_form.
    rewrite (attr_some _ _ _ A).
    assert (M : forall k, dget k n' = kept_meta (attr n k) ->
       truthy (attr n' k) = truthy (attr n k) /\ (truthy (attr n k) = true -> attr n' k = attr n k)).
    { intros k Hk. unfold attr at 1 4. rewrite Hk. unfold kept_meta.
      destruct (truthy (attr n k)) eqn:T; split; auto. discriminate. }
    destruct (M _ B) as [B1 B2], (M _ C) as [C1 C2]. rewrite B1, C1. f_equal.
    f_equal; [|f_equal].
    + destruct (truthy (attr n (u ++ META_COMMENT))); auto. now rewrite B2.
    + destruct (truthy (attr n (u ++ META_TYPE))); auto. now rewrite C2.
    + unfold kept. destruct (truthy (attr n u) && json_ok (attr n u)) eqn:T; [now rewrite T|reflexivity].
  - intros a Ha. destruct (str_eqb_spec a CHILD_ORDER) as [->|Hne].
    + rewrite (attr_some _ _ _ CO), (attr_some _ _ _ Hco). rewrite save_list_name in Ha.
      unfold loaded_order. unfold is_world in *. destruct (str_eqb_spec nm WORLD) as [Hw|Hw].
      * exfalso. revert Ha. vm_compute. intuition discriminate.
      * destruct Hc; [contradiction|]. now rewrite dedup_id.
    + rewrite (attr_some _ _ _ (I a (save_list_incl _ _ Ha) Hne)).
      rewrite (proj2 (str_in_In _ _) Ha). cbn [andb].
      destruct (has_opinion (attr n a)) eqn:O; [now rewrite O|].
      assert (D : has_opinion (default_of a) = false); [|now rewrite D].
      apply save_list_incl in Ha. cbn [In SAVED] in Ha.
      repeat (destruct Ha as [<-|Ha]; [reflexivity|]). destruct Ha.
Qed.
End Trip.

(** *** Through the file *)

Notation jd := through_json.

Lemma jd_get d k : dget k (jd d) = option_map json_norm (dget k d).
Proof.
  induction d as [|[k' v] d IH]; [reflexivity|]. cbn. destruct (str_eqb k' k); auto.
Qed.
Lemma jd_keys d : dkeys (jd d) = dkeys d.
Proof. unfold dkeys, through_json. rewrite map_map. reflexivity. Qed.
Lemma jd_set d k v : jd (dset k v d) = dset k (json_norm v) (jd d).
Proof.
  induction d as [|[k' v'] d IH]; [reflexivity|]. cbn. destruct (str_eqb k' k); cbn; [reflexivity|].
  f_equal. exact IH.
Qed.
Lemma jd_sort d : sort_items (jd d) = jd (sort_items d).
Proof.
  induction d as [|kv d IH]; [reflexivity|]. cbn [through_json map sort_items]. fold (jd d). rewrite IH. clear IH.
  induction (sort_items d) as [|x t IH]; [reflexivity|]. cbn.
  destruct (str_ltb (fst x) (fst kv)); cbn; [|reflexivity]. now rewrite <- IH.
Qed.
Lemma jd_attr d k : attr (jd d) k = json_norm (attr d k).
Proof. unfold attr. rewrite jd_get. destruct (dget k d); reflexivity. Qed.

Lemma jd_save_user n u : save_user (jd n) u = json_norm (save_user n u).
Proof.
  rewrite !save_user_form, !jd_attr, !json_norm_truthy, json_norm_ok.
  destruct (truthy (attr n (u ++ META_COMMENT))), (truthy (attr n (u ++ META_TYPE))),
    (truthy (attr n u) && json_ok (attr n u)); reflexivity.
Qed.

Lemma jd_save_users n : save_users bi (jd n) = jd (save_users bi n).
Proof.
  unfold save_users. rewrite jd_keys. change (@nil (pystr * pyval)) with (jd []) at 1.
  generalize (@nil (pystr * pyval)). induction (dkeys n) as [|k ks IH]; intros d; [reflexivity|].
  cbn [fold_left]. destruct (is_user bi k); [|apply IH].
  rewrite jd_save_user, <- jd_set. apply IH.
Qed.

Lemma jd_order d : order_node_dict (jd d) = jd (order_node_dict d).
Proof.
  unfold order_node_dict. rewrite jd_keys.
  assert (G : forall l r rem, fold_left (order_step (jd d)) l (jd r, rem)
              = let '(r', rem') := fold_left (order_step d) l (r, rem) in (jd r', rem')).
  { induction l as [|a l IH]; intros r rem; [reflexivity|]. cbn [fold_left].
    assert (S : order_step (jd d) (jd r, rem) a
              = let '(r', rem') := order_step d (r, rem) a in (jd r', rem')).
    { unfold order_step. rewrite !jd_get.
      set (r1 := match dget K_ATTRS d with
                 | Some ua => if str_eqb a COMPUTE && truthy ua then dset K_ATTRS ua r else r
                 | None => r end).
      assert (Hr : match option_map json_norm (dget K_ATTRS d) with
                 | Some ua => if str_eqb a COMPUTE && truthy ua then dset K_ATTRS ua (jd r) else jd r
                 | None => jd r end = jd r1).
      { unfold r1. destruct (dget K_ATTRS d) as [ua|]; cbn [option_map]; auto.
        rewrite json_norm_truthy. destruct (_ && _); auto. now rewrite jd_set. }
      rewrite Hr. destruct (dget (as_save_key a) d); cbn [option_map]; auto. now rewrite jd_set. }
    rewrite S. destruct (order_step d (r, rem) a). apply IH. }
  assert (G0 : fold_left (order_step (jd d)) SAVED ([], dkeys d)
     = let '(r', rem') := fold_left (order_step d) SAVED ([], dkeys d) in (jd r', rem'))
    by exact (G SAVED [] (dkeys d)). rewrite G0. clear G0.
  destruct (fold_left (order_step d) SAVED ([], dkeys d)) as [r rem]. clear G.
  revert r. induction rem as [|k rem IH]; intros r; [reflexivity|]. cbn [fold_left].
  rewrite jd_get. destruct (dget k d) as [v|]; cbn [option_map]; [|apply IH].
  rewrite <- jd_set. apply IH.
Qed.

Lemma jd_save n :
  (forall a, In a SAVED -> attr n a <> VTuple []) ->
  get_node_as_dict bi (jd n) = jd (get_node_as_dict bi n).
Proof.
  intros Ha. unfold get_node_as_dict. rewrite jd_save_users, jd_sort.
  fold (save_list n). fold (save_list (jd n)).
  assert (L : save_list (jd n) = save_list n).
  { unfold save_list. rewrite jd_get. destruct (dget NAME n) as [[]|]; reflexivity. }
  rewrite L. rewrite <- jd_order. f_equal.
  assert (S : match jd (save_users bi n) with
       | [] => [] | _ => [(K_ATTRS, VDict (jd (sort_items (save_users bi n))))] end
     = jd (match save_users bi n with
       | [] => [] | _ => [(K_ATTRS, VDict (sort_items (save_users bi n)))] end)).
  { destruct (save_users bi n); reflexivity. }
  rewrite S. clear S.
  assert (G : forall l d, (forall a, In a l -> attr n a <> VTuple []) ->
     fold_left (save_internal (jd n)) l (jd d) = jd (fold_left (save_internal n) l d)).
  { induction l as [|a l IH]; intros d Hl; [reflexivity|].
    cbn [fold_left]. rewrite <- IH by (intros; apply Hl; now right). f_equal.
    unfold save_internal. change (attr_or_none (jd n) a) with (attr (jd n) a).
    change (attr_or_none n a) with (attr n a). rewrite jd_attr.
    assert (O : has_opinion (json_norm (attr n a)) = has_opinion (attr n a)).
    { specialize (Hl a (or_introl eq_refl)). destruct (attr n a) as [| | | |[]|[]| |]; cbn; auto. }
    rewrite O. destruct (has_opinion (attr n a)); auto. now rewrite jd_set. }
  apply G. intros a H. apply Ha. eapply save_list_incl, H.
Qed.

Lemma save_key_order n :
  dkeys (get_node_as_dict bi n) = filter (fun k => dmem k (get_node_as_dict bi n)) file_order.
Proof.
  unfold get_node_as_dict.
  assert (E : exists l, (l = [] \/ exists x t, l = [(K_ATTRS, VDict (x :: t))]) /\
    match save_users bi n with [] => [] | _ => [(K_ATTRS, VDict (sort_items (save_users bi n)))] end = l).
  { destruct (save_users bi n) as [|x l]; [exists []; auto|].
    pose proof (sort_perm (x :: l)) as P. destruct (sort_items (x :: l)) as [|y t].
    - apply Permutation_nil in P. discriminate.
    - exists [(K_ATTRS, VDict (y :: t))]. split; eauto. }
  destruct E as (l & Hl & ->). fold (save_list n).
  assert (L : save_list n = WORLD_NODE_SAVED \/ save_list n = SAVED).
  { unfold save_list. destruct (dget NAME n) as [[]|]; auto. destruct (str_eqb _ _); auto. }
  assert (G : forall b1 b2 b3 b4 b5 b6 b7 v1 v2 v3 v4 v5 v6 v7, 
    let put (b : bool) a v spec := if b then dset (as_save_key a) v spec else spec in
    let d := put b7 COMPUTE v7 (put b6 COMMENT v6 (put b5 ENABLED v5 (put b4 CHILD_ORDER v4
             (put b3 EXECUTE_IN v3 (put b2 INSTANCE_PATH v2 (put b1 START_POINT v1 l)))))) in
    dkeys (order_node_dict d) = filter (fun k => dmem k (order_node_dict d)) file_order).
  { destruct Hl as [->|(x & t & ->)]; intros [] [] [] [] [] [] []; intros; vm_compute; reflexivity. }
  destruct L as [-> | ->]; cbn [fold_left SAVED WORLD_NODE_SAVED]; unfold save_internal.
  - apply (G false false false false false _ _ VNone VNone VNone VNone VNone).
  - apply G.
Qed.
End S.

(** *** The statements *)

Section Statements.
Variable bi : list pystr.

Lemma node_trip n nm parent rp co :
  NoDup (dkeys n) -> dget NAME n = Some (VStr nm) -> dget CHILD_ORDER n = Some (VStrs co) ->
  exists n', create_node (dset (lit "name") (VStr nm) (get_node_as_dict bi n)) rp parent false = Ok n' /\
  (forall u, user_name bi u -> (In u (dkeys n') <-> In u (dkeys n))) /\
  (forall u, user_name bi u -> In u (dkeys n) ->
     dget u n' = Some (kept (attr n u)) /\
     dget (u ++ lit "_comment__nxt") n' = kept_meta (attr n (u ++ lit "_comment__nxt")) /\
     dget (u ++ lit "_type__nxt") n' = kept_meta (attr n (u ++ lit "_type__nxt")) /\
     dget (u ++ lit "_source__nxt") n' = Some (VTuple [rp; VStr (join_node_paths parent nm)])) /\
  (nm <> WORLD ->
     (forall a d, In (a, d) saved_internal ->
        dget a n' = Some (if says (attr n a) then attr n a else d)) /\
     exists o, first_occ co o /\ dget (lit "_child_order") n' = Some (VList (map VStr o))) /\
  (nm = WORLD ->
     (forall a d, In (a, d) saved_of_world ->
        dget a n' = Some (if says (attr n a) then attr n a else d)) /\
     (forall a d, In (a, d) saved_internal -> ~ In (a, d) saved_of_world -> dget a n' = Some d) /\
     dget (lit "_child_order") n' = Some (VList [])) /\
  dget (lit "_name") n' = Some (VStr nm) /\ dget (lit "_parent_path") n' = Some (VStr parent) /\
  dget (lit "_source_layer") n' = Some rp /\ dget (lit "_proxy") n' = Some (VBool false).
Proof.
  intros Hnd Hname Hco.
  destruct (round_trip_load bi n nm parent rp co Hnd Hname Hco) as (n' & E & Nd & U1 & U2 & I & CO & R).
  exists n'. split; [exact E|]. split; [exact U1|]. split; [exact U2|].
  pose proof (save_list_name n nm Hname) as SL. unfold loaded_order, is_world in *.
  split; [|split; [|exact R]].
  - intros Hw. apply str_eqb_neq in Hw. rewrite Hw in *. split.
    + intros a d Ha. assert (A : In a SAVED /\ a <> CHILD_ORDER /\ d = default_of a).
      { cbn [In saved_internal] in Ha.
        repeat (destruct Ha as [Ha|Ha];
          [injection Ha as <- <-; split; [cbn; tauto|split; [vm_compute; discriminate|reflexivity]]|]).
        destruct Ha. }
      destruct A as (A1 & A2 & ->). rewrite (I a A1 A2), SL.
      rewrite (proj2 (str_in_In _ _) A1). reflexivity.
    + exists (dedup co). split; [apply dedup_first|exact CO].
  - intros Hw. apply str_eqb_eq in Hw. rewrite Hw in *. split; [|split].
    + intros a d Ha. assert (A : In a WORLD_NODE_SAVED /\ In a SAVED /\ a <> CHILD_ORDER /\ d = default_of a).
      { cbn [In saved_of_world] in Ha.
        repeat (destruct Ha as [Ha|Ha];
          [injection Ha as <- <-; split; [cbn; tauto|split; [cbn; tauto|split; [vm_compute; discriminate|reflexivity]]]|]).
        destruct Ha. }
      destruct A as (A0 & A1 & A2 & ->). rewrite (I a A1 A2), SL.
      rewrite (proj2 (str_in_In _ _) A0). reflexivity.
    + intros a d Ha Hn.
      assert (A : str_in a WORLD_NODE_SAVED = false /\ In a SAVED /\ a <> CHILD_ORDER /\ d = default_of a).
      { cbn [In saved_internal] in Ha.
        repeat (destruct Ha as [Ha|Ha];
          [injection Ha as <- <-; first [exfalso; apply Hn; cbn; tauto
            | split; [reflexivity|split; [cbn; tauto|split; [vm_compute; discriminate|reflexivity]]]]|]).
        destruct Ha. }
      destruct A as (A0 & A1 & A2 & ->). now rewrite (I a A1 A2), SL, A0.
    + exact CO.
Qed.

Lemma node_stable n nm parent rp co n' :
  NoDup (dkeys n) -> dget NAME n = Some (VStr nm) -> dget CHILD_ORDER n = Some (VStrs co) ->
  (nm = WORLD \/ NoDup co) ->
  create_node (dset (lit "name") (VStr nm) (get_node_as_dict bi n)) rp parent false = Ok n' ->
  get_node_as_dict bi n' = get_node_as_dict bi n.
Proof. intros. eapply round_trip_stable; eauto. Qed.

Lemma map_norm_vstrs l : map json_norm (map VStr l) = map VStr l.
Proof. rewrite map_map. reflexivity. Qed.

Lemma jd_dset_name nm d :
  through_json (dset (lit "name") (VStr nm) d) = dset (lit "name") (VStr nm) (through_json d).
Proof. apply jd_set. Qed.

Lemma file_trip n nm parent rp co :
  NoDup (dkeys n) -> dget NAME n = Some (VStr nm) -> dget CHILD_ORDER n = Some (VStrs co) ->
  (forall a d, In (a, d) saved_internal -> attr n a <> VTuple []) ->
  exists n', create_node (dset (lit "name") (VStr nm) (through_json (get_node_as_dict bi n))) rp parent false = Ok n' /\
  (forall u, user_name bi u -> (In u (dkeys n') <-> In u (dkeys n))) /\
  (forall u, user_name bi u -> In u (dkeys n) -> dget u n' = Some (json_norm (kept (attr n u)))) /\
  (nm <> WORLD -> forall a d, In (a, d) saved_internal ->
        dget a n' = Some (if says (attr n a) then json_norm (attr n a) else d)) /\
  (nm = WORLD \/ NoDup co -> get_node_as_dict bi n' = through_json (get_node_as_dict bi n)).
Proof.
  intros Hnd Hname Hco Ht.
  assert (Ht2 : forall a, In a SAVED -> attr n a <> VTuple []).
  { intros a Ha. destruct (str_eqb_spec a CHILD_ORDER) as [->|Hc].
    - unfold attr. rewrite Hco. discriminate.
    - apply (Ht a (default_of a)). cbn [In SAVED] in Ha.
      repeat (destruct Ha as [<-|Ha]; [first [congruence | cbn; tauto]|]). destruct Ha. }
  pose proof (jd_save bi n Ht2) as Es.
  assert (J1 : NoDup (dkeys (through_json n))) by now rewrite jd_keys.
  assert (J2 : dget NAME (through_json n) = Some (VStr nm)) by now rewrite jd_get, Hname.
  assert (J3 : dget CHILD_ORDER (through_json n) = Some (VStrs co)).
  { rewrite jd_get, Hco. cbn [option_map json_norm VStrs]. now rewrite map_norm_vstrs. }
  destruct (node_trip (through_json n) nm parent rp co J1 J2 J3) as (n' & E & U1 & U2 & I & _).
  exists n'. rewrite Es in E. split; [exact E|]. split; [|split; [|split]].
  - intros u Hu. rewrite <- (jd_keys n). now apply U1.
  - intros u Hu Hi. rewrite <- jd_keys in Hi. destruct (U2 u Hu Hi) as [-> _]. f_equal.
    rewrite jd_attr. unfold kept. rewrite json_norm_truthy, json_norm_ok.
    destruct (_ && _); reflexivity.
  - intros Hw a d Ha. destruct (I Hw) as [I1 _]. rewrite (I1 a d Ha). rewrite jd_attr.
    assert (O : says (json_norm (attr n a)) = says (attr n a)).
    { specialize (Ht a d Ha). destruct (attr n a) as [| | | |[]|[]| |]; cbn; auto. }
    rewrite O. reflexivity.
  - intros Hc. rewrite <- Es. eapply node_stable with (nm := nm) (co := co); eauto. rewrite Es. exact E.
Qed.
End Statements.

Lemma saved_attrs bi n : NoDup (dkeys n) ->
  dget (lit "attrs") (get_node_as_dict bi n)
  = match filter (fun u => is_user bi u) (dkeys n) with
    | [] => None
    | us => Some (VDict (sort_items (map (fun u => (u, save_user n u)) us)))
    end.
Proof.
  intros H. change (lit "attrs") with K_ATTRS. rewrite save_get_attrs, save_users_map by auto.
  change (fun u => is_user bi u) with (is_user bi).
  destruct (filter (is_user bi) (dkeys n)); reflexivity.
Qed.
