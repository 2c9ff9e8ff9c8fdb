From Coq Require Import String List NArith ZArith Bool Lia.
From Verif Require Import PyStr PyStrFacts NxtPath PathSpec PathProofs Dict DictFacts PyVal PyValFacts NodeIO NodeIOSpec NodeIOProofs.
From Verif Require Import CacheFile CacheFileSpec.
Import ListNotations.

Section P.
Variable bi : list pystr.

(** A node with a name and no child order saves as without them. *)
Lemma same_saved (n : node) nm :
  NoDup (dkeys n) -> dget NAME n = None -> dget CHILD_ORDER n = None -> nm <> WORLD ->
  let m := dset CHILD_ORDER (VList []) (dset NAME (VStr nm) n) in
  NoDup (dkeys m) /\ dget NAME m = Some (VStr nm) /\ dget CHILD_ORDER m = Some (VList (map VStr [])) /\
  (forall k, k <> NAME -> k <> CHILD_ORDER -> dget k m = dget k n) /\
  get_node_as_dict bi m = get_node_as_dict bi n.
Proof.
  intros Hn H1 H2 Hw m.
  assert (Hm : NoDup (dkeys m)) by (unfold m; auto using NoDup_dset).
  assert (G : forall k, k <> NAME -> k <> CHILD_ORDER -> dget k m = dget k n).
  { intros k A B. unfold m. rewrite !dget_dset. destruct (str_eqb_spec CHILD_ORDER k); [congruence|]. destruct (str_eqb_spec NAME k); congruence. }
  assert (Gn : dget NAME m = Some (VStr nm)) by (unfold m; rewrite dget_dset; cbn [str_eqb]; rewrite dget_dset; now rewrite str_eqb_refl).
  assert (Gc : dget CHILD_ORDER m = Some (VList [])) by (unfold m; rewrite dget_dset; now rewrite str_eqb_refl).
  split; [exact Hm|]. split; [exact Gn|]. split; [exact Gc|]. split; [exact G|].
  assert (K : filter (is_user bi) (dkeys m) = filter (is_user bi) (dkeys n)).
  { assert (Hk : forall (d : node) a v, dget a d = None -> dkeys (dset a v d) = dkeys d ++ [a]).
    { clear. induction d as [|(x, y) d IH]; intros a v H; [reflexivity|]. cbn in *. destruct (str_eqb x a); [discriminate|]. cbn. f_equal. now apply IH. }
    assert (P : forall a, In a internal_names -> is_user bi a = false).
    { intros a Ha. destruct (is_user bi a) eqn:E; [|reflexivity]. apply is_user_iff in E as (_ & E & _). now destruct (E Ha). }
    unfold m. rewrite Hk; [rewrite Hk by exact H1|].
    - rewrite !filter_app. cbn [filter]. rewrite (P NAME), (P CHILD_ORDER) by (vm_compute; tauto). now rewrite !app_nil_r.
    - rewrite dget_dset. exact H2. }
  assert (A : forall k, k <> NAME -> k <> CHILD_ORDER -> attr_or_none m k = attr_or_none n k) by (intros; unfold attr_or_none; now rewrite G).
  assert (U : save_users bi m = save_users bi n).
  { rewrite !save_users_map by assumption. rewrite K. apply map_ext_in. intros u Hu. apply filter_In in Hu as (_ & Hu). apply is_user_iff in Hu as (_ & Hi & _).
    f_equal. unfold save_user.
    assert (S : forall s, In s [META_COMMENT; META_TYPE] -> attr_or_none m (u ++ s) = attr_or_none n (u ++ s)).
    { intros s Hs. apply A; intros E; apply (f_equal (@rev _)) in E; rewrite rev_app_distr in E;
        destruct Hs as [<-|[<-|[]]]; discriminate E. }
    rewrite !S by (cbn; tauto). rewrite A; [reflexivity| |]; intros ->; apply Hi; vm_compute; tauto. }
  unfold get_node_as_dict. rewrite U, Gn, H1. destruct (str_eqb_spec nm WORLD) as [|_]; [contradiction|]. f_equal.
  generalize (match save_users bi n with [] => [] | _ => [(K_ATTRS, VDict (sort_items (save_users bi n)))] end). intros spec.
  assert (I : forall spec a, save_internal m spec a = save_internal n spec a \/ a = NAME).
  { intros sp a. destruct (str_eqb_spec a NAME) as [|Na]; [now right|left]. unfold save_internal.
    destruct (str_eqb_spec a CHILD_ORDER) as [->|Nc]; [|now rewrite A].
    assert (attr_or_none m CHILD_ORDER = VList []) as -> by (unfold attr_or_none; now rewrite Gc).
    assert (attr_or_none n CHILD_ORDER = VNone) as -> by (unfold attr_or_none; now rewrite H2). reflexivity. }
  assert (F : forall l spec, ~ In NAME l -> fold_left (save_internal m) l spec = fold_left (save_internal n) l spec).
  { induction l as [|a l IH]; intros sp Hl; [reflexivity|]. cbn [fold_left]. destruct (I sp a) as [->| ->]; [apply IH; intros Z; apply Hl; now right|].
    destruct Hl. now left. }
  apply F. intros Z. apply str_in_In in Z. vm_compute in Z. discriminate Z.
Qed.

(** An internal attribute that is not saved does not matter. *)
Lemma saved_dset a v (n : node) : NoDup (dkeys n) -> In a internal_names -> ~ In a SAVED -> a <> NAME ->
  get_node_as_dict bi (dset a v n) = get_node_as_dict bi n.
Proof.
  intros Hn Ha Hs Hna.
  assert (G : forall k, k <> a -> dget k (dset a v n) = dget k n).
  { intros k Hk. rewrite dget_dset. destruct (str_eqb_spec a k); congruence. }
  assert (A : forall k, k <> a -> attr_or_none (dset a v n) k = attr_or_none n k) by (intros; unfold attr_or_none; now rewrite G).
  assert (P : is_user bi a = false).
  { destruct (is_user bi a) eqn:E; [|reflexivity]. apply is_user_iff in E as (_ & E & _). now destruct (E Ha). }
  assert (K : filter (is_user bi) (dkeys (dset a v n)) = filter (is_user bi) (dkeys n)).
  { destruct (dget a n) eqn:E.
    - rewrite dkeys_dset_in; [reflexivity|]. destruct (in_dec (list_eq_dec N.eq_dec) a (dkeys n)) as [|Z]; [assumption|]. apply dget_none in Z. congruence.
    - rewrite dkeys_dset_new by now apply dget_none. rewrite filter_app. cbn [filter]. rewrite P. apply app_nil_r. }
  assert (U : save_users bi (dset a v n) = save_users bi n).
  { rewrite !save_users_map by auto using NoDup_dset. rewrite K. apply map_ext_in. intros u Hu. apply filter_In in Hu as (_ & Hu). apply is_user_iff in Hu as (_ & Hi & _).
    f_equal. unfold save_user.
    assert (S : forall s, In s [META_COMMENT; META_TYPE] -> attr_or_none (dset a v n) (u ++ s) = attr_or_none n (u ++ s)).
    { intros s Hs'. apply A. intros E. assert (endswith (lit "nxt") a = true) as Z.
      { rewrite <- E. destruct Hs' as [<-|[<-|[]]]; unfold endswith; rewrite rev_app_distr; reflexivity. }
      revert Z. clear -Ha. cbn [internal_names map In] in Ha. repeat (destruct Ha as [<-|Ha]; [vm_compute; discriminate|]). destruct Ha. }
    rewrite !S by (cbn; tauto). rewrite A; [reflexivity|]. intros ->. now apply Hi. }
  unfold get_node_as_dict. rewrite U, G by congruence. f_equal.
  assert (F : forall l spec, ~ In a l -> fold_left (save_internal (dset a v n)) l spec = fold_left (save_internal n) l spec).
  { induction l as [|b l IH]; intros sp Hl; [reflexivity|]. cbn [fold_left].
    assert (save_internal (dset a v n) sp b = save_internal n sp b) as -> by (unfold save_internal; rewrite A; [reflexivity|intros ->; apply Hl; now left]).
    apply IH. intros Z. apply Hl. now right. }
  apply F. intros Z. apply Hs. pose proof (save_list_incl n a) as L. unfold save_list in L. now apply L.
Qed.

Lemma strings_of l : strings (map VStr l) = Some l.
Proof. induction l as [|x l IH]; [reflexivity|]. cbn. now rewrite IH. Qed.
Lemma norm_strs l : json_norm (VList (map VStr l)) = VList (map VStr l).
Proof. cbn. rewrite map_map. reflexivity. Qed.

Lemma saved_nodup n : NoDup (dkeys (get_node_as_dict bi n)).
Proof. rewrite save_key_order. apply NoDup_filter. vm_compute. repeat constructor; cbn; intuition discriminate. Qed.

(** All of it can be written. *)
Lemma result_ok code n : run_result code n -> json_ok (VDict (get_node_as_dict bi n)) = true.
Proof.
  intros (Hn & _ & (lines & Hl & _) & Ho & Hm). cbn [json_ok]. apply forallb_forall. intros (k, v) Hk. cbn [snd].
  apply In_dget in Hk; [|apply saved_nodup]. rewrite save_get in Hk.
  destruct (List.find _ (save_list n)) as [a|] eqn:E.
  - injection Hk as <-. apply find_some in E as (Ia & E). apply andb_true_iff in E as (_ & E). apply save_list_incl in Ia.
    destruct (str_eqb_spec a COMPUTE) as [->|Nc].
    + unfold attr_or_none. change (dget COMPUTE n) with (dget (lit "_code") n). rewrite Hl. cbn [json_ok]. apply forallb_forall. intros x Hx.
      apply in_map_iff in Hx as (y & <- & _). reflexivity.
    + exfalso. unfold attr_or_none in E. rewrite (Ho a) in E; [discriminate|..].
      * apply str_in_In. cbn [SAVED In] in Ia. repeat (destruct Ia as [<-|Ia]; [reflexivity|]). destruct Ia.
      * intros ->. apply str_in_In in Ia. vm_compute in Ia. discriminate.
      * exact Nc.
      * intros ->. apply str_in_In in Ia. vm_compute in Ia. discriminate.
  - destruct (str_eqb k K_ATTRS); [|discriminate]. destruct (save_users bi n) as [|x us] eqn:Eu; [discriminate|]. injection Hk as <-. change (insert_item x (sort_items us)) with (sort_items (x :: us)). rewrite <- Eu.
    cbn [json_ok]. apply forallb_forall. intros (u, w) Hu. apply (proj1 (sort_in _ _)) in Hu. rewrite save_users_map in Hu by exact Hn.
    apply in_map_iff in Hu as (u' & Z & _). injection Z as <- <-. cbn [snd]. rewrite save_user_form.
    assert (A : forall m, In m ["_comment__nxt"; "_type__nxt"]%string -> attr n (u' ++ lit m) = VNone)
      by (intros m Im; unfold attr; now rewrite Hm).
    change META_COMMENT with (lit "_comment__nxt"). change META_TYPE with (lit "_type__nxt").
    rewrite (A "_comment__nxt"%string), (A "_type__nxt"%string) by (cbn; tauto). cbn [truthy app].
    destruct (truthy (attr n u')); [|reflexivity]. cbn [andb]. destruct (json_ok (attr n u')) eqn:Ej; [|reflexivity]. cbn [json_ok forallb snd]. now rewrite Ej.
Qed.

Lemma create_nodup data rp parent n' : create_node data rp parent false = Ok n' -> NoDup (dkeys n').
Proof.
  intros E. destruct (dget (lit "name") data) as [[| | |nm| | | |]|] eqn:En; try (unfold create_node in E; rewrite En in E; discriminate).
  destruct (user_part (src_of rp parent nm) data) as [attrs|x] eqn:Eu.
  2:{ unfold create_node in E. rewrite En in E. unfold user_part, src_of in Eu. rewrite Eu in E. discriminate. }
  destruct (load_child_order data) as [co|x] eqn:Ec.
  2:{ unfold create_node in E. rewrite En in E. unfold user_part, src_of in Eu. rewrite Eu in E. cbn [bind] in E. rewrite Ec in E. discriminate. }
  destruct (create_get data rp parent nm attrs co En Eu Ec) as (n2 & E2 & Hd & _). congruence.
Qed.

(** One node there and back. *)
Lemma node_back code n ns nm acc : run_result code n -> Forall component (ns ++ [nm]) ->
  exists n', load_node acc (abs_path (ns ++ [nm]), json_norm (VDict (get_node_as_dict bi n))) = Ok (dset (abs_path (ns ++ [nm])) n' acc) /\
  (forall u, user_name bi u -> (In u (dkeys n') <-> In u (dkeys n))) /\
  (forall u, user_name bi u -> In u (dkeys n) -> dget u n' = Some (json_norm (kept (attr n u)))) /\
  dget (lit "_cached_code") n' = Some (VStr code) /\ dget (lit "_code") n' = dget (lit "_code") n /\
  get_node_as_dict bi n' = through_json (get_node_as_dict bi n).
Proof.
  intros (Hn & Hcc & (lines & Hl & Hne & Hnl & Ec) & Ho & Hm) Hc.
  assert (Hw : nm <> WORLD).
  { intros ->. apply Forall_app in Hc as (_ & Hc). inversion Hc as [|? ? (_ & X)]. apply X. now left. }
  destruct (same_saved n nm Hn) as (Hm0 & Nm & Co & Gm & Em); [| |exact Hw|].
  { apply Ho; [vm_compute; tauto|..]; discriminate. } { apply Ho; [vm_compute; tauto|..]; discriminate. }
  set (m := dset CHILD_ORDER (VList []) (dset NAME (VStr nm) n)) in *.
  assert (AI : forall a d, In (a, d) saved_internal -> attr m a = attr n a).
  { intros a d Ha. unfold attr. rewrite Gm; [reflexivity| |]; intros ->; apply (in_map fst) in Ha; apply str_in_In in Ha; vm_compute in Ha; discriminate. }
  destruct (file_trip bi m nm (abs_path ns) VNone [] Hm0 Nm Co) as (n' & E & K & V & I & S).
  { intros a d Ha. rewrite (AI a d Ha). unfold attr. destruct (str_eqb_spec a (lit "_code")) as [->|Na]; [rewrite Hl; discriminate|].
    apply (in_map fst) in Ha. cbn [fst] in Ha. rewrite Ho; [discriminate| | |exact Na|].
    - apply str_in_In. cbn [map fst saved_internal In] in Ha. repeat (destruct Ha as [<-|Ha]; [reflexivity|]). destruct Ha.
    - intros ->. apply str_in_In in Ha. vm_compute in Ha. discriminate.
    - intros ->. apply str_in_In in Ha. vm_compute in Ha. discriminate. }
  rewrite Em in E, S.
  exists (dset CACHED_CODE (VStr code) n'). 
  assert (Code : dget (lit "_code") n' = Some (VList (map VStr lines))).
  { rewrite (I Hw (lit "_code") (VList [])) by (cbn; tauto). rewrite (AI (lit "_code") (VList [])) by (cbn; tauto). unfold attr. rewrite Hl.
    destruct lines as [|x t]; [contradiction|]. cbn [map says]. now rewrite <- norm_strs with (l := x :: t) at 2. }
  assert (UN : forall u, user_name bi u -> u <> NAME /\ u <> CHILD_ORDER /\ u <> CACHED_CODE).
  { intros u (_ & Hu & _). repeat split; intros ->; apply Hu; vm_compute; tauto. }
  assert (Kn : forall u, user_name bi u -> (In u (dkeys m) <-> In u (dkeys n))).
  { intros u Hu. destruct (UN u Hu) as (A & B & _). unfold m. rewrite !in_dkeys_dset. tauto. }
  split; [|split; [|split; [|split; [|split]]]].
  - unfold load_node. change (json_norm (VDict (get_node_as_dict bi n))) with (VDict (through_json (get_node_as_dict bi n))).
    cbv beta iota. rewrite node_name_abs, get_parent_path_abs by exact Hc. rewrite E. cbn [bind].
    change (dget COMPUTE n') with (dget (lit "_code") n'). rewrite Code, strings_of. now rewrite Ec.
  - intros u Hu. rewrite in_dkeys_dset, (K u Hu), (Kn u Hu). destruct (UN u Hu) as (_ & _ & C). tauto.
  - intros u Hu Iu. destruct (UN u Hu) as (A & B & C). rewrite dget_dset. destruct (str_eqb_spec CACHED_CODE u); [congruence|].
    rewrite (V u Hu) by now apply Kn. unfold attr. now rewrite Gm.
  - rewrite dget_dset. reflexivity.
  - rewrite dget_dset. cbn [str_eqb]. change (str_eqb CACHED_CODE (lit "_code")) with false. cbv iota. now rewrite Code, Hl.
  - rewrite saved_dset; [apply S; right; apply NoDup_nil|exact (create_nodup _ _ _ _ E)|vm_compute; tauto|vm_compute; intuition discriminate|discriminate].
Qed.

Definition goes (c : cache) : Prop :=
  forall p n, In (p, n) c -> (exists code, run_result code n) /\ exists ns nm, p = abs_path (ns ++ [nm]) /\ Forall component (ns ++ [nm]).

Lemma save_fold (c : cache) : forall acc, NoDup (dkeys c) -> (forall k, In k (dkeys c) -> ~ In k (dkeys acc)) ->
  fold_left (fun acc kv => dset (fst kv) (VDict (get_node_as_dict bi (snd kv))) acc) c acc
  = acc ++ map (fun kv => (fst kv, VDict (get_node_as_dict bi (snd kv)))) c.
Proof.
  induction c as [|(p, n) c IH]; intros acc Hd Hf; cbn [fold_left map fst snd]; [now rewrite app_nil_r|].
  inversion Hd as [|? ? H1 H2]; subst.
  assert (E : dset p (VDict (get_node_as_dict bi n)) acc = acc ++ [(p, VDict (get_node_as_dict bi n))]).
  { assert (Hp : ~ In p (dkeys acc)) by (apply Hf; now left). clear -Hp. induction acc as [|(a, b) acc IH]; [reflexivity|]. cbn in *.
    destruct (str_eqb_spec a p) as [->|]; [exfalso; apply Hp; now left|]. f_equal. apply IH. tauto. }
  rewrite E. rewrite IH; [now rewrite <- app_assoc|exact H2|]. intros k Hk. unfold dkeys. rewrite map_app, in_app_iff. intros [Z|[Z|[]]].
  - apply (Hf k); [now right|exact Z].
  - cbn in Z. subst k. contradiction.
Qed.

Definition back (n n' : node) : Prop :=
  (forall u, user_name bi u -> (In u (dkeys n') <-> In u (dkeys n))) /\
  (forall u, user_name bi u -> In u (dkeys n) -> dget u n' = Some (json_norm (kept (attr n u)))) /\
  dget (lit "_cached_code") n' = dget (lit "_cached_code") n /\ dget (lit "_code") n' = dget (lit "_code") n /\
  get_node_as_dict bi n' = through_json (get_node_as_dict bi n).

Lemma load_fold (c : cache) : forall acc, NoDup (dkeys c) -> (forall k, In k (dkeys c) -> ~ In k (dkeys acc)) -> goes c ->
  exists c', fold_res load_node (map (fun kv => (fst kv, json_norm (VDict (get_node_as_dict bi (snd kv))))) c) acc = Ok (acc ++ c') /\
    Forall2 (fun a b => fst a = fst b /\ back (snd a) (snd b)) c c'.
Proof.
  induction c as [|(p, n) c IH]; intros acc Hd Hf Hg; cbn [map fst snd fold_res].
  { exists []. rewrite app_nil_r. split; [reflexivity|constructor]. }
  inversion Hd as [|? ? H1 H2]; subst. destruct (Hg p n (or_introl eq_refl)) as ((code & Hr) & ns & nm & -> & Hc).
  destruct (node_back code n ns nm acc Hr Hc) as (n' & E & B1 & B2 & B3 & B4 & B5). rewrite E. cbn [bind].
  assert (E2 : dset (abs_path (ns ++ [nm])) n' acc = acc ++ [(abs_path (ns ++ [nm]), n')]).
  { assert (Hp : ~ In (abs_path (ns ++ [nm])) (dkeys acc)) by (apply Hf; now left). revert Hp. generalize (abs_path (ns ++ [nm])). clear. intros p Hp.
    induction acc as [|(a, b) acc IH]; [reflexivity|]. cbn in *. destruct (str_eqb_spec a p) as [->|]; [exfalso; apply Hp; now left|]. f_equal. apply IH. tauto. }
  rewrite E2. destruct (IH (acc ++ [(abs_path (ns ++ [nm]), n')])) as (c' & E3 & F).
  - exact H2.
  - intros k Hk. unfold dkeys. rewrite map_app, in_app_iff. intros [Z|[Z|[]]]; [apply (Hf k); [now right|exact Z]|]. cbn in Z. subst k. contradiction.
  - intros q m Hq. apply Hg. now right.
  - exists ((abs_path (ns ++ [nm]), n') :: c'). split; [rewrite E3, <- app_assoc; reflexivity|]. constructor; [|exact F]. split; [reflexivity|].
    split; [exact B1|]. split; [exact B2|]. split; [etransitivity; [exact B3|symmetry; apply Hr]|]. split; [exact B4|exact B5].
Qed.

Lemma round_trip version (c : cache) : NoDup (dkeys c) -> goes c ->
  exists data c', save bi version c = Some data /\ load data = Ok c' /\
    Forall2 (fun a b => fst a = fst b /\ back (snd a) (snd b)) c c' /\
    get_save_data bi version c' = map (fun kv => (fst kv, json_norm (snd kv))) (get_save_data bi version c).
Proof.
  intros Hd Hg.
  assert (Es : forall c, NoDup (dkeys c) -> get_save_data bi version c = [(K_VERSION, VStr version); (K_NODES, VDict (map (fun kv => (fst kv, VDict (get_node_as_dict bi (snd kv)))) c))]).
  { intros d Hdd. unfold get_save_data. rewrite save_fold; [reflexivity|exact Hdd|intros k _ []]. }
  destruct (load_fold c [] Hd) as (c' & El & F); [intros k _ []|exact Hg|].
  exists (map (fun kv => (fst kv, json_norm (snd kv))) (get_save_data bi version c)), c'.
  assert (Ed' : dkeys c' = dkeys c). { clear -F. induction F as [|a b l l' (H & _) F IH]; [reflexivity|]. unfold dkeys in *. cbn [map]. now rewrite H, IH. }
  split; [|split; [|split; [exact F|]]].
  - unfold save. replace (json_ok (VDict (get_save_data bi version c))) with true; [reflexivity|]. symmetry. rewrite (Es c Hd).
    cbn [json_ok forallb snd]. rewrite andb_true_r. apply forallb_forall. intros (k, v) Hk. apply in_map_iff in Hk as ((p, n) & Z & Hi). injection Z as <- <-.
    cbn [snd]. destruct (Hg p n Hi) as ((code & Hr) & _). exact (result_ok code n Hr).
  - rewrite (Es c Hd). unfold load. cbn [map fst snd]. cbn [dget]. change (str_eqb K_VERSION K_NODES) with false. change (str_eqb K_NODES K_NODES) with true. cbv iota.
    cbn [json_norm]. rewrite map_map. cbn [fst snd]. exact El.
  - rewrite (Es c Hd), (Es c') by (now rewrite Ed'). cbn [map fst snd json_norm]. f_equal. f_equal. f_equal. f_equal. rewrite map_map. cbn [fst snd].
    clear -F. induction F as [|a b l l' (H & B) F IH]; [reflexivity|]. cbn [map]. f_equal; [|exact IH]. destruct B as (_ & _ & _ & _ & B). now rewrite H, B.
Qed.
End P.
