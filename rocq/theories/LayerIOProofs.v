(** Proofs about saving and loading layers. *)

From Coq Require Import String List NArith ZArith Bool Lia Permutation Sorted.
From Verif Require Import PyStr PyStrFacts NxtPath PathSpec PathProofs Dict DictFacts PyVal PyValFacts
  NodeIO NodeIOSpec NodeIOProofs LayerIO LayerIOSpec NodeTableProofs.
Import ListNotations.

Lemma filter_all {A} (f : A -> bool) l : (forall x, In x l -> f x = true) -> filter f l = l.
Proof.
  induction l as [|x l IH]; intros H; [reflexivity|]. cbn. rewrite (H x) by now left.
  f_equal. apply IH. intros. apply H. now right.
Qed.

(** *** The layer's own data *)

Lemma save_form bi L :
  get_save_data bi L =
  filter (fun kv => negb (empty_container (snd kv)))
    [ (K_VERSION, VStr VERSION_STR);
      (K_ALIAS, l_alias L);
      (K_COLOR, l_color L);
      (K_MUTE, l_mute L);
      (K_SOLO, l_solo L);
      (K_REFERENCES, VStrs (l_refs L));
      (K_OVERRIDES, VDict (sort_items (l_overrides L)));
      (K_META, VDict (get_meta_data L));
      (K_NODES, VDict (get_nodes_save_data bi L)) ].
Proof.
  unfold get_save_data.
  generalize (l_alias L) as v1, (l_color L) as v2, (l_mute L) as v3, (l_solo L) as v4,
    (VStrs (l_refs L)) as v5, (VDict (sort_items (l_overrides L))) as v6,
    (VDict (get_meta_data L)) as v7, (VDict (get_nodes_save_data bi L)) as v8.
  intros. cbn [filter snd].
  generalize (empty_container v1) as b1, (empty_container v2) as b2, (empty_container v3) as b3,
    (empty_container v4) as b4, (empty_container v5) as b5, (empty_container v6) as b6,
    (empty_container v7) as b7, (empty_container v8) as b8.
  cbn [empty_container negb].
  intros [] [] [] [] [] [] [] []; vm_compute; reflexivity.
Qed.

Lemma dget_filter {V} (f : V -> bool) k (d : dict V) : NoDup (dkeys d) ->
  dget k (filter (fun kv => f (snd kv)) d)
  = match dget k d with Some v => if f v then Some v else None | None => None end.
Proof.
  induction d as [|[k' v] d IH]; intros H; [reflexivity|]. cbn [filter snd dget].
  cbn [dkeys map fst] in H. apply NoDup_cons_iff in H as [H1 H2].
  destruct (str_eqb k' k) eqn:E.
  - destruct (f v) eqn:F; cbn [dget]; [now rewrite E|]. rewrite IH by auto.
    apply str_eqb_eq in E. subst k'. destruct (dget k d) eqn:G; auto.
    exfalso. apply H1. apply dget_some_key. eauto.
  - destruct (f v); cbn [dget]; rewrite ?E; now apply IH.
Qed.

Definition save_list9 bi L : dict pyval :=
    [ (K_VERSION, VStr VERSION_STR);
      (K_ALIAS, l_alias L);
      (K_COLOR, l_color L);
      (K_MUTE, l_mute L);
      (K_SOLO, l_solo L);
      (K_REFERENCES, VStrs (l_refs L));
      (K_OVERRIDES, VDict (sort_items (l_overrides L)));
      (K_META, VDict (get_meta_data L));
      (K_NODES, VDict (get_nodes_save_data bi L)) ].

Lemma save_get9 bi L k v :
  dget k (save_list9 bi L) = Some v ->
  dget k (get_save_data bi L) = if empty_container v then None else Some v.
Proof.
  intros H. rewrite save_form. fold (save_list9 bi L).
  rewrite (dget_filter (fun v => negb (empty_container v))).
  - rewrite H. now destruct (empty_container v).
  - vm_compute. repeat constructor; cbn; intuition discriminate.
Qed.

Lemma save_get9_none bi L k : dget k (save_list9 bi L) = None -> dget k (get_save_data bi L) = None.
Proof.
  intros H. rewrite save_form. fold (save_list9 bi L).
  rewrite (dget_filter (fun v => negb (empty_container v))).
  - now rewrite H.
  - vm_compute. repeat constructor; cbn; intuition discriminate.
Qed.

(** *** The layer's round trip *)

Definition five (L : layer) : list (pystr * dict pyval) :=
  [(K_POSITIONS, l_positions L); (K_COLLAPSE, l_collapse L); (K_ALIASES, l_aliases L);
   (K_COLORS, l_colors L); (K_LOCKS, l_locks L)].

Lemma put_if_get {V} k (v : dict V) w d k' :
  dget k' (put_if k v w d) = match v with [] => dget k' d | _ => if str_eqb k k' then Some w else dget k' d end.
Proof. unfold put_if. destruct v; auto. apply dget_dset. Qed.

Lemma sort_nil {V} (d : dict V) : sort_items d = [] <-> d = [].
Proof.
  split; [|now intros ->]. intros H. pose proof (sort_perm d) as P. rewrite H in P.
  now apply Permutation_nil in P.
Qed.

Lemma meta_get L k f :
  In (k, f) (five L) ->
  dget k (get_meta_data L) = match f with [] => dget k (l_input_meta L) | _ => Some (VDict (sort_items f)) end.
Proof.
  intros H. assert (C : forall (A : Type) (x y : A), match f with [] => x | _ => y end
                        = match sort_items f with [] => x | _ => y end).
  { intros A x y. destruct f as [|a f]; [reflexivity|].
    destruct (sort_items (a :: f)) eqn:E; auto. apply (proj1 (sort_nil _)) in E. discriminate. }
  rewrite C. unfold get_meta_data. rewrite !put_if_get.
  cbn [In five] in H.
  repeat (destruct H as [H|H];
    [injection H as <- <-;
     repeat match goal with |- context [str_eqb ?x ?l] =>
       let b := eval vm_compute in (str_eqb x l) in
       match b with true => idtac | false => idtac end; change (str_eqb x l) with b; cbv iota end;
     repeat match goal with |- context [match sort_items ?x with _ => _ end] => destruct (sort_items x) end;
     reflexivity|]). destruct H.
Qed.

Notation loaded_data bi fp rp L :=
  (dset K_REAL_PATH rp (dset K_FILEPATH fp (get_save_data bi L))).

Lemma loaded_get bi fp rp L k : k <> K_REAL_PATH -> k <> K_FILEPATH ->
  dget k (loaded_data bi fp rp L) = dget k (get_save_data bi L).
Proof. intros. rewrite !dget_dset_other; auto. Qed.

Definition agrees (L : layer) : Prop := forall k f, In (k, f) (five L) -> meta_agrees (l_input_meta L) k f.

Lemma meta_dict L k f : agrees L -> In (k, f) (five L) -> get_dict k (get_meta_data L) = Ok (sort_items f).
Proof.
  intros Ha Hi. unfold get_dict. rewrite (meta_get L k f Hi). destruct (Ha k f Hi) as [_ [H|H]].
  - rewrite H. destruct f; reflexivity.
  - rewrite H. destruct f; reflexivity.
Qed.

Definition alias_after (fp : pyval) (L : layer) : pyval :=
  if empty_container (l_alias L)
  then VStr (match fp with VStr s => if truthy fp then basename s else UNTITLED | _ => UNTITLED end)
  else l_alias L.

Lemma layer_trip bi active fp rp L :
  nodes_ok (l_nodes L) -> agrees L ->
  load_layer bi active (loaded_data bi fp rp L) =
  Ok {| l_alias := alias_after fp L;
        l_color := if empty_container (l_color L) then VNone else l_color L;
        l_mute := VBool false;
        l_solo := VBool false;
        l_lock := VBool false;
        l_filepath := fp;
        l_real_path := rp;
        l_refs := filter (fun r => negb (is_empty r)) (l_refs L);
        l_overrides := sort_items (l_overrides L);
        l_positions := sort_items (l_positions L);
        l_collapse := sort_items (l_collapse L);
        l_aliases := sort_items (l_aliases L);
        l_colors := sort_items (l_colors L);
        l_locks := sort_items (l_locks L);
        l_input_meta := get_meta_data L;
        l_nodes := trip bi rp (l_nodes L) |}.
Proof.
  intros Hok Ha. unfold load_layer.
  assert (F : get_or K_FILEPATH VNone (loaded_data bi fp rp L) = fp).
  { unfold get_or. rewrite dget_dset_other by (vm_compute; discriminate). now rewrite dget_dset_same. }
  assert (R : get_or K_REAL_PATH VNone (loaded_data bi fp rp L) = rp).
  { unfold get_or. now rewrite dget_dset_same. }
  rewrite F, R.
  assert (D : forall k d, k <> K_REAL_PATH -> k <> K_FILEPATH -> dget k (save_list9 bi L) = Some (VDict d) ->
    get_dict k (loaded_data bi fp rp L) = Ok d).
  { intros k d H1 H2 H. unfold get_dict. rewrite loaded_get by auto. rewrite (save_get9 _ _ _ _ H).
    destruct d; reflexivity. }
  rewrite (D K_OVERRIDES (sort_items (l_overrides L))); [|vm_compute; discriminate|vm_compute; discriminate|reflexivity].
  cbn [bind].
  assert (S : get_strs K_REFERENCES (loaded_data bi fp rp L) = Ok (l_refs L)).
  { unfold get_strs. rewrite loaded_get by (vm_compute; discriminate).
    rewrite (save_get9 bi L K_REFERENCES (VStrs (l_refs L)) eq_refl).
    destruct (l_refs L) as [|x l]; [reflexivity|]. cbn [empty_container VStrs map].
    change (VStr x :: map VStr l) with (map VStr (x :: l)). now rewrite strings_vstrs. }
  rewrite S. cbn [bind].
  rewrite (D K_META (get_meta_data L)); [|vm_compute; discriminate|vm_compute; discriminate|reflexivity].
  cbn [bind].
  rewrite (meta_dict L K_POSITIONS (l_positions L)) by (auto; cbn; tauto). cbn [bind].
  rewrite (meta_dict L K_COLLAPSE (l_collapse L)) by (auto; cbn; tauto). cbn [bind].
  rewrite (meta_dict L K_ALIASES (l_aliases L)) by (auto; cbn; tauto). cbn [bind].
  rewrite (meta_dict L K_COLORS (l_colors L)) by (auto; cbn; tauto). cbn [bind].
  rewrite (meta_dict L K_LOCKS (l_locks L)) by (auto; cbn; tauto). cbn [bind].
  rewrite (D K_NODES (get_nodes_save_data bi L)); [|vm_compute; discriminate|vm_compute; discriminate|reflexivity].
  cbn [bind].
  change (get_nodes_save_data bi L) with (nodes_data bi (l_nodes L)).
  rewrite nodes_trip_table by auto. cbn [bind]. f_equal. fold (trip bi rp (l_nodes L)).
  rewrite trip_refresh by auto.
  assert (A : get_or K_ALIAS (VStr (match fp with VStr s => if truthy fp then basename s else UNTITLED | _ => UNTITLED end))
                (loaded_data bi fp rp L) = alias_after fp L).
  { unfold get_or, alias_after. rewrite loaded_get by (vm_compute; discriminate).
    rewrite (save_get9 bi L K_ALIAS (l_alias L) eq_refl). now destruct (empty_container (l_alias L)). }
  rewrite A.
  assert (C : get_or K_COLOR VNone (loaded_data bi fp rp L) = if empty_container (l_color L) then VNone else l_color L).
  { unfold get_or. rewrite loaded_get by (vm_compute; discriminate).
    rewrite (save_get9 bi L K_COLOR (l_color L) eq_refl). now destruct (empty_container (l_color L)). }
  rewrite C.
  assert (K : get_or K_LOCK (VBool false) (loaded_data bi fp rp L) = VBool false).
  { unfold get_or. rewrite loaded_get by (vm_compute; discriminate).
    rewrite (save_get9_none bi L K_LOCK eq_refl). reflexivity. }
  rewrite K. reflexivity.
Qed.

(** The loaded layer. *)
Lemma sort_idem' (d : dict pyval) : NoDup (dkeys d) -> sort_items (sort_items d) = sort_items d.
Proof. apply sort_idem. Qed.

Lemma layer_save_again bi active fp rp L L' :
  nodes_ok (l_nodes L) -> agrees L -> NoDup (dkeys (l_overrides L)) -> NoDup (dkeys (l_input_meta L)) ->
  empty_container (l_alias L) = false -> empty_container (l_color L) = false ->
  l_mute L = VBool false -> l_solo L = VBool false -> ~ In [] (l_refs L) -> complete (l_nodes L) ->
  load_layer bi active (loaded_data bi fp rp L) = Ok L' ->
  get_save_data bi L' = get_save_data bi L.
Proof.
  intros Hok Ha Ho Hm HA HC Hmu Hso Hr Hc E. rewrite layer_trip in E by auto. injection E as <-.
  rewrite !save_form.
  cbn [l_alias l_color l_mute l_solo l_refs l_overrides].
  unfold get_nodes_save_data. cbn [l_nodes].
  fold (nodes_data bi (trip bi rp (l_nodes L))). fold (nodes_data bi (l_nodes L)).
  rewrite trip_save_all by auto. unfold alias_after. rewrite HA, HC, Hmu, Hso.
  rewrite sort_idem by auto.
  assert (R : filter (fun r => negb (is_empty r)) (l_refs L) = l_refs L).
  { apply filter_all. intros x Hx. destruct x; auto. }
  rewrite R.
  assert (M : forall L2, l_positions L2 = sort_items (l_positions L) -> l_collapse L2 = sort_items (l_collapse L) ->
     l_aliases L2 = sort_items (l_aliases L) -> l_colors L2 = sort_items (l_colors L) ->
     l_locks L2 = sort_items (l_locks L) -> l_input_meta L2 = get_meta_data L -> get_meta_data L2 = get_meta_data L).
  { intros L2 E1 E2 E3 E4 E5 E6. unfold get_meta_data at 1. rewrite E1, E2, E3, E4, E5, E6.
    assert (N : forall k f, In (k, f) (five L) -> sort_items (sort_items f) = sort_items f).
    { intros k f Hi. apply sort_idem. now apply (Ha k f). }
    rewrite (N K_POSITIONS (l_positions L)), (N K_COLLAPSE (l_collapse L)), (N K_ALIASES (l_aliases L)),
      (N K_COLORS (l_colors L)), (N K_LOCKS (l_locks L)) by (cbn; tauto).
    assert (P : forall k f, In (k, f) (five L) ->
       put_if k (sort_items f) (VDict (sort_items f)) (get_meta_data L) = get_meta_data L).
    { intros k f Hi. unfold put_if. destruct (sort_items f) eqn:Es; auto.
      apply dset_same. rewrite (meta_get L k f Hi). rewrite <- Es. destruct f; [discriminate|reflexivity]. }
    rewrite (P K_ALIASES (l_aliases L)), (P K_COLORS (l_colors L)), (P K_LOCKS (l_locks L)),
      (P K_POSITIONS (l_positions L)), (P K_COLLAPSE (l_collapse L)) by (cbn; tauto).
    reflexivity. }
  rewrite M by reflexivity. reflexivity.
Qed.

(** One trip makes any layer one that is stable. *)
Lemma layer_stable_after_one bi act1 act2 fp rp fp2 rp2 L L1 L2 :
  nodes_ok (l_nodes L) -> agrees L -> NoDup (dkeys (l_overrides L)) -> NoDup (dkeys (l_input_meta L)) ->
  load_layer bi act1 (loaded_data bi fp rp L) = Ok L1 ->
  load_layer bi act2 (loaded_data bi fp2 rp2 L1) = Ok L2 ->
  get_save_data bi L2 = get_save_data bi L1.
Proof.
  intros Hok Ha Ho Hm E1 E2. rewrite layer_trip in E1 by auto. injection E1 as <-.
  revert E2. apply layer_save_again; cbn [l_nodes l_overrides l_input_meta l_alias l_color l_mute l_solo l_refs].
  - now apply trip_ok.
  - intros k f Hi. unfold five in Hi. cbn [l_positions l_collapse l_aliases l_colors l_locks] in Hi.
    assert (X : exists g, In (k, g) (five L) /\ f = sort_items g).
    { cbn [In] in Hi. unfold five.
      repeat (destruct Hi as [Hi|Hi]; [injection Hi as <- <-; eexists; split; [|reflexivity]; cbn; tauto|]).
      destruct Hi. }
    destruct X as (g & Hg & ->). destruct (Ha k g Hg) as [N O]. split; [now apply sort_nodup|].
    cbn [l_input_meta]. rewrite (meta_get L k g Hg). destruct g as [|x g]; [|now right].
    exact O.
  - now apply sort_nodup.
  - unfold get_meta_data, put_if.
    repeat match goal with
    | |- NoDup (dkeys (match ?x with _ => _ end)) => destruct x
    | |- NoDup (dkeys (dset _ _ _)) => apply NoDup_dset
    end; auto.
  - unfold alias_after. destruct (empty_container (l_alias L)) eqn:E; [reflexivity|exact E].
  - destruct (empty_container (l_color L)) eqn:E; [reflexivity|exact E].
  - reflexivity.
  - reflexivity.
  - intros H. apply filter_In in H as [_ H]. discriminate.
  - now apply trip_complete.
Qed.

(** *** Through the file *)

Lemma json_empty v : empty_container (json_norm v) = empty_container v.
Proof. destruct v as [| | | |[]|[]|[]|]; reflexivity. Qed.

Lemma put_if_json k (f m : dict pyval) :
  put_if k (through_json f) (VDict (through_json f)) (through_json m)
  = through_json (put_if k f (VDict f) m).
Proof. destruct f; [reflexivity|]. cbn [put_if through_json map]. now rewrite jd_set. Qed.

Lemma save_json bi L :
  NoDup (dkeys (l_nodes L)) ->
  (forall p n a, In (p, n) (l_nodes L) -> In a SAVED -> attr n a <> VTuple []) ->
  get_save_data bi (layer_json L) = through_json (get_save_data bi L).
Proof.
  intros Hn Ht. rewrite !save_form.
  assert (F : forall d, through_json (filter (fun kv => negb (empty_container (snd kv))) d)
     = filter (fun kv => negb (empty_container (snd kv))) (through_json d)).
  { induction d as [|[k v] d IH]; [reflexivity|]. cbn [through_json map filter fst snd] in *.
    rewrite json_empty. destruct (negb (empty_container v)); cbn [map fst snd]; [f_equal|]; exact IH. }
  rewrite F. f_equal. cbn [through_json map fst snd json_norm].
  cbn [layer_json l_alias l_color l_mute l_solo l_refs l_overrides].
  change (VList (map json_norm (map VStr (l_refs L)))) with (json_norm (VStrs (l_refs L))).
  assert (R : json_norm (VStrs (l_refs L)) = VStrs (l_refs L)).
  { cbn [json_norm VStrs]. now rewrite map_norm_vstrs. }
  assert (M : get_meta_data (layer_json L) = through_json (get_meta_data L)).
  { unfold get_meta_data. cbn [layer_json l_positions l_collapse l_aliases l_colors l_locks l_input_meta].
    rewrite !jd_sort, !put_if_json. reflexivity. }
  assert (Nd : get_nodes_save_data bi (layer_json L) = through_json (get_nodes_save_data bi L)).
  { unfold get_nodes_save_data. cbn [layer_json l_nodes].
    rewrite (fold_dset_map (fun n => VDict (get_node_as_dict bi n)) _ Hn).
    assert (Hn2 : NoDup (dkeys (map (fun kv => (fst kv, through_json (snd kv))) (l_nodes L)))).
    { unfold dkeys. rewrite map_map. exact Hn. }
    rewrite (fold_dset_map (fun n => VDict (get_node_as_dict bi n)) _ Hn2).
    rewrite <- jd_sort. f_equal. unfold through_json at 2. rewrite !map_map. apply map_ext_in.
    intros [p n] Hi. cbn [fst snd json_norm]. do 2 f_equal. apply jd_save. intros a Ha. eapply Ht; eauto. }
  rewrite M, Nd, jd_sort, R. reflexivity.
Qed.

(** *** What [save] writes *)

Lemma save_layer_spec bi g L :
  let L1 := fst (save_layer bi g L) in
  snd (save_layer bi g L) = (if json_ok (VDict (get_save_data bi L1)) then Some (get_save_data bi L1) else None) /\
  l_alias L1 = (match l_alias L with VStr a => if str_eqb a UNTITLED then VStr g else l_alias L | v => v end) /\
  l_nodes L1 = l_nodes L /\ l_refs L1 = l_refs L /\ l_input_meta L1 = l_input_meta L.
Proof.
  unfold save_layer. cbn zeta. destruct (l_alias L) eqn:E; cbn [fst snd]; try (rewrite E; auto; fail).
  destruct (str_eqb s UNTITLED); cbn [fst snd l_alias l_nodes l_refs l_input_meta]; auto.
Qed.

Lemma layer_round_trip bi active fp rp L :
  nodes_ok (l_nodes L) -> agrees L ->
  exists L',
  load_layer bi active (loaded_data bi fp rp L) = Ok L' /\
  (forall p, In p (dkeys (l_nodes L')) <-> In p (dkeys (l_nodes L))) /\
  (forall p n ns co, dget p (l_nodes L) = Some n -> Forall component ns -> p = abs_path ns ->
     node_ok n (own_name ns) co ->
     exists n' ks o, dget p (l_nodes L') = Some n' /\ reloaded bi (ns = []) rp p n n' /\
       child_names (dkeys (l_nodes L)) ns ks /\
       first_occ ((match ns with [] => [] | _ => co end) ++ ks) o /\
       node_ok n' (own_name ns) o /\
       dget (lit "_parent_path") n' = Some (VStr (get_parent_path p)) /\
       dget (lit "_source_layer") n' = Some rp /\ dget (lit "_proxy") n' = Some (VBool false)) /\
  (empty_container (l_alias L) = false -> l_alias L' = l_alias L) /\
  (empty_container (l_color L) = false -> l_color L' = l_color L) /\
  l_refs L' = filter (fun r => negb (is_empty r)) (l_refs L) /\
  l_overrides L' = sort_items (l_overrides L) /\
  l_positions L' = sort_items (l_positions L) /\ l_collapse L' = sort_items (l_collapse L) /\
  l_aliases L' = sort_items (l_aliases L) /\ l_colors L' = sort_items (l_colors L) /\
  l_locks L' = sort_items (l_locks L) /\
  (forall k, ~ In k (map lit ["positions"; "collapse"; "aliases"; "colors"; "locks"]%string) ->
     dget k (l_input_meta L') = dget k (l_input_meta L)) /\
  l_mute L' = VBool false /\ l_solo L' = VBool false /\ l_lock L' = VBool false /\
  l_filepath L' = fp /\ l_real_path L' = rp.
Proof.
  intros Hok Ha. eexists. split; [now apply layer_trip|].
  cbn [l_nodes l_alias l_color l_refs l_overrides l_positions l_collapse l_aliases l_colors l_locks
       l_input_meta l_mute l_solo l_lock l_filepath l_real_path].
  split; [apply trip_in|]. split; [intros; now apply trip_node|].
  split; [intros H; unfold alias_after; now rewrite H|].
  split; [now intros ->|].
  repeat (split; [reflexivity|]). split; [|repeat split].
  intros k Hk. unfold get_meta_data. rewrite !put_if_get.
  assert (F : forall x, In x (map lit ["positions"; "collapse"; "aliases"; "colors"; "locks"]%string) ->
              str_eqb x k = false).
  { intros x Hx. apply str_eqb_neq. intros ->. contradiction. }
  rewrite (F K_COLLAPSE), (F K_POSITIONS), (F K_LOCKS), (F K_COLORS), (F K_ALIASES) by (cbn; tauto).
  repeat match goal with |- context [match ?x with [] => _ | _ => _ end] => destruct x end; reflexivity.
Qed.

(** *** Where the fields of a loaded layer come from *)
Lemma bind_ok {A B} (x : res A) (f : A -> res B) y :
  bind x f = Ok y -> exists a, x = Ok a /\ f a = Ok y.
Proof. destruct x; cbn; intros H; [eauto|discriminate]. Qed.

Lemma strings_map l s : strings l = Some s -> l = map VStr s.
Proof.
  revert s. induction l as [|v l IH]; intros s; cbn.
  - intros [= <-]. reflexivity.
  - destruct v; try discriminate. destruct (strings l); try discriminate.
    intros [= <-]. cbn. f_equal. auto.
Qed.

Lemma loaded_fields bi active data L : load_layer bi active data = Ok L ->
  let field k default := match dget (lit k) data with Some v => v | None => default end in
  let table k sub :=
    match field k (VDict []) with
    | VDict m => match dget (lit sub) m with Some (VDict t) => t | _ => [] end
    | _ => []
    end in
  l_color L = field "color"%string VNone /\
  l_lock L = field "lock"%string (VBool false) /\
  l_mute L = VBool false /\ l_solo L = VBool false /\
  l_filepath L = field "filepath"%string VNone /\
  l_real_path L = field "real_path"%string VNone /\
  VDict (l_overrides L) = field "comp_overrides"%string (VDict []) /\
  (exists refs, VList (map VStr refs) = field "references"%string (VList []) /\
     l_refs L = filter (fun r => match r with [] => false | _ => true end) refs) /\
  l_positions L = table "meta_data"%string "positions"%string /\
  l_collapse L = table "meta_data"%string "collapse"%string /\
  l_aliases L = table "meta_data"%string "aliases"%string /\
  l_colors L = table "meta_data"%string "colors"%string /\
  l_locks L = table "meta_data"%string "locks"%string /\
  (forall a, dget (lit "alias") data = Some a -> l_alias L = a).
Proof.
  unfold load_layer. intros H. cbv zeta in H.
  repeat (apply bind_ok in H; destruct H as (? & ? & H)). injection H as <-. cbv zeta.
  cbn [l_color l_lock l_mute l_solo l_filepath l_real_path l_overrides l_refs l_positions l_collapse l_aliases l_colors l_locks l_alias].
  unfold get_or, get_dict, get_strs in *.
  change (lit "color") with K_COLOR. change (lit "lock") with K_LOCK.
  change (lit "filepath") with K_FILEPATH. change (lit "real_path") with K_REAL_PATH.
  change (lit "comp_overrides") with K_OVERRIDES. change (lit "references") with K_REFERENCES.
  change (lit "meta_data") with K_META. change (lit "positions") with K_POSITIONS.
  change (lit "collapse") with K_COLLAPSE. change (lit "aliases") with K_ALIASES.
  change (lit "colors") with K_COLORS. change (lit "locks") with K_LOCKS.
  change (lit "alias") with K_ALIAS.
  assert (Rf : forall refs, match dget K_REFERENCES data with
     | None => Ok [] | Some (VList l) => match strings l with Some l => Ok l | None => Raise TypeError end
     | Some _ => Raise TypeError end = Ok refs ->
     VList (map VStr refs) = match dget K_REFERENCES data with Some v => v | None => VList [] end).
  { intros refs E. destruct (dget K_REFERENCES data) as [v|]; [|now injection E as <-].
    destruct v; try discriminate. destruct (strings l) eqn:El; try discriminate.
    injection E as <-. now rewrite (strings_map _ _ El). }
  assert (Dk : forall k (d t : dict pyval), match dget k d with
      | None => Ok [] | Some (VDict v) => Ok v | Some _ => Raise TypeError end = Ok t ->
     match dget k d with Some (VDict t) => t | _ => [] end = t /\
     VDict t = match dget k d with Some v => v | None => VDict [] end).
  { intros k d t E. destruct (dget k d) as [v|]; [|injection E as <-; auto].
    destruct v; try discriminate. injection E as <-. auto. }
  repeat match goal with
         | E : match dget K_REFERENCES data with _ => _ end = Ok _ |- _ => apply Rf in E
         | E : match dget _ _ with _ => _ end = Ok _ |- _ => apply Dk in E as [? ?]
         end.
  match goal with E : VDict ?m = match dget K_META data with _ => _ end |- _ => rewrite <- E end.
  repeat split; auto; try congruence.
  - eexists. split; [eassumption|]. apply filter_ext. intros [|]; reflexivity.
  - intros a E. now rewrite E.
Qed.
