(** C48 and C49: duplicating nodes, and adding a hierarchy of nodes. *)

From Coq Require Import String List NArith ZArith Bool Arith Lia Permutation.
From Verif Require Import PyStr PyStrFacts NxtPath PathSpec PathProofs Dict DictFacts Layer PyVal
  Names NamesSpec NamesProofs SpecOps SpecOpsSpec SpecBase SpecMove SpecParent SpecClosed SpecReparent SpecRename
  SpecDelete SpecAdd SpecHistory SpecCor Props_SpecOps SpecDup SpecDupProofs.
Import ListNotations.

(** A node's user attributes with their values. *)
Definition values (n : snode) : dict pyval := map (fun kv => (fst kv, fst (snd kv))) (s_attrs n).

(** Duplicating a node with its descendants: next to it there is, under a free
    legal name, a subtree with the same names; every node of it has the
    attributes and the other data of its original as far as saving keeps them,
    says that its attributes come from where it is, and lists the children
    its original lists and has.  Every node that was there before is there
    as it was; only the child order of the parent has the new name in addition.
    [kept_attrs] and [kept_rest] tell what saving keeps (C22, C23); [extra] the
    nodes other layers and instances contribute to the stage. *)
Theorem C48_duplicate :
  forall ud uw extra kept_attrs kept_rest bare L i n po nm0,
  consistent L -> closed L -> composed L -> Forall plain (po ++ [nm0]) ->
  lookup L (abs_path (po ++ [nm0])) = Some i -> obj L i = Some n ->
  (* the descendants' names are ones nxt itself would give *)
  (forall r x, Forall plain r -> plain x -> holds L (po ++ nm0 :: r ++ [x]) ->
     legal (isdigit ud) (is_word uw) x /\ x <> lit "__name__") ->
  (* nothing from elsewhere appears below the copy *)
  (forall K nm r, unique_name ud uw extra L (Some nm0) (abs_path po) = Some (Ok nm) -> r <> [] ->
     ~ In (abs_path (po ++ nm :: r)) (extra K)) ->
  exists L' nm ids dirty,
    duplicate_node ud uw extra kept_attrs kept_rest bare L i n true = (L', Done (ids, dirty)) /\
    legal (isdigit ud) (is_word uw) nm /\ ~ holds L (po ++ [nm]) /\
    consistent L' /\ closed L' /\
    (* what was there is still there *)
    (forall q k, lookup L q = Some k -> lookup L' q = Some k) /\
    (forall k m, obj L k = Some m -> exists l, obj L' k = Some (set_order l m) /\
       (lookup L (abs_path po) = Some k -> announced nm (s_order m) l) /\
       (lookup L (abs_path po) <> Some k -> l = s_order m)) /\
    same_rest L L' /\
    (* the places of the copy are those of the original *)
    (forall r, Forall plain r -> (holds L' (po ++ nm :: r) <-> holds L (po ++ nm0 :: r))) /\
    (forall q k, lookup L' q = Some k -> lookup L q = Some k \/
       exists r, Forall plain r /\ q = abs_path (po ++ nm :: r)) /\
    (* and hold the same *)
    (forall r, Forall plain r -> holds L (po ++ nm0 :: r) ->
     exists i j a b kids,
       lookup L (abs_path (po ++ nm0 :: r)) = Some i /\ obj L i = Some a /\
       lookup L' (abs_path (po ++ nm :: r)) = Some j /\ obj L' j = Some b /\
       values b = kept_attrs (values a) /\ s_rest b = kept_rest (s_rest a) /\
       sourced b (abs_path (po ++ nm :: r)) /\
       s_order b = firsts (s_order a ++ kids) /\ NoDup kids /\
       (forall x, In x kids <-> plain x /\ holds L (po ++ nm0 :: r ++ [x]))) /\
    (* exactly the new nodes are returned, and their paths are dirty *)
    ids = seq (length (objs L)) (length (objs L') - length (objs L)) /\
    spec_list L' = spec_list L ++ ids /\ covers L' ids dirty.
Proof.
  intros ud uw extra ka kr bare L i n po nm0 HC Hcl Hco Hp Hi En Hg Hx.
  destruct (duplicate_ok ud uw extra ka kr bare L i n po nm0 HC Hcl Hco Hp Hi En Hg Hx)
    as (L' & nm & ids & ds & E & Hl & Hno & C' & Cl' & Sr & Ho & Hn & Hk & Hc & Ei & Es & Hd).
  assert (Hpn : Forall plain (po ++ [nm])).
  { apply Forall_app. split; [exact (Forall_app_l _ _ _ Hp)|]. constructor; [exact (legal_plain ud uw nm Hl)|constructor]. }
  exists L', nm, ids, ds. split; [exact E|]. split; [exact Hl|]. split; [exact Hno|]. split; [exact C'|]. split; [exact Cl'|].
  split; [exact Ho|]. split; [exact Hk|]. split; [exact Sr|]. split.
  { intros r Hr. split.
    - intros (k & Ek). apply Hn in Ek as [Ek|(r' & Hr' & Eq & Hh)].
      + exfalso. apply Hno. apply (closed_prefix L (po ++ [nm]) Hcl) with (r := r).
        * destruct po; discriminate.
        * apply Forall_app. auto.
        * exists k. now rewrite <- app_assoc.
      + apply abs_inj in Eq.
        * apply app_inv_head in Eq. injection Eq as ->. exact Hh.
        * replace (po ++ nm :: r) with ((po ++ [nm]) ++ r) by now rewrite <- app_assoc. apply Forall_app. auto.
        * replace (po ++ nm :: r') with ((po ++ [nm]) ++ r') by now rewrite <- app_assoc. apply Forall_app. auto.
    - intros Hh. destruct (Hc r Hr Hh) as (_ & j & _ & _ & _ & _ & _ & Ej & _). now exists j. }
  split.
  { intros q k Ek. apply Hn in Ek as [Ek|(r & Hr & Eq & _)]; [now left|right; eauto]. }
  split; [|auto].
  intros r Hr Hh. destruct (Hc r Hr Hh) as (i' & j & a & b & kids & C1 & C2 & C3 & C4 & C5 & C6 & C7 & C8 & C9 & C10).
  exists i', j, a, b, kids. repeat (split; [assumption|]). intros x. rewrite C10. now rewrite <- app_assoc.
Qed.
Print Assumptions C48_duplicate.

(** Without the descendants only the node itself is copied. *)
Theorem C48_duplicate_alone :
  forall ud uw extra kept_attrs kept_rest bare L i n po nm0,
  consistent L -> closed L -> composed L -> Forall plain (po ++ [nm0]) ->
  lookup L (abs_path (po ++ [nm0])) = Some i -> obj L i = Some n ->
  exists L' nm dirty m,
    duplicate_node ud uw extra kept_attrs kept_rest bare L i n false = (L', Done ([length (objs L)], dirty)) /\
    legal (isdigit ud) (is_word uw) nm /\ ~ holds L (po ++ [nm]) /\
    added L L' po nm 1 /\
    (forall q, lookup L' q = if str_eqb (abs_path (po ++ [nm])) q then Some (length (objs L)) else lookup L q) /\
    obj L' (length (objs L)) = Some m /\ values m = kept_attrs (values n) /\
    sourced m (abs_path (po ++ [nm])) /\ s_rest m = kept_rest (s_rest n) /\ s_order m = firsts (s_order n).
Proof. exact duplicate_one. Qed.
Print Assumptions C48_duplicate_alone.

Definition same_attrs (d : dict pyval) := d.
Definition same_val (v : pyval) := v.
Notation dup extra := (duplicate_node no no extra same_attrs same_val VNone).
Definition root_node := match obj sample 0 with Some n => n | None => make_node [] [] [] [] VNone end.

Example C48_ex :
  consistent sample /\ closed sample /\ composed sample /\
  lookup sample (abs_path ([] ++ [lit "root"])) = Some 0 /\ obj sample 0 = Some root_node /\
  match dup alone sample 0 root_node true with
  | (L', Done (ids, dirty)) =>
      map (path_of L') ids = map (fun s => Some (lit s))
        ["/root2"; "/root2/a"; "/root2/a/x"; "/root2/b"; "/root2/b2"]%string /\
      option_map values (match lookup L' (lit "/root2/a/x") with Some k => obj L' k | None => None end)
        = Some [(lit "v", VInt 1)] /\
      option_map s_order (match lookup L' (lit "/root2") with Some k => obj L' k | None => None end)
        = option_map s_order (obj sample 0)
  | _ => False
  end.
Proof.
  destruct good_sample as (H1 & H2 & H3). split; [exact H1|]. split; [exact H2|]. split; [exact H3|].
  split; [reflexivity|]. split; [reflexivity|]. vm_compute. repeat split.
Qed.

(** The names of the sample meet the hypothesis on names. *)
Lemma lookup_key L p k : lookup L p = Some k -> In p (dkeys (by_path L)).
Proof. intros H. apply dget_some_key. now exists k. Qed.

Lemma sample_keys : dkeys (by_path sample) =
  map abs_path [[lit "root"]; [lit "root"; lit "a"]; [lit "root"; lit "a"; lit "x"]; [lit "root"; lit "b"]; [lit "root"; lit "b2"]].
Proof. vm_compute. reflexivity. Qed.

Lemma path_names cs : forall ds, abs_path cs = abs_path ds -> Forall plain cs -> Forall plain ds -> cs = ds.
Proof. intros ds E H1 H2. now apply abs_inj. Qed.

Example C48_names_ex : forall r x, Forall plain r -> plain x -> holds sample ([] ++ lit "root" :: r ++ [x]) ->
  legal (isdigit no) (is_word no) x /\ x <> lit "__name__".
Proof.
  intros r x Hr Hx (k & Ek).
  assert (Hp : Forall plain (lit "root" :: r ++ [x])).
  { constructor; [apply plain_lit; [discriminate|reflexivity]|]. apply Forall_app. auto. }
  apply lookup_key in Ek. rename Ek into Hin. rewrite sample_keys in Hin. cbn [app] in Hin.
  assert (Leg : forall c t, Forall (fun c => is_word no c = true) (c :: t) -> isdigit no c = false -> legal (isdigit no) (is_word no) (c :: t)).
  { intros c t H1 H2. exists c, t. auto. }
  apply in_map_iff in Hin as (cs & E & Hin). apply path_names in E; [|
    cbn [In] in Hin; repeat (destruct Hin as [<-|Hin]; [plains|]); destruct Hin | exact Hp].
  subst cs. cbn [In] in Hin.
  assert (Hl : In x [lit "a"; lit "x"; lit "b"; lit "b2"]).
  { repeat (destruct Hin as [Hin|Hin]); try contradiction;
      apply (f_equal (@rev pystr)) in Hin; cbn [rev app] in Hin; rewrite rev_app_distr in Hin; cbn [rev app] in Hin;
      try (injection Hin as <- _; cbn [In]; tauto).
    destruct (rev r); discriminate. }
  cbn [In] in Hl. repeat (destruct Hl as [<-|Hl]; [split; [apply Leg; [repeat constructor|reflexivity]|discriminate]|]).
  destruct Hl.
Qed.

(** When the copy is an instance, the stage shows its instanced children below
    it as soon as it is there, and a local child of the same name is copied
    under another one. *)
Theorem C48_overridden_child_renamed_refuted :
  exists extra L i n L' ids ds,
    consistent L /\ closed L /\ composed L /\ obj L i = Some n /\ path_of L i = Some (lit "/root") /\
    dup extra L i n true = (L', Done (ids, ds)) /\
    lookup L (lit "/root/a") <> None /\ lookup L' (lit "/root2") <> None /\
    lookup L' (lit "/root2/a") = None /\ lookup L' (lit "/root2/a2") <> None.
Proof.
  destruct good_sample as (H1 & H2 & H3).
  exists (fun L => match lookup L (lit "/root2") with Some _ => [lit "/root2/a"] | None => [] end), sample, 0, root_node.
  eexists. eexists. eexists. split; [exact H1|]. split; [exact H2|]. split; [exact H3|]. split; [reflexivity|].
  split; [reflexivity|]. split; [vm_compute; reflexivity|]. split; [vm_compute; discriminate|].
  split; [vm_compute; discriminate|]. split; [vm_compute; reflexivity|]. vm_compute. discriminate.
Qed.
Print Assumptions C48_overridden_child_renamed_refuted.

(** A node of another layer is copied without its descendants although they
    are asked for. *)
Theorem C48_from_another_layer_refuted :
  forall ud uw extra kept_attrs kept_rest bare L ref n,
  consistent L -> composed L -> path_of L ref = None -> length (objs L) <> ref ->
  s_parent n = WORLD -> s_name n <> [] ->
  exists L' ds, duplicate_node ud uw extra kept_attrs kept_rest bare L ref n true = (L', Done ([length (objs L)], ds)).
Proof.
  intros ud uw extra ka kr bare L ref n HC Hco Hr Hne Hpar Hnm.
  destruct (unique_name_free ud uw extra L (Some (s_name n)) []) as (nm & Eu & _ & Hpl & Hno & _); auto.
  { intros [= E]. contradiction. }
  destruct (add_leaf ud uw extra true L (s_order n) (ka (values n)) (kr (s_rest n)) (Some (s_name n)) [] nm HC Hpl Hno Eu)
    as (L1 & ds1 & E1 & HA & Lk & _).
  exists L1, (abs_path ([] ++ [nm]) :: ds1).
  unfold duplicate_node. rewrite Hpar. change (str_eqb WORLD []) with false. cbn iota.
  change (str_eqb WORLD WORLD) with true. cbn iota. unfold copy_of. fold (values n).
  change (abs_path []) with WORLD in E1. rewrite E1. cbn [last].
  assert (Hr1 : path_of L1 ref = None).
  { destruct (path_of L1 ref) as [p|] eqn:E; [|reflexivity]. exfalso.
    apply (c_inverse L1 (a_consistent _ _ _ _ _ HA)) in E. rewrite Lk in E.
    destruct (str_eqb _ p); [congruence|]. apply (c_inverse L HC) in E. congruence. }
  unfold depth_fuel. cbn [dupe_descendants]. unfold kid_nodes. rewrite Hr1. cbn [app]. now rewrite app_nil_r.
Qed.
Print Assumptions C48_from_another_layer_refuted.

(** Nodes below a place that holds none are not copied. *)
Theorem C48_gap_refuted :
  exists L i n L' ids ds,
    consistent L /\ composed L /\ obj L i = Some n /\ path_of L i = Some (lit "/root") /\
    dup alone L i n true = (L', Done (ids, ds)) /\
    lookup L (lit "/root/a/x") <> None /\ lookup L' (lit "/root2") <> None /\ lookup L' (lit "/root2/a/x") = None.
Proof.
  exists gapped, 0. eexists. eexists. eexists. eexists. split; [exact good_gapped|]. split; [split; reflexivity|].
  split; [vm_compute; reflexivity|]. split; [vm_compute; reflexivity|]. split; [vm_compute; reflexivity|].
  split; [vm_compute; discriminate|]. split; [vm_compute; discriminate|]. vm_compute. reflexivity.
Qed.
Print Assumptions C48_gap_refuted.

(** On a muted layer the copy takes the place of the original. *)
Theorem C48_muted_refuted :
  exists L i n L' ids ds,
    consistent L /\ closed L /\ obj L i = Some n /\ lookup L (lit "/root") = Some i /\
    dup alone L i n true = (L', Done (ids, ds)) /\
    dkeys (by_path L') = dkeys (by_path L) /\ lookup L' (lit "/root") <> Some i.
Proof.
  destruct good_sample as (H1 & H2 & H3).
  exists (silenced sample), 0, root_node. eexists. eexists. eexists.
  split; [now apply silenced_consistent|]. split; [exact H2|]. split; [reflexivity|]. split; [reflexivity|].
  split; [vm_compute; reflexivity|]. split; [vm_compute; reflexivity|]. vm_compute. discriminate.
Qed.
Print Assumptions C48_muted_refuted.

(** *** C49: a hierarchy *)

(** Adding a hierarchy makes the nodes that are missing on the way, in order,
    and no others; they have no data; nodes that were there keep their names,
    places and data, and their child orders apart from the names of new
    children. *)
Theorem C49_hierarchy :
  forall ud uw extra bare L ns,
  consistent L -> Forall plain ns ->
  exists L' made dirty,
    add_node_hierarchy ud uw extra bare L ns = (L', Done (made, dirty)) /\
    consistent L' /\
    (* every place on the way holds a node now and is dirty *)
    (forall a b, ns = a ++ b -> a <> [] -> holds L' a /\ In (abs_path a) dirty) /\
    (* exactly the missing ones were made *)
    (forall q, In q (map fst made) <->
       exists a b, ns = a ++ b /\ a <> [] /\ q = abs_path a /\ lookup L q = None) /\
    NoDup (map fst made) /\
    (forall q k, In (q, k) made -> lookup L' q = Some k /\
       exists m, obj L' k = Some m /\ s_attrs m = [] /\ s_rest m = bare) /\
    (forall q k, lookup L q = Some k -> lookup L' q = Some k) /\
    (forall q k, lookup L' q = Some k -> lookup L q = Some k \/ In (q, k) made) /\
    (forall k m, obj L k = Some m -> exists m', obj L' k = Some m' /\
       s_name m' = s_name m /\ s_parent m' = s_parent m /\ same_data m m' /\
       (s_order m' = s_order m \/
        exists a x b, ns = a ++ x :: b /\ lookup L (abs_path a) = Some k /\
          lookup L (abs_path (a ++ [x])) = None /\ announced x (s_order m) (s_order m'))) /\
    same_rest L L'.
Proof.
  intros ud uw extra bare L ns HC Hp.
  destruct (add_missing_ok ud uw extra bare ns [] L [] [] HC Hp (or_introl eq_refl)) as (L1 & made & ds & E & HH & Hs).
  destruct HH as [A1 A2 A3 A4 A5 A6 A7]. pose proof (consistent_books L1 A1) as B1.
  assert (Obj : forall k m, obj L1 k = Some m -> exists m', obj (refresh L1) k = Some m' /\
            s_name m' = s_name m /\ s_parent m' = s_parent m /\ s_order m' = s_order m /\ same_data m m' /\
            (s_attrs m = [] -> s_attrs m' = [])).
  { intros k m Em. rewrite (obj_refresh L1 k B1), Em. destruct (muted L1).
    - exists m. repeat split; auto.
    - destruct (path_of L1 k) as [p|]; cbn [option_map].
      + eexists. split; [reflexivity|]. split; [reflexivity|]. split; [reflexivity|]. split; [reflexivity|].
        split; [apply set_sources_data|]. intros H. cbn [s_attrs set_sources]. now rewrite H.
      + exists m. repeat split; auto. }
  exists (refresh L1), made, ds. split.
  { unfold add_node_hierarchy. change WORLD with (abs_path []). now rewrite E. }
  split; [now apply refresh_consistent|].
  split.
  { intros a b Eab Ha. apply Hs, steps_prefixes. exists a, b. auto. }
  split.
  { intros q. rewrite A5. rewrite in_map_iff. split.
    - intros (s & <- & Hin). apply filter_In in Hin as [Hin Hm]. apply steps_prefixes in Hin as (a & b & Ha & Eab & ->).
      exists a, b. split; [exact Eab|]. split; [exact Ha|]. split; [reflexivity|]. unfold is_missing in Hm. cbn [app] in *.
      now destruct (lookup L (abs_path a)).
    - intros (a & b & Eab & Ha & -> & Hl). exists a. split; [reflexivity|]. apply filter_In. split.
      + apply steps_prefixes. exists a, b. auto.
      + unfold is_missing. now rewrite Hl. }
  split.
  { rewrite A5. clear - Hp. assert (G : forall names done, Forall plain (done ++ names) ->
      NoDup (map abs_path (filter (is_missing L) (steps done names)))).
    { induction names as [|x names IH]; intros done H; [constructor|]. cbn [steps filter].
      assert (H' : Forall plain ((done ++ [x]) ++ names)) by now rewrite <- app_assoc.
      destruct (is_missing L (done ++ [x])); [|now apply IH]. cbn [map]. constructor; [|now apply IH].
      intros Hin. apply in_map_iff in Hin as (s & Es & Hin). apply filter_In in Hin as [Hin _].
      apply abs_inj in Es.
      - subst s. apply steps_longer in Hin. lia.
      - exact (steps_plain names _ _ H' Hin).
      - exact (Forall_app_l _ _ _ H'). }
    exact (G ns [] Hp). }
  split.
  { intros q k Hin. destruct (A6 q k Hin) as (H1 & m & H2 & H3 & H4). split; [exact H1|].
    destruct (Obj k m H2) as (m' & O1 & _ & _ & _ & [_ O2] & O3). exists m'. split; [exact O1|]. split; [auto|congruence]. }
  split; [exact A3|]. split; [exact A4|]. split; [|exact A2].
  intros k m Em. destruct (A7 k m Em) as (l & El & Hl). destruct (Obj k _ El) as (m' & O1 & O2 & O3 & O4 & O5 & _).
  exists m'. split; [exact O1|]. split; [exact O2|]. split; [exact O3|]. split; [exact O5|].
  rewrite O4. cbn [s_order set_order]. destruct Hl as [->|(a & x & H1 & H2 & H3 & H4)]; [now left|right].
  apply steps_prefixes in H1 as (c & b & _ & Eab & Ec). cbn [app] in Ec. subst c. rewrite <- app_assoc in Eab.
  exists a, x, b. split; [exact Eab|]. split; [exact H2|]. split; [|exact H4]. unfold is_missing in H3.
  now destruct (lookup L (abs_path (a ++ [x]))).
Qed.
Print Assumptions C49_hierarchy.

Example C49_ex :
  consistent gapped /\
  match add_node_hierarchy no no alone VNone gapped [lit "root"; lit "a"; lit "x"; lit "new"] with
  | (L', Done (made, _)) => map fst made = map lit ["/root/a"; "/root/a/x/new"]%string /\
                            lookup L' (lit "/root/a/x") = lookup gapped (lit "/root/a/x")
  | _ => False
  end.
Proof. split; [exact good_gapped|]. vm_compute. repeat split. Qed.
