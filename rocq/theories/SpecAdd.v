(** Stage.add_node. *)

From Coq Require Import String List NArith Bool Arith Lia Permutation.
From Verif Require Import PyStr PyStrFacts NxtPath PathSpec PathProofs Dict DictFacts ListMerger
  OrderSpec MergeProofs Layer LayerSpec LayerProofs DescProofs ChildCacheSpec ChildCacheProofs HierarchyProofs SortRows SortProofs PyVal
  Names NamesSpec NamesProofs SpecOps SpecOpsSpec SpecBase SpecMove SpecParent SpecClosed SpecReparent SpecRename SpecDelete.
Import ListNotations.

Lemma tree_ind' (P : tree -> Prop) :
  (forall order attrs rest subs, Forall (fun s => P (snd s)) subs -> P (Tree order attrs rest subs)) ->
  forall t, P t.
Proof.
  intros H. fix IH 1. intros [order attrs rest subs]. apply H.
  induction subs as [|[nm t] subs IHs]; constructor; [apply IH|exact IHs].
Qed.

(** *** One node *)

Lemma fresh_unknown L : books L -> path_of L (length (objs L)) = None.
Proof.
  intros HB. destruct (path_of L (length (objs L))) as [p|] eqn:E; [|reflexivity].
  apply (b_inverse L HB) in E. destruct (b_spells L HB _ _ E) as (n & En & _). unfold obj in En.
  assert (H : length (objs L) < length (objs L)) by (apply nth_error_Some; congruence). lia.
Qed.

Lemma announced_merge nm l : ~ In nm l ->
  exists l', list_merger l [nm] = Some l' /\ announced nm l l'.
Proof.
  intros H. assert (Ea : adding nm l = l ++ [nm]) by (unfold adding; now rewrite (proj2 (MergeProofs.str_in_false nm l) H)).
  destruct (list_merger_perm l [nm]) as (m & E & HP). exists m. split; [exact E|]. unfold announced. rewrite Ea. split.
  - rewrite HP. unfold new_names. cbn [filter]. rewrite (proj2 (MergeProofs.str_in_false nm l) H). reflexivity.
  - intros Hl. rewrite (list_merger_disjoint l [nm] Hl) in E; [congruence| |].
    + constructor; [intros []|constructor].
    + intros x [<-|[]]. exact H.
Qed.

Lemma announce_spec L par nm : exists g,
  reordered L (announce L par nm) /\
  (forall k, obj (announce L par nm) k = option_map (fun m => set_order (g k (s_order m)) m) (obj L k)) /\
  (forall k m, obj L k = Some m -> lookup L par = Some k -> announced nm (s_order m) (g k (s_order m))) /\
  (forall k l, lookup L par <> Some k -> g k l = l).
Proof.
  unfold announce.
  assert (Id : forall k, obj L k = option_map (fun m => set_order (s_order m) m) (obj L k)).
  { intros k. destruct (obj L k); [|reflexivity]. cbn [option_map]. now rewrite set_order_same. }
  destruct (lookup L par) as [pi|] eqn:El.
  - destruct (obj L pi) as [pn|] eqn:Eo.
    + destruct (str_in nm (s_order pn)) eqn:Ein.
      * exists (fun _ l => l). split; [apply reordered_refl|]. split; [exact Id|]. split; [|reflexivity].
        intros k m Em E. injection E as <-. rewrite Eo in Em. injection Em as <-.
        unfold announced, adding. rewrite Ein. auto.
      * assert (Hn : ~ In nm (s_order pn)) by now apply MergeProofs.str_in_false.
        destruct (announced_merge nm (s_order pn) Hn) as (l' & E & HA). rewrite E.
        exists (fun k l => if Nat.eqb pi k then l' else l). split.
        { apply reordered_on. intros n. now exists l'. }
        split.
        { intros k. rewrite obj_on_node. destruct (Nat.eqb pi k) eqn:Ek; [|apply Id]. reflexivity. }
        split.
        { intros k m Em E2. injection E2 as <-. rewrite Nat.eqb_refl. congruence. }
        { intros k l H. destruct (Nat.eqb pi k) eqn:Ek; [|reflexivity]. apply Nat.eqb_eq in Ek. congruence. }
    + exists (fun _ l => l). split; [apply reordered_refl|]. split; [exact Id|]. split; [|reflexivity].
      intros k m Em E. congruence.
  - exists (fun _ l => l). split; [apply reordered_refl|]. split; [exact Id|]. split; [|reflexivity]. discriminate.
Qed.

Lemma enter_spec L nm par order attrs rest :
  consistent L -> Forall plain (par ++ [nm]) -> ~ holds L (par ++ [nm]) ->
  exists L', enter L nm (abs_path par) order attrs rest = (L', length (objs L), abs_path (par ++ [nm])) /\
    consistent L' /\
    (forall q, lookup L' q = if str_eqb (abs_path (par ++ [nm])) q then Some (length (objs L)) else lookup L q) /\
    obj L' (length (objs L)) = Some (make_node nm (abs_path par) order attrs rest) /\
    olds_kept L L' par nm /\ same_rest L L' /\ length (objs L') = S (length (objs L)) /\
    spec_list L' = spec_list L ++ [length (objs L)].
Proof.
  intros HC Hp Hno. pose proof (consistent_books L HC) as HB.
  set (i := length (objs L)). set (new := make_node nm (abs_path par) order attrs rest).
  set (path := abs_path (par ++ [nm])).
  assert (Hnew : lookup L path = None).
  { destruct (lookup L path) as [k|] eqn:E; [|reflexivity]. exfalso. apply Hno. now exists k. }
  pose proof (fresh_unknown L HB) as Hfr. fold i in Hfr.
  set (L0 := with_objs L (objs L ++ [new])).
  assert (O0 : forall k, obj L0 k = if Nat.eqb k i then Some new else obj L k).
  { intros k. unfold L0, obj. cbn [objs with_objs]. destruct (Nat.eqb k i) eqn:E.
    - apply Nat.eqb_eq in E. subst k. unfold i. rewrite nth_error_app2, Nat.sub_diag by lia. reflexivity.
    - apply Nat.eqb_neq in E. destruct (Nat.lt_ge_cases k i) as [Hlt|Hge].
      + now rewrite nth_error_app1.
      + rewrite (proj2 (nth_error_None (objs L ++ [new]) k)); [symmetry; now apply nth_error_None|].
        rewrite app_length. cbn [length]. unfold i in *. lia. }
  destruct (announce_spec L0 (abs_path par) nm) as (g & R & O1 & G1 & G2).
  change (lookup L0 (abs_path par)) with (lookup L (abs_path par)) in G1, G2.
  set (L1 := announce L0 (abs_path par) nm) in *.
  set (L' := with_table (with_by_node (with_by_path (with_spec_list L1 (spec_list L1 ++ [i])) (dset path i (by_path L1)))
               (nset i path (by_node L1)))
               (table L1 ++ [(str_path_to_node_namespace path, i)])).
  exists L'.
  assert (Hpi : lookup L (abs_path par) <> Some i).
  { intros E. apply (b_inverse L HB) in E. congruence. }
  assert (Lk : forall q, lookup L' q = if str_eqb path q then Some i else lookup L q).
  { intros q. unfold lookup. change (by_path L') with (dset path i (by_path L1)).
    rewrite dget_dset, (r_paths _ _ R). reflexivity. }
  assert (Pk : forall k, path_of L' k = if Nat.eqb i k then Some path else path_of L k).
  { intros k. unfold path_of. change (by_node L') with (nset i path (by_node L1)).
    rewrite nget_nset, (r_nodes _ _ R). reflexivity. }
  assert (Oi : obj L' i = Some new).
  { change (obj L' i) with (obj L1 i). rewrite O1, O0, Nat.eqb_refl. cbn [option_map].
    rewrite G2 by exact Hpi. now rewrite set_order_same. }
  assert (Ok : olds_kept L L' par nm).
  { intros k m Em. assert (Hk : k <> i).
    { intros ->. assert (i < length (objs L)) by (apply nth_error_Some; unfold obj in Em; congruence). unfold i in H. lia. }
    exists (g k (s_order m)). change (obj L' k) with (obj L1 k). rewrite O1, O0.
    rewrite (proj2 (Nat.eqb_neq k i) Hk), Em. cbn [option_map]. split; [reflexivity|]. split.
    - intros El. apply (G1 k m); [|exact El]. rewrite O0, (proj2 (Nat.eqb_neq k i) Hk). exact Em.
    - intros El. now apply G2. }
  split.
  { unfold enter. fold new. fold L0. fold L1. fold i. rewrite (join_plain par nm Hp). fold path. reflexivity. }
  split.
  { constructor.
    - intros q k. rewrite Lk, Pk. destruct (str_eqb path q) eqn:E1.
      + apply str_eqb_eq in E1. subst q. destruct (Nat.eqb i k) eqn:E2.
        * apply Nat.eqb_eq in E2. subst k. split; reflexivity.
        * apply Nat.eqb_neq in E2. split; [congruence|]. intros E. apply (b_inverse L HB) in E. congruence.
      + destruct (Nat.eqb i k) eqn:E2; [|apply (b_inverse L HB)]. apply Nat.eqb_eq in E2. subst k.
        apply str_eqb_neq in E1. split; [|congruence]. intros E. apply (b_inverse L HB) in E. congruence.
    - intros q k E. rewrite Lk in E. destruct (str_eqb path q) eqn:E1.
      + apply str_eqb_eq in E1. subst q. injection E as <-. exists new. split; [exact Oi|].
        right. exists par, nm. auto.
      + destruct (b_spells L HB _ _ E) as (m & Em & Hs). destruct (Ok k m Em) as (l & El & _).
        eexists. split; [exact El|exact Hs].
    - intros k. change (spec_list L') with (spec_list L1 ++ [i]). rewrite (r_list _ _ R).
      rewrite in_app_iff. change (spec_list L0) with (spec_list L). rewrite (b_listed L HB). split.
      + intros [(q & Eq)|[<-|[]]].
        * exists q. rewrite Lk. destruct (str_eqb path q) eqn:E; [|exact Eq]. apply str_eqb_eq in E. congruence.
        * exists path. now rewrite Lk, str_eqb_refl.
      + intros (q & Eq). rewrite Lk in Eq. destruct (str_eqb path q); [right; left; congruence|left; now exists q].
    - change (spec_list L') with (spec_list L1 ++ [i]). rewrite (r_list _ _ R). change (spec_list L0) with (spec_list L).
      apply (Permutation_NoDup (l := i :: spec_list L)); [apply Permutation_cons_append|].
      constructor; [|apply (b_once L HB)]. intros H. apply (b_listed L HB) in H as (q & Eq).
      apply (b_inverse L HB) in Eq. congruence.
    - change (table L') with (table L1 ++ [(str_path_to_node_namespace path, i)]). rewrite (r_table _ _ R).
      change (table L0) with (table L).
      apply (Permutation_NoDup (l := (str_path_to_node_namespace path, i) :: table L)); [apply Permutation_cons_append|].
      constructor; [|apply (c_rows L HC)]. intros H. apply (c_table L HC) in H as [(_ & _ & H)|(_ & H)];
        apply (b_inverse L HB) in H; congruence.
    - assert (En : str_path_to_node_namespace path = par ++ [nm]).
      { apply namespace_plain; [exact Hp|]. intros E. apply app_eq_nil in E as [_ E]. discriminate. }
      intros ns k. change (table L') with (table L1 ++ [(str_path_to_node_namespace path, i)]).
      rewrite (r_table _ _ R), En, in_app_iff. change (table L0) with (table L). rewrite (c_table L HC).
      rewrite !Lk.
      assert (Hw : str_eqb path (abs_path []) = false).
      { apply str_eqb_neq, abs_path_snoc_not_world. now apply plain_component. }
      rewrite Hw. split.
      + intros [[(H1 & H2 & H3)|H]|[E|[]]].
        * left. split; [exact H1|]. split; [exact H2|]. destruct (str_eqb path (abs_path ns)) eqn:E; [|exact H3].
          apply str_eqb_eq in E. congruence.
        * now right.
        * injection E as <- <-. left. split; [exact Hp|]. split.
          { intros E. apply app_eq_nil in E as [_ E]. discriminate. }
          unfold path. now rewrite str_eqb_refl.
      + intros [(H1 & H2 & H3)|H]; [|left; now right]. destruct (str_eqb path (abs_path ns)) eqn:E.
        * right. left. apply str_eqb_eq in E. apply abs_inj in E; [congruence|exact Hp|exact H1].
        * left. left. auto.
    - change (by_path L') with (dset path i (by_path L1)). rewrite (r_paths _ _ R). apply NoDup_dset, (b_paths L HB).
    - change (by_node L') with (nset i path (by_node L1)). rewrite (r_nodes _ _ R). apply NoDup_nset, (b_nodes L HB). }
  split; [exact Lk|]. split; [exact Oi|]. split; [exact Ok|].
  split.
  { split; [exact (r_muted _ _ R)|]. split; [exact (r_hidden _ _ R)|]. split; [exact (r_positions _ _ R)|].
    split; [exact (r_collapse _ _ R)|exact (r_top _ _ R)]. }
  split.
  { assert (HL : forall k, nth_error (objs L') k = None <-> nth_error (objs L0) k = None).
    { intros k. change (nth_error (objs L') k) with (obj L1 k). rewrite O1. change (nth_error (objs L0) k) with (obj L0 k).
      destruct (obj L0 k); split; cbn; congruence. }
    assert (E0 : length (objs L0) = S i).
    { unfold L0. cbn [objs with_objs]. rewrite app_length. cbn [length]. unfold i. lia. }
    pose proof (proj1 (nth_error_None (objs L') (S i))) as A.
    assert (length (objs L') <= S i) by (apply A, HL, nth_error_None; lia).
    assert (~ length (objs L') <= i).
    { intros H1. apply nth_error_None in H1. apply HL in H1. apply nth_error_None in H1. lia. }
    unfold i in *. lia. }
  change (spec_list L') with (spec_list L1 ++ [i]). now rewrite (r_list _ _ R).
Qed.

(** *** A tree *)

Lemma make_node_attrs nm par order attrs rest : Forall plain (par ++ [nm]) ->
  let m := make_node nm (abs_path par) order attrs rest in
  map (fun kv => (fst kv, fst (snd kv))) (s_attrs m) = attrs /\
  sourced m (abs_path (par ++ [nm])) /\ s_rest m = rest /\ s_order m = firsts order.
Proof.
  intros H m. unfold m, make_node. cbn [s_attrs s_rest s_order]. split.
  { rewrite map_map. cbn [fst snd]. rewrite <- (map_id attrs) at 2. apply map_ext. now intros [k v]. }
  split; [|split; reflexivity]. unfold sourced. cbn [s_attrs]. apply Forall_map, Forall_forall. intros x _. cbn [snd].
  now apply join_plain.
Qed.

Lemma NoDup_adding x l : NoDup l -> NoDup (adding x l).
Proof.
  intros H. unfold adding. destruct (str_in x l) eqn:E; [exact H|]. apply MergeProofs.str_in_false in E.
  apply (Permutation_NoDup (l := x :: l)); [apply Permutation_cons_append|]. now constructor.
Qed.

Lemma NoDup_firsts l : NoDup (firsts l).
Proof.
  unfold firsts. assert (G : forall l acc, NoDup acc -> NoDup (fold_left (fun acc x => adding x acc) l acc)).
  { induction l0 as [|x l0 IH]; intros acc H; [exact H|]. cbn [fold_left]. apply IH. now apply NoDup_adding. }
  apply G. constructor.
Qed.

Lemma firsts_snoc l x : firsts (l ++ [x]) = adding x (firsts l).
Proof. unfold firsts. now rewrite fold_left_app. Qed.

Section Add.
Variables (ud uw : N -> bool) (extra : slayer -> list pystr).

Lemma grown_mono ok : forall t L1 L2 name par i nm,
  (forall q k, lookup L1 q = Some k -> lookup L2 q = Some k) ->
  (forall k m, i <= k -> obj L1 k = Some m -> obj L2 k = Some m) ->
  grown ok L1 t name par i nm -> grown ok L2 t name par i nm.
Proof.
  induction t as [order attrs rest subs IH] using tree_ind'. intros L1 L2 name par i nm HL HO HG.
  cbn [grown] in HG |- *. destruct HG as (G1 & G2 & m & kids & G3 & G4 & G5 & G6 & G7 & G8).
  split; [now apply HL|]. split; [exact G2|]. exists m, kids. split; [apply HO; [lia|exact G3]|].
  split; [exact G4|]. split; [exact G5|]. split; [exact G6|]. split; [exact G7|].
  clear G7 G3. revert kids G8. induction IH as [|[cn ct] subs Hc _ IHs]; intros kids G8; destruct kids as [|[j c] kids];
    try exact G8.
  destruct G8 as (A & B & C). split; [exact A|]. split; [|now apply IHs].
  apply (Hc L1 L2); [exact HL| |exact B]. intros k mk Hk. apply HO. lia.
Qed.

(** The name under which the node enters. *)
Lemma pick_name (fx : bool) L t (name : option pystr) par : addable fx L t name par -> Forall plain par ->
  exists nm, (if fx then unique_name ud uw extra L name (abs_path par)
              else Some (match name with Some s => Ok s | None => Raise TypeError end)) = Some (Ok nm) /\
    Forall plain (par ++ [nm]) /\ ~ holds L (par ++ [nm]) /\ name_ok ud uw fx name nm /\
    (if fx then True else name = Some nm).
Proof.
  intros H Hp. destruct fx; cbn [addable] in H.
  - destruct H as (Hc & Hn & _).
    destruct (unique_name_free ud uw extra L name par Hn Hp Hc) as (nm & E & Hl & Hpl & Hfree & _).
    exists nm. auto.
  - destruct H as (nm & -> & Hpl & Hv & _). exists nm. split; [reflexivity|]. split.
    { apply Forall_app. split; [exact Hp|]. constructor; [exact Hpl|constructor]. }
    split; [|split; reflexivity]. intros (k & Ek). specialize (Hv [] (Forall_nil _)).
    rewrite app_nil_r in Hv. congruence.
Qed.

Lemma enter_added L nm par order attrs rest L' :
  consistent L -> Forall plain (par ++ [nm]) -> ~ holds L (par ++ [nm]) ->
  enter L nm (abs_path par) order attrs rest = (L', length (objs L), abs_path (par ++ [nm])) ->
  added L L' par nm 1.
Proof.
  intros HC Hp Hno E. destruct (enter_spec L nm par order attrs rest HC Hp Hno)
    as (L2 & E2 & HC2 & Lk & Oi & Ok & Sr & Hlen & Hsl).
  assert (L2 = L') by congruence. subst L2. clear E2.
  constructor; [exact HC2| | |exact Ok|exact Sr|lia|exact Hsl|].
  - intros q k Eq. rewrite Lk. destruct (str_eqb (abs_path (par ++ [nm])) q) eqn:E1; [|exact Eq].
    apply str_eqb_eq in E1. subst q. exfalso. apply Hno. now exists k.
  - intros q k Eq. rewrite Lk in Eq. destruct (str_eqb (abs_path (par ++ [nm])) q) eqn:E1; [|now left].
    right. injection Eq as <-. split; [lia|]. exists []. split; [constructor|]. now apply str_eqb_eq in E1.
  - intros Hc Hpar ms x Hms (k & Ek). rewrite Lk in Ek.
    assert (Hup : forall ns, holds L ns -> holds L' ns).
    { intros ns (j & Ej). exists j. rewrite Lk. destruct (str_eqb (abs_path (par ++ [nm])) (abs_path ns)) eqn:E1; [|exact Ej].
      apply str_eqb_eq in E1. exfalso. apply Hno. exists j. now rewrite E1. }
    destruct (str_eqb (abs_path (par ++ [nm])) (abs_path (ms ++ [x]))) eqn:E1.
    + apply str_eqb_eq, abs_inj in E1; [|exact Hp|exact Hms]. apply app_inj_tail in E1 as [<- _].
      destruct Hpar as [->|H]; [now left|right; auto].
    + destruct (Hc ms x Hms) as [H|H]; [now exists k|now left|right; auto].
Qed.

(** The loop over the children, as a function. *)
Fixpoint add_all (fx : bool) (i : nat) (subs : list (option pystr * tree)) (L : slayer) (ids : list nat) (ds : list pystr)
  : slayer * outcome (list nat * list pystr) :=
  match subs with
  | [] => (L, Done (ids, ds))
  | (cn, ct) :: rest =>
      match add_node ud uw extra ct cn (spelled_path L i) fx L with
      | (L', Done (ids', ds')) => add_all fx i rest L' (ids ++ ids') (ds ++ ds')
      | (L', Failed e) => (L', Failed e)
      | (L', Endless) => (L', Endless)
      end
  end.

Lemma add_node_unfold (fx : bool) order attrs rest subs (name : option pystr) parent L nm L1 i path :
  (if fx then unique_name ud uw extra L name parent
   else Some (match name with Some s => Ok s | None => Raise TypeError end)) = Some (Ok nm) ->
  enter L nm parent order attrs rest = (L1, i, path) ->
  exists dirty, add_node ud uw extra (Tree order attrs rest subs) name parent fx L =
    (fst (add_all fx i subs L1 [] dirty),
     match snd (add_all fx i subs L1 [] dirty) with
     | Done (ids, ds) => Done (i :: ids, path :: ds)
     | Failed e => Failed e
     | Endless => Endless
     end).
Proof.
  intros E1 E2. cbn [add_node]. rewrite E1, E2.
  set (dirty := map _ (kid_paths L1 path false)). exists dirty.
  set (go := fix go (subs : list (option pystr * tree)) (L : slayer) (ids : list nat) (ds : list pystr)
               : slayer * outcome (list nat * list pystr) := _).
  assert (G : forall subs L ids ds, go subs L ids ds = add_all fx i subs L ids ds).
  { induction subs0 as [|[cn ct] subs0 IH]; intros K ids ds; [reflexivity|].
    cbn [go add_all]. fold go. destruct (add_node ud uw extra ct cn (spelled_path K i) fx K) as [K' [[a b]|e|]]; auto. }
  rewrite G. destruct (add_all fx i subs L1 [] dirty) as [L2 r]. reflexivity.
Qed.

Definition sizes (subs : list (option pystr * tree)) : nat :=
  (fix sum (l : list (option pystr * tree)) : nat :=
            match l with [] => 0 | (_, t) :: r => size t + sum r end) subs.

Definition kids_grown (ok : option pystr -> pystr -> Prop) (L : slayer) (par : list pystr) (i : nat) :=
  fix all (subs : list (option pystr * tree)) (kids : list (nat * pystr)) : Prop :=
           match subs, kids with
           | [], [] => True
           | (cn, ct) :: subs', (j, c) :: kids' => i < j /\ grown ok L ct cn par j c /\ all subs' kids'
           | _, _ => False
           end.

Lemma kids_grown_mono ok L1 L2 par i : forall subs kids,
  (forall q k, lookup L1 q = Some k -> lookup L2 q = Some k) ->
  (forall k m, i < k -> obj L1 k = Some m -> obj L2 k = Some m) ->
  kids_grown ok L1 par i subs kids -> kids_grown ok L2 par i subs kids.
Proof.
  induction subs as [|[cn ct] subs IH]; intros [|[j c] kids] HL HO H; try exact H.
  destruct H as (A & B & C). split; [exact A|]. split; [|now apply IH].
  apply (grown_mono ok ct L1 L2); [exact HL| |exact B]. intros k m Hk. apply HO. lia.
Qed.

Definition add_ok (fx : bool) (t : tree) : Prop := forall L name par,
  consistent L -> Forall plain par -> addable fx L t name par ->
  exists L' nm ds,
    add_node ud uw extra t name (abs_path par) fx L = (L', Done (seq (length (objs L)) (size t), ds)) /\
    Forall plain (par ++ [nm]) /\ ~ holds L (par ++ [nm]) /\ name_ok ud uw fx name nm /\
    (if fx then unique_name ud uw extra L name (abs_path par) = Some (Ok nm) else True) /\
    grown (name_ok ud uw fx) L' t name par (length (objs L)) nm /\
    added L L' par nm (size t) /\ covers L' (seq (length (objs L)) (size t)) ds.

Definition subs_addable (fx : bool) (L : slayer) (subs : list (option pystr * tree)) (P : list pystr) : Prop :=
  if fx then composed L /\ Forall (fun s => fst s <> Some [] /\ named (snd s)) subs
  else NoDup (map fst subs) /\
       Forall (fun s => exists x, fst s = Some x /\ plain x /\ vacant L (P ++ [x]) /\ exact (snd s)) subs.

Record grew (fx : bool) (L L' : slayer) (P : list pystr) (i : nat) (subs : list (option pystr * tree))
       (kids : list (nat * pystr)) : Prop := {
  g_consistent : consistent L';
  g_old : forall q k, lookup L q = Some k -> lookup L' q = Some k;
  g_new : forall q k, lookup L' q = Some k -> lookup L q = Some k \/
          (length (objs L) <= k /\ exists c r, Forall plain (c :: r) /\ q = abs_path (P ++ c :: r));
  g_kids : kids_grown (name_ok ud uw fx) L' P i subs kids;
  g_kept : forall k m, obj L k = Some m -> exists l, obj L' k = Some (set_order l m) /\
           (k <> i -> l = s_order m) /\
           (k = i -> NoDup (s_order m) -> l = fold_left (fun acc x => adding x acc) (map snd kids) (s_order m));
  g_rest : same_rest L L';
  g_count : length (objs L') = length (objs L) + sizes subs;
  g_list : spec_list L' = spec_list L ++ seq (length (objs L)) (sizes subs);
  g_closed : closed L -> closed L'
}.

Lemma same_rest_trans A B C : same_rest A B -> same_rest B C -> same_rest A C.
Proof. intros (H1 & H2 & H3 & H4 & H5) (K1 & K2 & K3 & K4 & K5). repeat split; congruence. Qed.

Lemma add_all_spec (fx : bool) (i : nat) (P : list pystr) : Forall plain P -> forall subs L ids ds,
  Forall (fun s => add_ok fx (snd s)) subs ->
  consistent L -> lookup L (abs_path P) = Some i -> subs_addable fx L subs P ->
  exists L' kids ds',
    add_all fx i subs L ids ds = (L', Done (ids ++ seq (length (objs L)) (sizes subs), ds ++ ds')) /\
    grew fx L L' P i subs kids /\ covers L' (seq (length (objs L)) (sizes subs)) ds'.
Proof.
  intros HP. induction subs as [|[cn ct] subs IH]; intros L ids ds HF HC Hi HS.
  { exists L, [], []. cbn [sizes seq add_all]. rewrite !app_nil_r. split; [reflexivity|]. split.
    - constructor; auto.
      + exact I.
      + intros k m Em. exists (s_order m). rewrite set_order_same. auto.
      + repeat split.
      + cbn [sizes seq]. now rewrite app_nil_r.
    - intros k p []. }
  inversion HF as [|? ? Hct HF']; subst. cbn [snd] in Hct.
  assert (Hsp : spelled_path L i = abs_path P).
  { apply (spelled_is_path L i (abs_path P) HC). now apply (c_inverse L HC). }
  assert (Hadd : addable fx L ct cn P).
  { destruct fx; cbn [subs_addable addable] in *.
    - destruct HS as [Hc HS]. inversion HS as [|? ? [H1 H2] _]; subst. auto.
    - destruct HS as [_ HS]. inversion HS as [|? ? (x & H1 & H2 & H3 & H4) _]; subst. exists x. auto. }
  destruct (Hct L cn P HC HP Hadd) as (L1 & c & ds1 & E1 & Hpl & Hfree & Hok & _ & HG & HA & Hcov).
  destruct (IH L1 (ids ++ seq (length (objs L)) (size ct)) (ds ++ ds1) HF' (a_consistent _ _ _ _ _ HA)
              (a_old _ _ _ _ _ HA _ _ Hi)) as (L2 & kids & ds2 & E2 & HGr & Hcov2).
  { destruct fx; cbn [subs_addable] in *.
    - destruct HS as [[Hm Hh] HS]. inversion HS; subst. split; [|assumption].
      destruct (a_rest _ _ _ _ _ HA) as (R1 & R2 & _). split; congruence.
    - destruct HS as [Hnd HS]. inversion HS as [|? ? (x & H1 & H2 & H3 & H4) HS']; subst.
      cbn [map fst] in Hnd, H1. inversion Hnd as [|? ? Hnot Hnd']; subst. split; [exact Hnd'|].
      assert (x = c) by (cbn in Hok; congruence). subst x.
      apply Forall_forall. intros s Hs. rewrite Forall_forall in HS'. destruct (HS' s Hs) as (x & X1 & X2 & X3 & X4).
      exists x. split; [exact X1|]. split; [exact X2|]. split; [|exact X4]. intros r Hr.
      destruct (lookup L1 (abs_path ((P ++ [x]) ++ r))) as [k|] eqn:Ek; [|reflexivity]. exfalso.
      apply (a_new _ _ _ _ _ HA) in Ek as [Ek|(_ & r' & Hr' & Eq)].
      + rewrite X3 in Ek by exact Hr. discriminate.
      + rewrite <- app_assoc in Eq. apply abs_inj in Eq.
        * apply app_inv_head in Eq. injection Eq as Eq _. apply Hnot. apply in_map_iff. exists s.
          split; [|exact Hs]. congruence.
        * apply Forall_app. split; [exact HP|]. constructor; assumption.
        * apply Forall_app. split; [exact HP|]. constructor; [|exact Hr'].
          apply Forall_app_r in Hpl. now inversion Hpl. }
  exists L2, ((length (objs L), c) :: kids), (ds1 ++ ds2).
  assert (Hlt : i < length (objs L)).
  { destruct (c_spells L HC _ _ Hi) as (m & Em & _). apply nth_error_Some. unfold obj in Em. congruence. }
  pose proof (a_count _ _ _ _ _ HA) as Hcnt.
  assert (Hseq : seq (length (objs L)) (sizes ((cn, ct) :: subs)) =
                 seq (length (objs L)) (size ct) ++ seq (length (objs L1)) (sizes subs)).
  { cbn [sizes]. fold (sizes subs). rewrite seq_app, Hcnt. reflexivity. }
  cbn [add_all]. rewrite Hsp, E1, E2. rewrite Hseq, !app_assoc. split; [reflexivity|].
  assert (Hpath : forall k p, path_of L1 k = Some p -> path_of L2 k = Some p).
  { intros k p Ek. apply (c_inverse L2 (g_consistent _ _ _ _ _ _ _ HGr)). apply (g_old _ _ _ _ _ _ _ HGr).
    now apply (c_inverse L1 (a_consistent _ _ _ _ _ HA)). }
  split.
  - constructor.
    + exact (g_consistent _ _ _ _ _ _ _ HGr).
    + intros q k Eq. apply (g_old _ _ _ _ _ _ _ HGr), (a_old _ _ _ _ _ HA), Eq.
    + intros q k Eq. apply (g_new _ _ _ _ _ _ _ HGr) in Eq as [Eq|(Hk & d & r & Hr & ->)].
      * apply (a_new _ _ _ _ _ HA) in Eq as [Eq|(Hk & r & Hr & ->)]; [now left|right].
        split; [exact Hk|]. exists c, r. split; [|reflexivity]. constructor; [|exact Hr].
        apply Forall_app_r in Hpl. now inversion Hpl.
      * right. split; [lia|]. exists d, r. auto.
    + cbn [kids_grown]. split; [exact Hlt|]. split; [|exact (g_kids _ _ _ _ _ _ _ HGr)].
      apply (grown_mono (name_ok ud uw fx) ct L1 L2).
      * exact (g_old _ _ _ _ _ _ _ HGr).
      * intros k m Hk Em. destruct (g_kept _ _ _ _ _ _ _ HGr k m Em) as (l & El & Hl & _).
        rewrite El. rewrite Hl by lia. now rewrite set_order_same.
      * exact HG.
    + intros k m Em. destruct (a_kept _ _ _ _ _ HA k m Em) as (l1 & El1 & A1 & A2).
      destruct (g_kept _ _ _ _ _ _ _ HGr k _ El1) as (l2 & El2 & B1 & B2). exists l2. split; [exact El2|].
      cbn [s_order set_order] in B1, B2. split.
      * intros Hk. rewrite B1 by exact Hk. apply A2. intros E. apply Hk. congruence.
      * intros -> Hnd. destruct (A1 Hi) as [_ A1']. rewrite (A1' Hnd) in B2.
        rewrite B2; [reflexivity|reflexivity|now apply NoDup_adding].
    + exact (same_rest_trans _ _ _ (a_rest _ _ _ _ _ HA) (g_rest _ _ _ _ _ _ _ HGr)).
    + rewrite (g_count _ _ _ _ _ _ _ HGr), Hcnt. cbn [sizes]. fold (sizes subs). lia.
    + rewrite (g_list _ _ _ _ _ _ _ HGr), (a_list _ _ _ _ _ HA), Hseq, app_assoc. reflexivity.
    + intros Hc. apply (g_closed _ _ _ _ _ _ _ HGr), (a_closed _ _ _ _ _ HA Hc). right. now exists i.
  - intros k p Hk Ek. apply in_app_iff in Hk as [Hk|Hk]; apply in_app_iff.
    + left. apply (Hcov k p Hk).
      destruct (path_of L1 k) as [p1|] eqn:E; [apply Hpath in E; congruence|].
      exfalso. assert (Hin : In k (spec_list L1)).
      { rewrite (a_list _ _ _ _ _ HA). apply in_app_iff. now right. }
      apply (c_listed L1 (a_consistent _ _ _ _ _ HA)) in Hin as (q & Eq).
      apply (c_inverse L1 (a_consistent _ _ _ _ _ HA)) in Eq. congruence.
    + right. exact (Hcov2 k p Hk Ek).
Qed.

Theorem add_node_ok (fx : bool) : forall t, add_ok fx t.
Proof.
  induction t as [order attrs rest subs IH] using tree_ind'. intros L name par HC Hp Hadd.
  destruct (pick_name fx L _ name par Hadd Hp) as (nm & En & Hpl & Hfree & Hok & _).
  destruct (enter_spec L nm par order attrs rest HC Hpl Hfree)
    as (L1 & E1 & HC1 & Lk & Oi & Ok & Sr & Hlen & Hsl).
  pose proof (enter_added L nm par order attrs rest L1 HC Hpl Hfree E1) as HA.
  destruct (add_node_unfold fx order attrs rest subs name (abs_path par) L nm L1 _ _ En E1) as (dirty & EU).
  set (i := length (objs L)) in *.
  destruct (add_all_spec fx i (par ++ [nm]) Hpl subs L1 [] dirty IH HC1) as (L2 & kids & ds & E2 & HG & Hcov).
  { rewrite Lk. now rewrite str_eqb_refl. }
  { destruct fx; cbn [addable subs_addable] in *.
    - destruct Hadd as ([Hm Hh] & _ & Hn). split.
      + destruct Sr as (R1 & R2 & _). split; congruence.
      + cbn [named] in Hn. clear - Hn. induction subs as [|[cn ct] subs IHs]; constructor; cbn [fst snd]; [tauto|].
        apply IHs. tauto.
    - destruct Hadd as (nm' & E & Hpn & Hv & Hex). assert (nm' = nm) by (cbn in Hok; congruence). subst nm'.
      cbn [exact] in Hex. destruct Hex as [Hnd Hex]. split; [exact Hnd|].
      assert (HvL : forall x, plain x -> vacant L1 ((par ++ [nm]) ++ [x])).
      { intros x Hx r Hr. rewrite Lk. destruct (str_eqb _ _) eqn:Es.
        - exfalso. apply str_eqb_eq, abs_inj in Es; [|exact Hpl|].
          + rewrite <- app_assoc in Es. rewrite <- (app_nil_r (par ++ [nm])) in Es at 1.
            apply app_inv_head in Es. discriminate.
          + apply Forall_app. split; [|exact Hr]. apply Forall_app. split; [exact Hpl|]. constructor; [exact Hx|constructor].
        - rewrite <- app_assoc. apply Hv. constructor; assumption. }
      clear - Hex HvL. induction subs as [|[cn ct] subs IHs]; constructor; cbn [fst snd].
      + destruct Hex as ((x & -> & Hx) & He & _). exists x. split; [reflexivity|]. auto.
      + apply IHs. tauto. }
  rewrite E2 in EU. cbn [fst snd app] in EU. rewrite Hlen in EU.
  assert (Es : i :: seq (S i) (sizes subs) = seq i (size (Tree order attrs rest subs))) by reflexivity.
  rewrite Es in EU.
  exists L2, nm, (abs_path (par ++ [nm]) :: dirty ++ ds). split; [exact EU|]. split; [exact Hpl|].
  split; [exact Hfree|]. split; [exact Hok|]. split; [now destruct fx|].
  assert (Hi1 : lookup L1 (abs_path (par ++ [nm])) = Some i) by now rewrite Lk, str_eqb_refl.
  assert (Hi2 : lookup L2 (abs_path (par ++ [nm])) = Some i) by now apply (g_old _ _ _ _ _ _ _ HG).
  split.
  { destruct (g_kept _ _ _ _ _ _ _ HG i _ Oi) as (l & El & _ & Hl).
    destruct (make_node_attrs nm par order attrs rest Hpl) as (M1 & M2 & M3 & M4).
    cbn [grown]. split; [exact Hi2|]. split; [exact Hok|].
    exists (set_order l (make_node nm (abs_path par) order attrs rest)), kids.
    split; [exact El|]. split; [exact M1|]. split; [exact M2|]. split; [exact M3|].
    split; [|exact (g_kids _ _ _ _ _ _ _ HG)].
    cbn [s_order set_order]. rewrite Hl; [|reflexivity|rewrite M4; apply NoDup_firsts].
    rewrite M4. unfold firsts. now rewrite fold_left_app. }
  split.
  { constructor.
    - exact (g_consistent _ _ _ _ _ _ _ HG).
    - intros q k Eq. apply (g_old _ _ _ _ _ _ _ HG), (a_old _ _ _ _ _ HA), Eq.
    - intros q k Eq. apply (g_new _ _ _ _ _ _ _ HG) in Eq as [Eq|(Hk & c & r & Hr & ->)].
      + now apply (a_new _ _ _ _ _ HA) in Eq.
      + right. fold i. split; [lia|]. exists (c :: r). split; [exact Hr|]. now rewrite <- app_assoc.
    - intros k m Em. destruct (Ok k m Em) as (l1 & El1 & A1 & A2).
      destruct (g_kept _ _ _ _ _ _ _ HG k _ El1) as (l2 & El2 & B1 & _).
      cbn [s_order set_order] in B1. assert (Hk : k <> i).
      { intros ->. assert (i < length (objs L)) by (apply nth_error_Some; unfold obj in Em; congruence).
        unfold i in H. lia. }
      exists l2. split; [exact El2|]. rewrite (B1 Hk). auto.
    - exact (same_rest_trans _ _ _ Sr (g_rest _ _ _ _ _ _ _ HG)).
    - rewrite (g_count _ _ _ _ _ _ _ HG), Hlen. cbn [size]. fold (sizes subs). fold i. lia.
    - rewrite (g_list _ _ _ _ _ _ _ HG), Hsl, Hlen. fold i. rewrite <- Es, <- app_assoc. reflexivity.
    - intros Hc Hpar. apply (g_closed _ _ _ _ _ _ _ HG), (a_closed _ _ _ _ _ HA Hc Hpar). }
  rewrite <- Es. intros k p [<-|Hk] Ek.
  - left. apply (c_inverse L2 (g_consistent _ _ _ _ _ _ _ HG)) in Ek.
    exact (books_inj L2 _ _ i (consistent_books L2 (g_consistent _ _ _ _ _ _ _ HG)) Hi2 Ek).
  - right. apply in_app_iff. right. rewrite <- Hlen in Hk. exact (Hcov k p Hk Ek).
Qed.
End Add.
