(** Basic facts about spec layers: dicts, node objects, [refresh] and
    changes of child orders. *)

From Coq Require Import String List NArith Bool Arith Lia Permutation.
From Verif Require Import PyStr PyStrFacts NxtPath PathSpec PathProofs Dict DictFacts ListMerger
  MergeProofs Layer LayerSpec LayerProofs DescProofs ChildCacheProofs HierarchyProofs SortRows SortProofs PyVal
  Names NamesSpec NamesProofs SpecOps SpecOpsSpec.
Import ListNotations.

(** *** Dicts keyed by nodes *)

Section NDict.
Context {V : Type}.
Implicit Types d : list (nat * V).

Lemma nget_nset i v d j : nget j (nset i v d) = if Nat.eqb i j then Some v else nget j d.
Proof.
  induction d as [|[k w] d IH]; cbn [nset nget].
  - reflexivity.
  - destruct (Nat.eqb k i) eqn:E; cbn [nget].
    + apply Nat.eqb_eq in E. subst k. destruct (Nat.eqb i j) eqn:E2; reflexivity.
    + rewrite IH. destruct (Nat.eqb k j) eqn:E2; [|reflexivity].
      apply Nat.eqb_eq in E2. subst k. rewrite Nat.eqb_sym, E. reflexivity.
Qed.

Lemma nget_none i d : nget i d = None <-> ~ In i (map fst d).
Proof.
  induction d as [|[k w] d IH]; cbn [nget map fst In]; [tauto|].
  destruct (Nat.eqb k i) eqn:E.
  - apply Nat.eqb_eq in E. split; [discriminate|tauto].
  - apply Nat.eqb_neq in E. rewrite IH. tauto.
Qed.

Lemma nget_ndel i d j : NoDup (map fst d) ->
  nget j (ndel i d) = if Nat.eqb i j then None else nget j d.
Proof.
  induction d as [|[k w] d IH]; intros H; cbn [ndel nget].
  - now destruct (Nat.eqb i j).
  - inversion H as [|? ? Hk Hd]; subst. destruct (Nat.eqb k i) eqn:E; cbn [nget].
    + apply Nat.eqb_eq in E. subst k. destruct (Nat.eqb i j) eqn:E2; [|reflexivity].
      apply Nat.eqb_eq in E2. subst j. now apply nget_none.
    + rewrite (IH Hd). destruct (Nat.eqb k j) eqn:E2; [|reflexivity].
      apply Nat.eqb_eq in E2. subst k. rewrite Nat.eqb_sym, E. reflexivity.
Qed.

Lemma in_keys_nset i v d j : In j (map fst (nset i v d)) <-> j = i \/ In j (map fst d).
Proof.
  induction d as [|[k w] d IH]; cbn [nset map fst In]; [intuition|].
  destruct (Nat.eqb k i) eqn:E; cbn [map fst In].
  - apply Nat.eqb_eq in E. subst k. intuition.
  - rewrite IH. intuition.
Qed.

Lemma NoDup_nset i v d : NoDup (map fst d) -> NoDup (map fst (nset i v d)).
Proof.
  induction d as [|[k w] d IH]; intros H; cbn [nset map fst].
  - repeat constructor. intros [].
  - inversion H as [|? ? Hk Hd]; subst. destruct (Nat.eqb k i) eqn:E; cbn [map fst].
    + exact H.
    + constructor; [|auto]. rewrite in_keys_nset. intros [->|Hi]; [|contradiction].
      now rewrite Nat.eqb_refl in E.
Qed.

Lemma in_keys_ndel i d j : In j (map fst (ndel i d)) -> In j (map fst d).
Proof.
  induction d as [|[k w] d IH]; cbn [ndel map fst In]; [tauto|].
  destruct (Nat.eqb k i); cbn [map fst In]; tauto.
Qed.

Lemma NoDup_ndel i d : NoDup (map fst d) -> NoDup (map fst (ndel i d)).
Proof.
  induction d as [|[k w] d IH]; intros H; cbn [ndel map fst]; [exact H|].
  inversion H as [|? ? Hk Hd]; subst. destruct (Nat.eqb k i); cbn [map fst]; [exact Hd|].
  constructor; [|auto]. intros Hi. apply Hk. now apply in_keys_ndel in Hi.
Qed.
End NDict.

(** *** Node objects *)

Lemma nth_update f : forall l i j, nth_error (update i f l) j =
  if Nat.eqb i j then option_map f (nth_error l j) else nth_error l j.
Proof.
  induction l as [|n l IH]; intros i j.
  - destruct i, j; cbn; try reflexivity. now destruct (Nat.eqb i j).
  - destruct i as [|i], j as [|j]; cbn [update nth_error Nat.eqb]; auto.
Qed.

Lemma update_length f : forall l i, length (update i f l) = length l.
Proof. induction l as [|n l IH]; intros [|i]; cbn [update length]; auto. Qed.

Lemma obj_on_node L i f j : obj (on_node L i f) j =
  if Nat.eqb i j then option_map f (obj L j) else obj L j.
Proof. apply nth_update. Qed.

(** A fold of updates, each node at most once. *)
Lemma nth_fold_update {A} (g : A -> nat) (h : A -> snode -> snode) S : forall l j,
  NoDup (map g S) ->
  nth_error (fold_left (fun os x => update (g x) (h x) os) S l) j =
  match find (fun x => Nat.eqb (g x) j) S with
  | Some x => option_map (h x) (nth_error l j)
  | None => nth_error l j
  end.
Proof.
  induction S as [|x S IH]; intros l j H; [reflexivity|].
  cbn [fold_left find map] in *. inversion H as [|? ? Hx HS]; subst.
  rewrite (IH _ _ HS), nth_update. destruct (Nat.eqb (g x) j) eqn:E; [|reflexivity].
  destruct (find _ S) as [y|] eqn:F; [|reflexivity].
  apply find_some in F as [Hy Ey]. apply Nat.eqb_eq in E, Ey. exfalso. apply Hx.
  apply in_map_iff. exists y. split; [congruence|exact Hy].
Qed.

(** *** Names and paths *)

Lemma plain_component ns : Forall plain ns -> Forall component ns.
Proof. apply Forall_impl. intros a H. apply H. Qed.

Lemma legal_plain ud uw s : legal (isdigit ud) (is_word uw) s -> plain s.
Proof. intros H. exact (legal_component ud uw s H). Qed.

Lemma join_plain ns nm : Forall plain (ns ++ [nm]) ->
  join_node_paths (abs_path ns) nm = abs_path (ns ++ [nm]).
Proof. intros H. apply join_node_paths_abs. now apply plain_component. Qed.

Lemma abs_inj a b : Forall plain a -> Forall plain b -> abs_path a = abs_path b -> a = b.
Proof. intros Ha Hb. apply abs_path_inj; now apply plain_component. Qed.

Lemma namespace_plain ns : Forall plain ns -> ns <> [] ->
  str_path_to_node_namespace (abs_path ns) = ns.
Proof.
  intros H Hne. replace (abs_path ns) with (node_namespace_to_str_path ns).
  - apply namespace_of_path; [exact Hne|].
    revert H. apply Forall_impl. intros a [[_ Hs] Hp]. auto.
  - rewrite abs_path_slashed, slashed_join by exact Hne. reflexivity.
Qed.

Lemma namespace_world : str_path_to_node_namespace (abs_path []) = [[]].
Proof. reflexivity. Qed.

(** Every path in a consistent table is a proper one. *)
Definition proper_path (p : pystr) : Prop := exists ns, Forall plain ns /\ p = abs_path ns.

Lemma spells_proper n p : spells n p -> proper_path p.
Proof.
  intros [(-> & _)|(ns & nm & H & -> & _)].
  - exists []. split; [constructor|reflexivity].
  - exists (ns ++ [nm]). auto.
Qed.

Lemma spells_join n p : spells n p -> join_node_paths (s_parent n) (s_name n) = p.
Proof.
  intros [(-> & -> & ->)|(ns & nm & H & -> & -> & ->)]; [reflexivity|]. now apply join_plain.
Qed.

Lemma spells_snoc n ns nm : Forall plain (ns ++ [nm]) -> spells n (abs_path (ns ++ [nm])) ->
  s_parent n = abs_path ns /\ s_name n = nm.
Proof.
  intros Hp [(E & _)|(ms & m & H & E & Hpar & Hnm)].
  - exfalso. apply (abs_path_snoc_not_world ns nm); [now apply plain_component|exact E].
  - apply abs_inj in E; [|assumption..]. apply app_inj_tail in E as [-> ->]. auto.
Qed.

Lemma spells_world n : spells n (abs_path []) -> s_parent n = [] /\ s_name n = lit "/".
Proof.
  intros [(_ & H)|(ms & m & H & E & _)]; [exact H|].
  exfalso. symmetry in E. revert E. apply abs_path_snoc_not_world. now apply plain_component.
Qed.

(** *** The books without the node table *)

Record books (L : slayer) : Prop := {
  b_inverse : forall p i, lookup L p = Some i <-> path_of L i = Some p;
  b_spells : forall p i, lookup L p = Some i -> exists n, obj L i = Some n /\ spells n p;
  b_listed : forall i, In i (spec_list L) <-> exists p, lookup L p = Some i;
  b_once : NoDup (spec_list L);
  b_paths : NoDup (map fst (by_path L));
  b_nodes : NoDup (map fst (by_node L))
}.

Lemma consistent_books L : consistent L -> books L.
Proof. intros H. constructor; apply H. Qed.

Lemma books_inj L p q i : books L -> lookup L p = Some i -> lookup L q = Some i -> p = q.
Proof. intros H E1 E2. apply (b_inverse L H) in E1, E2. congruence. Qed.

Lemma books_proper L p i : books L -> lookup L p = Some i -> proper_path p.
Proof. intros H E. destruct (b_spells L H _ _ E) as (n & _ & Hs). exact (spells_proper _ _ Hs). Qed.

Lemma in_by_path L p i : books L -> In (p, i) (by_path L) <-> lookup L p = Some i.
Proof.
  intros H. split; intros E.
  - apply In_dget; [apply (b_paths L H)|exact E].
  - now apply dget_In in E.
Qed.

Lemma ids_NoDup L : books L -> NoDup (map snd (by_path L)).
Proof.
  intros H. assert (K : NoDup (map fst (by_path L))) by apply (b_paths L H).
  assert (J : forall p q i, In (p, i) (by_path L) -> In (q, i) (by_path L) -> p = q).
  { intros p q i Hp Hq. apply (in_by_path L _ _ H) in Hp, Hq. exact (books_inj L p q i H Hp Hq). }
  revert K J. generalize (by_path L) as d. induction d as [|[p i] d IH]; intros K J; [constructor|].
  cbn [map fst snd] in *. inversion K as [|? ? Hp Hd]; subst. constructor.
  - intros Hi. apply in_map_iff in Hi as ([q j] & Ej & Hq). cbn in Ej. subst j.
    apply Hp. rewrite (J p q i); [|now left|now right]. apply in_map_iff. exists (q, i). auto.
  - apply IH; [exact Hd|]. intros a b c Ha Hb. apply (J a b c); now right.
Qed.

(** *** refresh *)

Lemma lookup_refresh L p : lookup (refresh L) p = lookup L p. Proof. reflexivity. Qed.
Lemma path_of_refresh L i : path_of (refresh L) i = path_of L i. Proof. reflexivity. Qed.

Lemma find_by_id L i : books L ->
  find (fun pi => Nat.eqb (snd pi) i) (by_path L)
  = match path_of L i with Some p => Some (p, i) | None => None end.
Proof.
  intros H. destruct (find _ (by_path L)) as [[p j]|] eqn:F.
  - apply find_some in F as [Hi Ej]. cbn [snd] in Ej. apply Nat.eqb_eq in Ej. subst j.
    apply (in_by_path L _ _ H), (b_inverse L H) in Hi. now rewrite Hi.
  - destruct (path_of L i) as [p|] eqn:E; [|reflexivity].
    apply (b_inverse L H), (in_by_path L _ _ H) in E.
    pose proof (find_none _ _ F _ E) as Hn. cbn [snd] in Hn. now rewrite Nat.eqb_refl in Hn.
Qed.

Lemma obj_refresh L i : books L ->
  obj (refresh L) i =
  if muted L then obj L i
  else match path_of L i with
       | Some p => option_map (set_sources p) (obj L i)
       | None => obj L i
       end.
Proof.
  intros H. unfold obj, refresh. cbn [objs with_table with_objs]. unfold refresh_sources.
  destruct (muted L); [reflexivity|].
  rewrite (nth_fold_update snd (fun pi => set_sources (fst pi)) (by_path L) (objs L) i (ids_NoDup L H)).
  rewrite (find_by_id L i H). unfold obj. destruct (path_of L i); reflexivity.
Qed.

Lemma spells_sources n p q : spells (set_sources q n) p <-> spells n p.
Proof. reflexivity. Qed.

(** A refreshed layer with right books is consistent. *)
Lemma refresh_consistent L : books L -> consistent (refresh L).
Proof.
  intros H. constructor.
  - intros p i. rewrite lookup_refresh, path_of_refresh. apply H.
  - intros p i E. rewrite lookup_refresh in E. destruct (b_spells L H _ _ E) as (n & En & Hs).
    rewrite (obj_refresh L i H), En. destruct (muted L); [exists n; auto|].
    destruct (path_of L i) as [q|]; [|exists n; auto]. exists (set_sources q n). auto.
  - intros i. apply (b_listed L H).
  - apply (b_once L H).
  - cbn [table refresh with_table].
    eapply Permutation_NoDup; [symmetry; apply sort_rows_spec|].
    apply (NoDup_map_inv snd). rewrite map_map. cbn [snd]. exact (ids_NoDup L H).
  - intros ns i. cbn [table refresh with_table].
    assert (P : In (ns, i) (sort_multidimensional_list (fun r => length (fst r))
        (map (fun pi => (str_path_to_node_namespace (fst pi), snd pi)) (by_path L)))
      <-> In (ns, i) (map (fun pi => (str_path_to_node_namespace (fst pi), snd pi)) (by_path L))).
    { split; apply Permutation_in; [|symmetry]; apply sort_rows_spec. }
    rewrite P, in_map_iff. clear P. rewrite !lookup_refresh. split.
    + intros ([p j] & E & Hi). cbn [fst snd] in E. injection E as E ->.
      apply (in_by_path L _ _ H) in Hi.
      destruct (books_proper L p i H Hi) as (ms & Hms & ->).
      destruct ms as [|m ms].
      * right. rewrite namespace_world in E. auto.
      * left. rewrite namespace_plain in E by (auto; discriminate). subst ns.
        split; [exact Hms|]. split; [discriminate|exact Hi].
    + intros [(Hns & Hne & E)|(-> & E)].
      * exists (abs_path ns, i). cbn [fst snd]. rewrite namespace_plain by auto.
        split; [reflexivity|]. now apply (in_by_path L _ _ H).
      * exists (abs_path [], i). split; [reflexivity|]. now apply (in_by_path L _ _ H).
  - apply (b_paths L H).
  - apply (b_nodes L H).
Qed.

(** *** Changes of child orders only *)

Record reordered (L L' : slayer) : Prop := {
  r_objs : forall j, match obj L j with
                     | None => obj L' j = None
                     | Some n => exists o, obj L' j = Some (set_order o n)
                     end;
  r_list : spec_list L' = spec_list L;
  r_paths : by_path L' = by_path L;
  r_nodes : by_node L' = by_node L;
  r_table : table L' = table L;
  r_positions : positions L' = positions L;
  r_collapse : collapse L' = collapse L;
  r_muted : muted L' = muted L;
  r_hidden : hidden L' = hidden L;
  r_top : top L' = top L
}.

Lemma set_order_same n : set_order (s_order n) n = n.
Proof. destruct n; reflexivity. Qed.

Lemma reordered_refl L : reordered L L.
Proof.
  constructor; try reflexivity. intros j. destruct (obj L j) as [n|]; [|reflexivity].
  exists (s_order n). now rewrite set_order_same.
Qed.

Lemma reordered_trans A B C : reordered A B -> reordered B C -> reordered A C.
Proof.
  intros H K. constructor; try (etransitivity; [apply K|apply H]).
  intros j. pose proof (r_objs _ _ H j) as Hj. pose proof (r_objs _ _ K j) as Kj.
  destruct (obj A j) as [n|].
  - destruct Hj as (o & Ej). rewrite Ej in Kj. destruct Kj as (o' & Ek). exists o'. exact Ek.
  - rewrite Hj in Kj. exact Kj.
Qed.

Lemma reordered_on L i f : (forall n, exists o, f n = set_order o n) -> reordered L (on_node L i f).
Proof.
  intros Hf. constructor; try reflexivity. intros j. rewrite obj_on_node.
  destruct (obj L j) as [n|]; [|now destruct (Nat.eqb i j)].
  destruct (Nat.eqb i j); cbn [option_map].
  - destruct (Hf n) as (o & ->). now exists o.
  - exists (s_order n). now rewrite set_order_same.
Qed.

Lemma reordered_lookup L L' p : reordered L L' -> lookup L' p = lookup L p.
Proof. intros H. unfold lookup. now rewrite (r_paths _ _ H). Qed.
Lemma reordered_path_of L L' i : reordered L L' -> path_of L' i = path_of L i.
Proof. intros H. unfold path_of. now rewrite (r_nodes _ _ H). Qed.

Lemma reordered_books L L' : reordered L L' -> books L -> books L'.
Proof.
  intros R H. constructor.
  - intros p i. rewrite (reordered_lookup _ _ _ R), (reordered_path_of _ _ _ R). apply H.
  - intros p i E. rewrite (reordered_lookup _ _ _ R) in E.
    destruct (b_spells L H _ _ E) as (n & En & Hs). pose proof (r_objs _ _ R i) as Hi.
    rewrite En in Hi. destruct Hi as (o & Eo). exists (set_order o n). auto.
  - intros i. rewrite (r_list _ _ R), (b_listed L H).
    split; intros (p & E); exists p; now rewrite (reordered_lookup _ _ _ R) in *.
  - rewrite (r_list _ _ R). apply H.
  - rewrite (r_paths _ _ R). apply H.
  - rewrite (r_nodes _ _ R). apply H.
Qed.
