(** Proofs about [Layer]: children and descendants. *)

From Coq Require Import String List NArith ZArith Bool Lia Arith Permutation.
From Verif Require Import PyStr PyStrFacts NxtPath PathSpec PathProofs Dict DictFacts
     ListMerger MergeProofs Layer LayerSpec.
Import ListNotations.

(** *** add_missing *)

Lemma add_missing_in l e x : In x (add_missing l e) <-> In x l \/ In x e.
Proof.
  unfold add_missing. revert l. induction e as [|y e IH]; intros l; cbn; [tauto|].
  rewrite IH. destruct (str_in y l) eqn:E.
  - apply str_in_In in E. split; [tauto|]. intros [H|[<-|H]]; auto.
  - rewrite in_app_iff. cbn. tauto.
Qed.

Lemma NoDup_snoc {A} (l : list A) x : NoDup l -> ~ In x l -> NoDup (l ++ [x]).
Proof.
  intros H Hx. apply NoDup_app_remove_l with (l := @nil A) || idtac.
  induction H as [|y l Hy H IH]; cbn.
  - constructor; auto. constructor.
  - constructor.
    + rewrite in_app_iff. cbn. intros [G|[G|[]]]; auto. subst. apply Hx. now left.
    + apply IH. intros G. apply Hx. now right.
Qed.

Lemma add_missing_nodup l e : NoDup l -> NoDup (add_missing l e).
Proof.
  unfold add_missing. revert l. induction e as [|y e IH]; intros l H; cbn; auto.
  apply IH. destruct (str_in y l) eqn:E; auto. apply str_in_false in E.
  now apply NoDup_snoc.
Qed.

Lemma add_missing_app l e :
  NoDup e -> add_missing l e = l ++ filter (fun x => negb (str_in x l)) e.
Proof.
  unfold add_missing. intros H. revert l. induction H as [|y e Hy H IH]; intros l; cbn.
  - now rewrite app_nil_r.
  - rewrite IH. destruct (str_in y l) eqn:E; cbn; auto.
    rewrite <- app_assoc. cbn. f_equal. f_equal. apply filter_ext_in.
    intros x Hx. f_equal.
    destruct (str_in x l) eqn:Ex.
    + apply str_in_In. apply in_or_app. left. now apply str_in_In.
    + apply str_in_false. rewrite in_app_iff. apply str_in_false in Ex. cbn.
      intros [G|[->|[]]]; auto.
Qed.

(** *** The true children *)

Lemma scan_real_sub same d p x : In x (scan_real same d p) -> In x (real d p).
Proof.
  unfold scan_real, real. rewrite !in_map_iff. intros ((k & n) & <- & H).
  exists (k, n). split; auto. apply filter_In in H as [H1 H2]. apply filter_In. split; auto.
  unfold is_child in H2. now apply andb_true_iff in H2.
Qed.

Lemma scan_real_world same d : scan_real same d WORLD = real d WORLD.
Proof.
  unfold scan_real, real. f_equal. apply filter_ext. intros (k & n). unfold is_child. cbn.
  now rewrite andb_true_r.
Qed.

Lemma scan_real_exact same d p :
  (forall k n, In (k, n) d -> n_parent n = p -> same k p = true) ->
  scan_real same d p = real d p.
Proof.
  intros H. unfold scan_real, real. f_equal. apply filter_ext_in. intros (k & n) Hi.
  unfold is_child. cbn. destruct (str_eqb (n_parent n) p) eqn:E; auto.
  apply str_eqb_eq in E. rewrite (H k n Hi E). now rewrite orb_true_r.
Qed.

Lemma NoDup_map_filter {A B} (f : A -> B) (g : A -> bool) l :
  NoDup (map f l) -> NoDup (map f (filter g l)).
Proof.
  induction l as [|x l IH]; cbn; intros H; auto. inversion H as [|? ? H1 H2]; subst.
  destruct (g x); cbn; auto. constructor; auto.
  intros G. apply H1. apply in_map_iff in G as (y & Ey & Hy).
  apply filter_In in Hy as [Hy _]. apply in_map_iff. eauto.
Qed.

Lemma real_nodup d p : NoDup (dkeys d) -> NoDup (real d p).
Proof. apply NoDup_map_filter. Qed.

Lemma component_app_inv a b : Forall component (a ++ b) -> Forall component a /\ Forall component b.
Proof. apply Forall_app. Qed.

Lemma placed_names k n : placed k n -> exists ns, Forall component ns /\ k = abs_path ns.
Proof.
  intros [[-> _]|(ns & nm & H & -> & _)]; [exists []|exists (ns ++ [nm])]; auto.
Qed.

Lemma wf_key d k : wf_nodes d -> In k (dkeys d) ->
  exists ns, Forall component ns /\ k = abs_path ns.
Proof.
  intros [_ H] Hk. unfold dkeys in Hk. apply in_map_iff in Hk as ((k' & n) & <- & Hi).
  apply (placed_names k' n). auto.
Qed.

Lemma abs_nonempty ns : abs_path ns <> [].
Proof. destruct ns; discriminate. Qed.

(** A node's parent path, from its path. *)
Lemma placed_parent ns nm n :
  Forall component (ns ++ [nm]) -> placed (abs_path (ns ++ [nm])) n ->
  n_parent n = abs_path ns /\ n_name n = nm.
Proof.
  intros Hc [[H _]|(ms & m & Hc2 & H & H1 & H2)].
  - exfalso. apply abs_path_inj in H; auto. now destruct ns.
  - apply abs_path_inj in H; auto. apply app_inj_tail in H as [-> ->]. auto.
Qed.

Lemma placed_parent_inv k n ns :
  Forall component ns -> placed k n -> n_parent n = abs_path ns ->
  k = child ns (n_name n) /\ component (n_name n).
Proof.
  intros Hc [[_ H]|(ms & m & Hc2 & -> & H1 & H2)] Hp.
  - exfalso. apply (abs_nonempty ns). congruence.
  - apply component_app_inv in Hc2 as [A B].
    assert (ms = ns) by (apply abs_path_inj; auto; congruence). subst.
    split; auto. now inversion B.
Qed.

Lemma real_in d ns c :
  wf_nodes d -> Forall component ns ->
  In c (real d (abs_path ns)) <->
  In c (dkeys d) /\ exists nm, component nm /\ c = child ns nm.
Proof.
  intros Hwf Hc. unfold real. rewrite in_map_iff. split.
  - intros ((k & n) & <- & H). apply filter_In in H as [H1 H2]. cbn in *.
    apply str_eqb_eq in H2. split.
    + unfold dkeys. apply in_map_iff. exists (k, n). auto.
    + destruct Hwf as [_ Hp]. specialize (Hp _ _ H1).
      destruct (placed_parent_inv _ _ _ Hc Hp H2) as [E1 E2]. eauto.
  - intros (Hk & nm & Hnm & ->). unfold dkeys in Hk.
    apply in_map_iff in Hk as ((k & n) & E & Hi). cbn in E. exists (k, n). split; auto.
    apply filter_In. split; auto. cbn. apply str_eqb_eq.
    destruct Hwf as [_ Hp]. specialize (Hp _ _ Hi). rewrite E in Hp.
    apply placed_parent in Hp as [H _]; auto. apply Forall_app. auto.
Qed.

(** *** Implied children *)

Definition implied_step (p : pystr) (acc : list pystr) (k : pystr) : list pystr :=
  if is_ancestor k p then
    let t := trim_to_depth k (Z.of_nat (get_path_depth p) + 1) in
    if str_in t acc then acc else acc ++ [t]
  else acc.

Lemma scan_implied_fold d p : scan_implied d p = fold_left (implied_step p) (dkeys d) [].
Proof. reflexivity. Qed.

Lemma implied_fold_in p ks acc c :
  In c (fold_left (implied_step p) ks acc) <->
  In c acc \/ exists k, In k ks /\ is_ancestor k p = true /\
                        c = trim_to_depth k (Z.of_nat (get_path_depth p) + 1).
Proof.
  revert acc. induction ks as [|k ks IH]; intros acc; cbn [fold_left].
  - split; auto. intros [H|(k & [] & _)]; auto.
  - rewrite IH. unfold implied_step. destruct (is_ancestor k p) eqn:E.
    + cbn zeta. destruct (str_in _ acc) eqn:Es.
      * apply str_in_In in Es. split.
        -- intros [H|(k' & H1 & H2)]; auto. right. exists k'. split; [now right|auto].
        -- intros [H|(k' & [<-|H1] & H2 & ->)]; auto. right. eauto.
      * rewrite in_app_iff. cbn. split.
        -- intros [[H|[H|[]]]|(k' & H1 & H2)]; auto.
           ++ right. exists k. auto.
           ++ right. exists k'. split; [now right|auto].
        -- intros [H|(k' & [<-|H1] & H2 & ->)]; auto. right. eauto.
    + split.
      * intros [H|(k' & H1 & H2)]; auto. right. exists k'. split; [now right|auto].
      * intros [H|(k' & [<-|H1] & H2 & ->)]; auto; [congruence|]. right. eauto.
Qed.

Lemma implied_fold_nodup p ks acc :
  NoDup acc -> NoDup (fold_left (implied_step p) ks acc).
Proof.
  revert acc. induction ks as [|k ks IH]; intros acc H; cbn [fold_left]; auto.
  apply IH. unfold implied_step. destruct (is_ancestor k p); auto. cbn zeta.
  destruct (str_in _ acc) eqn:Es; auto. apply str_in_false in Es. now apply NoDup_snoc.
Qed.

Lemma scan_implied_nodup d p : NoDup (scan_implied d p).
Proof. rewrite scan_implied_fold. apply implied_fold_nodup. constructor. Qed.

Lemma trim_child ns r :
  Forall component (ns ++ r) ->
  trim_to_depth (abs_path (ns ++ r)) (Z.of_nat (get_path_depth (abs_path ns)) + 1)
  = abs_path (firstn (S (length ns)) (ns ++ r)).
Proof.
  intros H. pose proof (proj1 (component_app_inv _ _ H)) as Hn.
  rewrite get_path_depth_abs by auto.
  replace (Z.of_nat (length ns) + 1)%Z with (Z.of_nat (S (length ns))) by lia.
  now apply trim_to_depth_abs.
Qed.

Lemma scan_implied_in d ns c :
  wf_nodes d -> Forall component ns -> ns <> [] \/ ~ has d [] ->
  In c (scan_implied d (abs_path ns)) <->
  exists nm, component nm /\ c = child ns nm /\ known d (ns ++ [nm]).
Proof.
  intros Hwf Hc Hw. rewrite scan_implied_fold, implied_fold_in. split.
  - intros [[]|(k & Hk & Ha & ->)].
    destruct (wf_key _ _ Hwf Hk) as (ks & Hks & ->).
    apply is_ancestor_abs in Ha; auto.
    assert (Hp : exists r, r <> [] /\ ks = ns ++ r).
    { destruct Ha as [->|Ha]; auto. destruct Hw as [Hw|Hw]; [congruence|].
      exists ks. split; auto. intros ->. now apply Hw. }
    destruct Hp as (r & Hr & ->). destruct r as [|nm r]; [congruence|].
    rewrite trim_child by auto. exists nm.
    apply component_app_inv in Hks as [A B]. inversion B as [|? ? B1 B2]; subst.
    split; auto. split.
    + unfold child. f_equal. rewrite firstn_app, firstn_all2 by lia.
      replace (S (length ns) - length ns) with 1 by lia. reflexivity.
    + exists r. split; auto. unfold has. now rewrite <- app_assoc.
  - intros (nm & Hnm & -> & r & Hr & Hk). right. exists (abs_path ((ns ++ [nm]) ++ r)).
    split; [exact Hk|]. rewrite <- app_assoc in *. cbn [app] in *.
    assert (Hall : Forall component (ns ++ nm :: r)) by (apply Forall_app; auto).
    split.
    + apply is_ancestor_abs; auto. right. exists (nm :: r). split; [discriminate|auto].
    + rewrite trim_child by auto. unfold child. f_equal.
      rewrite firstn_app, firstn_all2 by lia.
      replace (S (length ns) - length ns) with 1 by lia. reflexivity.
Qed.

(** *** children without caches *)

Definition all_paths (d : dict cnode) (p : pystr) (incl : bool) : list pystr :=
  add_missing (real d p) (if incl then scan_implied d p else []).

Definition pure_children (same_name : pystr -> pystr -> bool) (d : dict cnode)
           (p : pystr) (rt : rtype) (ordered incl : bool) : answer :=
  if incl && negb (rtype_eqb rt RPath) then AErr ValueError
  else
    let paths := all_paths d p incl in
    if rtype_eqb rt RBool then ABool (match paths with [] => false | _ => true end)
    else
      let order :=
        if ordered then
          match dget p d with
          | Some n => Some (n_order n)
          | None => if incl then Some [] else None
          end
        else Some [] in
      match order with
      | None => AErr AttributeError
      | Some order =>
          let put (f : list pystr -> list pystr) l :=
            match order with [] => l | _ => f l end in
          match rt with
          | RNode => AList (put (order_nodes same_name d order) (real d p))
          | RPath => AList (put (order_paths order) paths)
          | RTable => AList (put (order_table order) (real d p))
          | RDict => ADict (name_dict d (real d p))
          | RBool => ABool false
          end
      end.

Lemma proper_abs ns : Forall component ns -> proper (abs_path ns).
Proof. intros H. exists ns. auto. Qed.

Section Refine.
Variables (same same_name : pystr -> pystr -> bool).

Lemma children_refines L p rt ordered incl :
  all_ready same L -> proper p ->
  exists L', children same same_name L p rt ordered incl
             = (pure_children same_name (nodes L) p rt ordered incl, L') /\
             nodes L' = nodes L /\ all_ready same L'.
Proof.
  intros Hr Hp. assert (Hp0 : p <> []).
  { destruct Hp as (ns & _ & ->). apply abs_nonempty. }
  unfold children, pure_children.
  destruct (incl && negb (rtype_eqb rt RPath)) eqn:E0; [eauto|].
  replace (is_empty p) with false by (destruct p; [congruence|reflexivity]).
  (* the cache entry in use *)
  set (real_cache := match (if str_eqb p WORLD then None else dget p (kids L)) with
                     | Some c => _ | None => _ end).
  assert (H1 : exists L1, real_cache = (entry_of (nodes L) (real (nodes L) p), L1) /\
               nodes L1 = nodes L /\ implied L1 = implied L /\ all_ready same L1).
  { destruct (Hr p Hp) as [Hp1 _]. unfold ready in Hp1. unfold real_cache.
    assert (Hscan : scan_real same (nodes L) p = real (nodes L) p ->
      exists L1, (let c := entry_of (nodes L) (scan_real same (nodes L) p) in
                  (c, with_kids L (dset p c (kids L))))
                 = (entry_of (nodes L) (real (nodes L) p), L1) /\
                 nodes L1 = nodes L /\ implied L1 = implied L /\ all_ready same L1).
    { intros ->. cbn zeta. eexists. split; [reflexivity|]. split; [reflexivity|].
      split; [reflexivity|]. intros q Hq. destruct (Hr q Hq) as [A B]. split; [|exact B].
      unfold ready in *. cbn [kids with_kids nodes]. rewrite dget_dset.
      destruct (str_eqb p q) eqn:Eq; auto. apply str_eqb_eq in Eq as <-. auto. }
    destruct (str_eqb p WORLD) eqn:Ew.
    - apply Hscan. apply str_eqb_eq in Ew as ->. apply scan_real_world.
    - destruct (dget p (kids L)) as [c|]; [|now apply Hscan].
      destruct Hp1 as [->| ->]; [now rewrite str_eqb_refl in Ew|].
      exists L. auto. }
  destruct H1 as (L1 & -> & Hn1 & Hi1 & Hr1).
  cbn [cc_paths cc_nodes cc_table cc_dict entry_of].
  (* the implied cache *)
  set (imp_cache := if incl then _ else ([], L1)).
  assert (H2 : exists L2, imp_cache = (if incl then scan_implied (nodes L) p else [], L2) /\
               nodes L2 = nodes L /\ all_ready same L2).
  { unfold imp_cache. destruct incl; [|eauto].
    assert (Hscan : exists L2, (let i := scan_implied (nodes L) p in
                   (i, with_implied L1 (dset p i (implied L1))))
                 = (scan_implied (nodes L) p, L2) /\ nodes L2 = nodes L /\ all_ready same L2).
    { cbn zeta. eexists. split; [reflexivity|]. split; [exact Hn1|].
      intros q Hq. destruct (Hr1 q Hq) as [A B]. split; [exact A|].
      unfold iready in *. cbn [implied with_implied nodes]. rewrite dget_dset.
      destruct (str_eqb p q) eqn:Eq; auto. apply str_eqb_eq in Eq as <-. right.
      now rewrite Hn1. }
    destruct (str_eqb p WORLD) eqn:Ew; auto.
    destruct (dget p (implied L)) as [i|] eqn:Ei; auto.
    destruct (Hr p Hp) as [_ Hp2]. unfold iready in Hp2. rewrite Ei in Hp2.
    destruct Hp2 as [->| ->]; [now rewrite str_eqb_refl in Ew|]. eauto. }
  destruct H2 as (L2 & -> & Hn2 & Hr2).
  unfold all_paths.
  exists L2. split; auto.
  destruct (rtype_eqb rt RBool); auto.
  destruct ordered; auto. destruct (dget p (nodes L)); auto. destruct incl; auto.
Qed.

End Refine.

(** For any identity answers, nothing but true children is ever listed. *)
Lemma cold_children_sound same same_name d p c :
  p <> [] ->
  In c (as_list (fst (children same same_name {| nodes := d; kids := []; implied := [] |}
                               p RPath false false))) ->
  In c (real d p).
Proof.
  intros Hp. unfold children. cbn [andb rtype_eqb negb].
  replace (is_empty p) with false by (destruct p; [congruence|reflexivity]).
  cbn [kids implied nodes dget].
  replace (if str_eqb p WORLD then None else None) with (@None ccache)
    by now destruct (str_eqb p WORLD).
  cbn. apply scan_real_sub.
Qed.

(** *** Paths in child order *)

Lemma all_paths_in d ns incl c :
  wf_nodes d -> Forall component ns -> ns <> [] \/ ~ has d [] ->
  In c (all_paths d (abs_path ns) incl) <->
  exists nm, component nm /\ c = child ns nm /\
             if incl then known d (ns ++ [nm]) else has d (ns ++ [nm]).
Proof.
  intros Hwf Hc Hw. unfold all_paths. rewrite add_missing_in, real_in by auto. split.
  - intros [(Hk & nm & Hnm & ->)|H].
    + exists nm. split; [exact Hnm|]. split; [reflexivity|]. destruct incl; [|exact Hk].
      exists []. split; [constructor|]. unfold has. rewrite app_nil_r. exact Hk.
    + destruct incl; [|destruct H]. now apply scan_implied_in in H.
  - intros (nm & Hnm & -> & H). destruct incl.
    + right. apply scan_implied_in; auto. eauto.
    + left. eauto.
Qed.

Lemma all_paths_nodup d p incl : NoDup (dkeys d) -> NoDup (all_paths d p incl).
Proof. intros H. apply add_missing_nodup. now apply real_nodup. Qed.

(** The paths listed are the children for a list of distinct names. *)
Lemma all_paths_names d ns incl :
  wf_nodes d -> Forall component ns -> ns <> [] \/ ~ has d [] ->
  exists names, all_paths d (abs_path ns) incl = map (child ns) names /\
                NoDup names /\ Forall component names.
Proof.
  intros Hwf Hc Hw.
  assert (G : forall l, (forall c, In c l -> exists nm, component nm /\ c = child ns nm) ->
              NoDup l -> exists names, l = map (child ns) names /\ NoDup names /\
              Forall component names).
  { induction l as [|c l IH]; intros H Hnd.
    - exists []. repeat split; constructor.
    - inversion Hnd as [|? ? H1 H2]; subst.
      destruct (H c (or_introl eq_refl)) as (nm & Hnm & ->).
      destruct IH as (names & -> & Hn & Hf); auto.
      { intros c Hi. apply H. now right. }
      exists (nm :: names). repeat split; auto. constructor; auto.
      intros Hi. apply H1. apply in_map. exact Hi. }
  apply G.
  - intros c Hi. apply all_paths_in in Hi; auto. destruct Hi as (nm & H1 & H2 & _). eauto.
  - apply all_paths_nodup. apply Hwf.
Qed.

Lemma child_name ns nm : Forall component (ns ++ [nm]) -> node_name_from_node_path (child ns nm) = nm.
Proof. intros H. now apply node_name_abs. Qed.

Lemma filter_named ns names nm :
  Forall component ns -> Forall component names -> NoDup names ->
  filter (fun p => str_eqb (node_name_from_node_path p) nm) (map (child ns) names)
  = if str_in nm names then [child ns nm] else [].
Proof.
  intros Hns Hn Hnd. induction Hnd as [|m names Hm Hnd IH]; cbn [map filter]; auto.
  inversion Hn as [|? ? H1 H2]; subst.
  rewrite child_name by (apply Forall_app; auto).
  rewrite IH by auto. cbn [str_in existsb].
  destruct (str_eqb m nm) eqn:E.
  - apply str_eqb_eq in E as ->.
    replace (str_in nm names) with false by (symmetry; now apply str_in_false).
    unfold str_in. cbn. now rewrite str_eqb_refl.
  - unfold str_in. cbn. rewrite str_eqb_sym, E. reflexivity.
Qed.

Lemma flat_map_sing {A B} (f : A -> bool) (g : A -> B) l :
  flat_map (fun x => if f x then [g x] else []) l = map g (filter f l).
Proof. induction l as [|x l IH]; cbn; auto. destruct (f x); cbn; now rewrite IH. Qed.

Lemma flat_map_ext_in {A B} (f g : A -> list B) l :
  (forall x, In x l -> f x = g x) -> flat_map f l = flat_map g l.
Proof.
  induction l as [|x l IH]; intros H; cbn; auto. rewrite H by now left. f_equal. apply IH.
  intros. apply H. now right.
Qed.

Lemma child_inj ns a b : Forall component ns -> component a -> component b ->
  child ns a = child ns b -> a = b.
Proof.
  intros H1 H2 H3 H. apply abs_path_inj in H; try (apply Forall_app; auto).
  now apply app_inj_tail in H.
Qed.

Lemma str_in_map_child ns x l :
  Forall component ns -> component x -> Forall component l ->
  str_in (child ns x) (map (child ns) l) = str_in x l.
Proof.
  intros H1 H2 H3. destruct (str_in x l) eqn:E.
  - apply str_in_In. apply in_map. now apply str_in_In.
  - apply str_in_false. apply str_in_false in E. intros H. apply in_map_iff in H as (y & Ey & Hy).
    apply E. rewrite Forall_forall in H3. apply child_inj in Ey; auto. now subst.
Qed.

Lemma filter_map {A B} (f : B -> bool) (g : A -> B) l :
  filter f (map g l) = map g (filter (fun x => f (g x)) l).
Proof. induction l as [|x l IH]; cbn; auto. destruct (f (g x)); cbn; now rewrite IH. Qed.

Lemma order_paths_names ns order names :
  Forall component ns -> Forall component names -> NoDup names ->
  order_paths order (map (child ns) names)
  = map (child ns) (filter (fun n => str_in n names) order ++
                    filter (fun n => negb (str_in n order)) names).
Proof.
  intros Hns Hn Hnd. unfold order_paths.
  rewrite (flat_map_ext_in _ (fun nm => if str_in nm names then [child ns nm] else []))
    by (intros; now apply filter_named).
  rewrite flat_map_sing.
  assert (Hnd2 : NoDup (map (child ns) names)).
  { clear -Hns Hn Hnd. induction Hnd as [|m names Hm Hnd IH]; cbn; constructor.
    - inversion Hn as [|? ? H1 H2]; subst. intros Hi. apply in_map_iff in Hi as (y & Ey & Hy).
      rewrite Forall_forall in H2. apply child_inj in Ey; auto. now subst.
    - apply IH. now inversion Hn. }
  rewrite add_missing_app by auto. rewrite map_app. f_equal. rewrite filter_map. f_equal.
  apply filter_ext_in. intros x Hx. f_equal.
  assert (Hcx : component x) by (rewrite Forall_forall in Hn; auto).
  rewrite str_in_map_child; auto.
  - destruct (str_in x order) eqn:E.
    + apply str_in_In. apply filter_In. split; [now apply str_in_In|]. now apply str_in_In.
    + apply str_in_false. apply str_in_false in E. intros G. apply filter_In in G. tauto.
  - rewrite Forall_forall in *. intros y Hy. apply filter_In in Hy as [_ Hy].
    apply str_in_In in Hy. auto.
Qed.
