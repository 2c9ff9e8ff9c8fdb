(** Proofs about [Layer]: the execution order. *)

From Coq Require Import String List NArith ZArith Bool Lia Arith.
From Verif Require Import PyStr PyStrFacts NxtPath PathSpec PathProofs Dict DictFacts
     ListMerger MergeProofs Layer LayerSpec LayerProofs DescProofs.
Import ListNotations.

Lemma och_lists_kids d incl : wf_nodes d -> lists_kids d incl (och d incl).
Proof.
  intros Hwf ns Hc Hne.
  destruct (och_names d ns incl Hwf Hc (or_introl Hne)) as (names & E & Hnd & Hf & Ho).
  exists names. split; [exact Hnd|]. split; [|split; [|exact Ho]].
  - intros nm. split.
    + intros Hi. assert (Hnm : component nm) by (rewrite Forall_forall in Hf; auto).
      split; auto.
      assert (Hx : In (child ns nm) (all_paths d (abs_path ns) incl))
        by (rewrite E; now apply in_map).
      apply all_paths_in in Hx; auto. destruct Hx as (m & Hm & Em & H).
      apply child_inj in Em; auto. now subst.
    + intros [Hnm H].
      assert (Hx : In (child ns nm) (all_paths d (abs_path ns) incl))
        by (apply all_paths_in; auto; eauto).
      rewrite E in Hx. apply in_map_iff in Hx as (m & Em & Hm).
      rewrite Forall_forall in Hf. apply child_inj in Em; auto. now subst.
  - intros ->. rewrite <- E. reflexivity.
Qed.

(** *** The roots *)

Lemma find_real (f : pystr -> bool) p d :
  match find f (real d p) with
  | None => forall k n, In (k, n) d -> n_parent n = p -> f k = false
  | Some k => exists a n b, d = a ++ (k, n) :: b /\ n_parent n = p /\ f k = true /\
                (forall k' n', In (k', n') a -> n_parent n' = p -> f k' = false)
  end.
Proof.
  induction d as [|(k & n) d IH]; cbn.
  - intros k n [].
  - unfold real. cbn. destruct (str_eqb (n_parent n) p) eqn:E.
    + apply str_eqb_eq in E. cbn. destruct (f k) eqn:Ef.
      * exists [], n, d. repeat split; auto. intros ? ? [].
      * fold (real d p). destruct (find f (real d p)) as [k'|].
        -- destruct IH as (a & n' & b & -> & H1 & H2 & H3).
           exists ((k, n) :: a), n', b. repeat split; auto.
           intros k2 n2 [G|G] Hp; [injection G as <- <-; auto|eauto].
        -- intros k2 n2 [G|G] Hp; [injection G as <- <-; auto|eauto].
    + fold (real d p). apply str_eqb_neq in E. destruct (find f (real d p)) as [k'|].
      -- destruct IH as (a & n' & b & -> & H1 & H2 & H3).
         exists ((k, n) :: a), n', b. repeat split; auto.
         intros k2 n2 [G|G] Hp; [injection G as <- <-; contradiction|eauto].
      -- intros k2 n2 [G|G] Hp; [injection G as <- <-; contradiction|eauto].
Qed.

Definition exec_in_is (d : dict cnode) (prev k : pystr) : bool :=
  match dget k d with
  | Some n => match n_exec_in n with Some e => str_eqb e prev | None => false end
  | None => false
  end.

Lemma exec_in_is_iff d prev k n :
  NoDup (dkeys d) -> In (k, n) d ->
  (exec_in_is d prev k = true <-> n_exec_in n = Some prev).
Proof.
  intros Hnd Hi. unfold exec_in_is. rewrite (In_dget _ _ _ Hnd Hi).
  destruct (n_exec_in n) as [e|]; [|split; discriminate].
  rewrite str_eqb_eq. split; [now intros ->|now injection 1].
Qed.

Definition pure_next (d : dict cnode) (prev : pystr) : option pystr :=
  find (exec_in_is d prev) (real d WORLD).

Lemma pure_next_none d prev rs :
  NoDup (dkeys d) -> pure_next d prev = None -> exec_chain d prev rs <-> rs = [].
Proof.
  intros Hnd E. unfold pure_next in E. pose proof (find_real (exec_in_is d prev) WORLD d) as H.
  rewrite E in H.
  assert (G : forall k n, In (k, n) d -> n_parent n = abs_path [] -> n_exec_in n <> Some prev).
  { intros k n Hi Hp Hx. apply (exec_in_is_iff d prev k n Hnd Hi) in Hx.
    rewrite (H k n Hi Hp) in Hx. discriminate. }
  split.
  - intros [|a k n b rs' -> Hp Hx _ _]; auto. exfalso. apply (G k n); auto.
    apply in_or_app. right. now left.
  - intros ->. now constructor.
Qed.

Lemma pure_next_some d prev k rs :
  NoDup (dkeys d) -> pure_next d prev = Some k ->
  (exec_chain d prev rs <-> exists rs', rs = k :: rs' /\ exec_chain d k rs').
Proof.
  intros Hnd E. unfold pure_next in E. pose proof (find_real (exec_in_is d prev) WORLD d) as H.
  rewrite E in H. destruct H as (a & n & b & Hd & Hp & Hf & Ha).
  assert (Hi : In (k, n) d) by (rewrite Hd; apply in_or_app; right; now left).
  assert (Hx : n_exec_in n = Some prev) by (now apply (exec_in_is_iff d prev k n Hnd Hi)).
  assert (Ha' : forall k' n', In (k', n') a -> n_parent n' = abs_path [] ->
                              n_exec_in n' <> Some prev).
  { intros k' n' Hi' Hp' Hx'. assert (Hin : In (k', n') d) by (rewrite Hd; apply in_or_app; auto).
    apply (exec_in_is_iff d prev k' n' Hnd Hin) in Hx'. rewrite (Ha k' n' Hi' Hp') in Hx'.
    discriminate. }
  split.
  - intros [Hno|a2 k2 n2 b2 rs' Hd2 Hp2 Hx2 Ha2 Hc].
    + exfalso. now apply (Hno k n Hi Hp).
    + assert (Hk : k2 = k).
      { rewrite Hd in Hd2. apply app_eq_app in Hd2 as (q & [[Ea Eb]|[Ea Eb]]).
        - destruct q as [|z q]; cbn in Eb.
          + now injection Eb.
          + injection Eb as Ez _. rewrite <- Ez in *. exfalso. apply (Ha' k2 n2); auto.
            rewrite Ea. apply in_or_app. right. now left.
        - destruct q as [|z q]; cbn in Eb.
          + now injection Eb.
          + injection Eb as Ez _. rewrite <- Ez in *. exfalso. apply (Ha2 k n); auto.
            rewrite Ea. apply in_or_app. right. now left. }
      subst. eauto.
  - intros (rs' & -> & Hc). econstructor; eauto.
Qed.

Lemma chain_functional d p a b :
  NoDup (dkeys d) -> exec_chain d p a -> exec_chain d p b -> a = b.
Proof.
  intros Hnd Ha. revert b. induction Ha as [p H|p a k n bb rs Hd Hp Hx Hno Hc IH]; intros b Hb.
  - destruct Hb as [|a k n bb rs -> Hp Hx _ _]; auto. exfalso. apply (H k n); auto.
    apply in_or_app. right. now left.
  - destruct (pure_next d p) as [k'|] eqn:E.
    + assert (Hcc : exec_chain d p (k :: rs)) by (econstructor; eauto).
      apply (pure_next_some d p k') in Hcc; auto. destruct Hcc as (r1 & E1 & Hc1).
      injection E1 as -> ->.
      apply (pure_next_some d p k') in Hb; auto. destruct Hb as (r2 & -> & Hc2).
      f_equal. auto.
    + assert (Hcc : exec_chain d p (k :: rs)) by (econstructor; eauto).
      apply pure_next_none in Hcc; auto. discriminate.
Qed.

Lemma chain_suffix d p a k b : exec_chain d p (a ++ k :: b) -> exec_chain d k b.
Proof.
  revert p. induction a as [|x a IH]; intros p H; cbn in H.
  - now inversion H.
  - inversion H; subst. eauto.
Qed.

Lemma chain_nodup d p rs : NoDup (dkeys d) -> exec_chain d p rs -> NoDup (p :: rs).
Proof.
  intros Hnd H. constructor.
  - intros Hi. apply in_split in Hi as (a & b & ->).
    pose proof (chain_suffix _ _ _ _ _ H) as H2.
    pose proof (chain_functional _ _ _ _ Hnd H H2) as E.
    apply (f_equal (@length pystr)) in E. rewrite app_length in E. cbn in E. lia.
  - induction H as [p H|p a k n b rs Hd Hp Hx Hno Hc IH]; constructor; auto.
    intros Hi. apply in_split in Hi as (x & y & ->).
    pose proof (chain_suffix _ _ _ _ _ Hc) as H2.
    pose proof (chain_functional _ _ _ _ Hnd Hc H2) as E.
    apply (f_equal (@length pystr)) in E. rewrite app_length in E. cbn in E. lia.
Qed.

Lemma chain_roots d p rs r :
  wf_nodes d -> exec_chain d p rs -> In r rs ->
  exists nm, component nm /\ r = abs_path [nm] /\ has d [nm].
Proof.
  intros Hwf H. induction H as [p H|p a k n b rs Hd Hp Hx Hno Hc IH]; intros Hi; [destruct Hi|].
  destruct Hi as [<-|Hi]; auto.
  assert (Hin : In (k, n) d) by (rewrite Hd; apply in_or_app; right; now left).
  destruct Hwf as [Hnd Hpl].
  destruct (placed_parent_inv k n [] ltac:(constructor) (Hpl _ _ Hin) Hp) as [E Hcn].
  exists (n_name n). split; [exact Hcn|]. unfold child in E. cbn [app] in E. split; [exact E|].
  unfold has. rewrite <- E. unfold dkeys. apply in_map_iff. exists (k, n). auto.
Qed.

Lemma chain_length d p rs : wf_nodes d -> exec_chain d p rs -> length rs <= length d.
Proof.
  intros Hwf H. pose proof (chain_nodup _ _ _ (proj1 Hwf) H) as Hnd.
  inversion Hnd as [|? ? _ Hnd2]; subst.
  rewrite <- (map_length fst d). apply NoDup_incl_length; auto.
  intros x Hx. destruct (chain_roots _ _ _ _ Hwf H Hx) as (nm & _ & -> & Hh). exact Hh.
Qed.

Section Roots.
Variables (same same_name : pystr -> pystr -> bool).

Lemma next_root_refines L prev :
  all_ready same L ->
  exists L', next_root same same_name L prev = (pure_next (nodes L) prev, L') /\
             nodes L' = nodes L /\ all_ready same L'.
Proof.
  intros Hr. unfold next_root.
  destruct (children_refines same same_name L WORLD RNode false false Hr (proper_abs [] ltac:(constructor)))
    as (L1 & -> & Hn1 & Hr1).
  rewrite pure_children_unordered by auto. cbn iota. exists L1. auto.
Qed.

Lemma root_loop_complete fuel L prev rs d :
  NoDup (dkeys d) -> nodes L = d -> all_ready same L -> exec_chain d prev rs -> length rs < fuel ->
  exists L', root_loop same same_name fuel L prev = Some (rs, L') /\
             nodes L' = d /\ all_ready same L'.
Proof.
  intros Hnd. revert L prev rs. induction fuel as [|f IH]; intros L prev rs HL Hr Hc Hf; [lia|].
  cbn [root_loop]. destruct (next_root_refines L prev Hr) as (L1 & -> & Hn1 & Hr1).
  rewrite HL in *. destruct (pure_next d prev) as [k|] eqn:E.
  - apply (pure_next_some d prev k) in Hc; auto. destruct Hc as (rs' & -> & Hc).
    destruct (IH L1 k rs') as (L2 & -> & H2); auto. { cbn in Hf. lia. }
    exists L2. auto.
  - apply pure_next_none in Hc; auto. subst. exists L1. auto.
Qed.

Lemma root_loop_sound fuel L prev rs L' d :
  NoDup (dkeys d) -> nodes L = d -> all_ready same L ->
  root_loop same same_name fuel L prev = Some (rs, L') -> exec_chain d prev rs.
Proof.
  intros Hnd. revert L prev rs L'.
  induction fuel as [|f IH]; intros L prev rs L' HL Hr E; [discriminate|].
  cbn [root_loop] in E. destruct (next_root_refines L prev Hr) as (L1 & E1 & Hn1 & Hr1).
  rewrite E1 in E. rewrite HL in *. destruct (pure_next d prev) as [k|] eqn:Ek.
  - destruct (root_loop same same_name f L1 k) as [[rs' L2]|] eqn:E2; [|discriminate].
    injection E as <- <-. apply (pure_next_some d prev k); auto. exists rs'. split; auto.
    eapply IH; eauto.
  - injection E as <- <-. now apply pure_next_none.
Qed.

(** Looking at as many roots as there are nodes decides whether the search
    ends. *)
Lemma root_loop_endless L prev :
  wf_nodes (nodes L) -> all_ready same L ->
  root_loop same same_name (S (length (nodes L))) L prev = None ->
  forall fuel, root_loop same same_name fuel L prev = None.
Proof.
  intros Hwf Hr H fuel. destruct (root_loop same same_name fuel L prev) as [[rs L']|] eqn:E; auto.
  exfalso. pose proof (root_loop_sound _ _ _ _ _ _ (proj1 Hwf) eq_refl Hr E) as Hc.
  pose proof (chain_length _ _ _ Hwf Hc) as Hl.
  destruct (root_loop_complete (S (length (nodes L))) L prev rs _ (proj1 Hwf) eq_refl Hr Hc)
    as (L2 & E2 & _); [lia|]. congruence.
Qed.

End Roots.

(** *** Skipping disabled subtrees *)

Lemma beneath_abs xs ks :
  Forall component xs -> Forall component ks -> ks <> [] ->
  beneath (abs_path xs) (abs_path ks) = true <-> exists r, xs = ks ++ r.
Proof.
  intros Hx Hk Hne. unfold beneath. rewrite orb_true_iff, str_eqb_eq.
  pose proof (is_ancestor_abs xs ks Hx Hk) as H. unfold is_ancestor in H.
  rewrite abs_path_neqb in H by auto.
  change (lit "/") with NODE_SEP. rewrite H. split.
  - intros [E|[E|(r & Hr & ->)]].
    + apply abs_path_inj in E; auto. subst. exists []. now rewrite app_nil_r.
    + congruence.
    + eauto.
  - intros ([|m r] & ->).
    + left. now rewrite app_nil_r.
    + right. right. exists (m :: r). split; [discriminate|auto].
Qed.

Lemma clear_false_iff d top xs :
  wf_nodes d -> Forall component top -> top <> [] -> Forall component xs ->
  (clear d (abs_path top) (abs_path xs) = false <->
   exists r q, r <> [] /\ Forall component r /\ xs = top ++ r ++ q /\ has d (top ++ r) /\
               off d (abs_path (top ++ r)) = true).
Proof.
  intros Hwf Hc Hne Hx. unfold clear. rewrite <- not_true_iff_false, forallb_forall. split.
  - intros H.
    assert (G : exists k n, In (k, n) d /\
       off d k && beneath (abs_path xs) k && beneath k (abs_path top)
       && negb (str_eqb k (abs_path top)) = true).
    { destruct (existsb (fun kn => off d (fst kn) && beneath (abs_path xs) (fst kn) &&
                  beneath (fst kn) (abs_path top) && negb (str_eqb (fst kn) (abs_path top))) d)
        eqn:E.
      - apply existsb_exists in E as ((k & n) & Hi & Hk). exists k, n. auto.
      - exfalso. apply H. intros (k & n) Hi.
        assert (G : (off d k && beneath (abs_path xs) k && beneath k (abs_path top)
                     && negb (str_eqb k (abs_path top))) = false).
        { destruct (off d k && beneath (abs_path xs) k && beneath k (abs_path top)
                    && negb (str_eqb k (abs_path top))) eqn:E2; auto.
          exfalso. rewrite <- not_true_iff_false in E. apply E.
          apply existsb_exists. exists (k, n). auto. }
        cbn [fst]. now rewrite G. }
    destruct G as (k & n & Hi & Hk). rewrite !andb_true_iff in Hk.
    destruct Hk as [[[H1 H2] H3] H4].
    assert (Hkk : In k (dkeys d)) by (unfold dkeys; apply in_map_iff; exists (k, n); auto).
    destruct (wf_key _ _ Hwf Hkk) as (ks & Hks & ->).
    apply beneath_abs in H3 as (r & ->); auto.
    apply Forall_app in Hks as [_ Hr].
    assert (Hrn : r <> []).
    { intros ->. rewrite app_nil_r, str_eqb_refl in H4. discriminate. }
    apply beneath_abs in H2 as (q & ->); auto.
    + exists r, q. repeat split; auto. now rewrite app_assoc.
    + apply Forall_app; auto.
    + now destruct top.
  - intros (r & q & Hr & Hrc & -> & Hh & Ho) H.
    unfold has, dkeys in Hh. apply in_map_iff in Hh as ((k & n) & E & Hi). cbn in E. subst k.
    specialize (H _ Hi). cbn [fst] in H. rewrite Ho in H.
    assert (Hrr : Forall component (top ++ r)) by (apply Forall_app; auto).
    replace (beneath (abs_path (top ++ r ++ q)) (abs_path (top ++ r))) with true in H.
    2:{ symmetry. apply beneath_abs; auto; [now destruct top|]. exists q. now rewrite app_assoc. }
    replace (beneath (abs_path (top ++ r)) (abs_path top)) with true in H.
    2:{ symmetry. apply beneath_abs; eauto. }
    replace (str_eqb (abs_path (top ++ r)) (abs_path top)) with false in H; [discriminate|].
    symmetry. apply str_eqb_neq. intros E. apply abs_path_inj in E; auto.
    apply Hr. apply (app_inv_head top). now rewrite app_nil_r.
Qed.

Lemma is_enabled_off L p : is_enabled L p = negb (off (nodes L) p).
Proof.
  unfold is_enabled, off. destruct (dget p (nodes L)) as [n|]; auto.
  destruct (n_enabled n) as [b|]; auto. now rewrite negb_involutive.
Qed.

Lemma forall_kids d incl ns :
  wf_nodes d -> Forall component ns -> ns <> [] ->
  forall c, In c (och d incl (abs_path ns)) -> exists nm, component nm /\ c = child ns nm.
Proof.
  intros Hwf Hc Hne c Hi. apply och_in in Hi; auto. apply all_paths_in in Hi; auto.
  destruct Hi as (nm & Hnm & -> & _). eauto.
Qed.

(** One step of [exec_desc]: the test it makes is [clear]. *)
Lemma exec_test L top l a x b disabled :
  wf_nodes (nodes L) -> Forall component top -> top <> [] ->
  forest (och (nodes L) false) (och (nodes L) false (abs_path top)) l ->
  l = a ++ x :: b ->
  (forall y, In y disabled <-> In y a /\ clear (nodes L) (abs_path top) y = false) ->
  is_enabled L x && negb (existsb (fun y => is_ancestor x y) disabled)
  = clear (nodes L) (abs_path top) x.
Proof.
  intros Hwf Hc Hne Hf Hl Hdis. set (d := nodes L) in *.
  assert (Hbelow : forall y, In y l -> exists r, r <> [] /\ Forall component r /\
                      y = abs_path (top ++ r) /\ linked d top r).
  { intros y Hy. apply (forest_below d false Hwf top l) in Hy; auto. }
  assert (Hx : In x l) by (rewrite Hl; apply in_or_app; right; now left).
  destruct (Hbelow x Hx) as (rx & Hrx & Hcx & -> & Hlx).
  assert (Hcxx : Forall component (top ++ rx)) by (apply Forall_app; auto).
  destruct (clear d (abs_path top) (abs_path (top ++ rx))) eqn:Ec.
  - (* clear *)
    apply andb_true_iff. split.
    + rewrite is_enabled_off. apply negb_true_iff. fold d.
      destruct (off d (abs_path (top ++ rx))) eqn:Eo; auto. exfalso.
      assert (G : clear d (abs_path top) (abs_path (top ++ rx)) = false).
      { apply clear_false_iff; auto. exists rx, []. rewrite app_nil_r. repeat split; auto.
        apply (Hlx rx []); auto. now rewrite app_nil_r. }
      congruence.
    + apply negb_true_iff. apply existsb_false. intros y Hy.
      apply Hdis in Hy as [Hya Hyc].
      destruct (Hbelow y) as (ry & Hry & Hcy & -> & Hly).
      { rewrite Hl. apply in_or_app. auto. }
      assert (Hcyy : Forall component (top ++ ry)) by (apply Forall_app; auto).
      destruct (is_ancestor (abs_path (top ++ rx)) (abs_path (top ++ ry))) eqn:Ea; auto. exfalso.
      apply is_ancestor_abs in Ea; auto.
      destruct Ea as [Ea|(q & Hq & Eq)]; [now destruct top|].
      apply clear_false_iff in Hyc; auto.
      destruct Hyc as (r & q2 & Hr & Hrc & E & Hh & Ho).
      assert (G : clear d (abs_path top) (abs_path (top ++ rx)) = false).
      { apply clear_false_iff; auto. exists r, (q2 ++ q). repeat split; auto.
        rewrite Eq, E, <- !app_assoc. reflexivity. }
      congruence.
  - (* not clear *)
    apply andb_false_iff.
    pose proof Ec as Ec'.
    apply clear_false_iff in Ec as (r & q & Hr & Hrc & E & Hh & Ho); auto.
    apply app_inv_head in E. destruct q as [|m q].
    + left. rewrite app_nil_r in E. subst rx. rewrite is_enabled_off. fold d. now rewrite Ho.
    + right. apply negb_false_iff. apply existsb_exists. exists (abs_path (top ++ r)). split.
      * apply Hdis. split.
        -- subst rx.
           apply (forest_parent_first d false Hwf _ l top a b r (m :: q) Hf); auto.
           { now apply forall_kids. }
           { discriminate. }
        -- apply clear_false_iff; auto.
           { apply Forall_app; auto. }
           exists r, []. rewrite app_nil_r. repeat split; auto.
      * apply is_ancestor_abs; auto.
        { apply Forall_app; auto. }
        right. exists (m :: q). split; [discriminate|]. subst rx. now rewrite app_assoc.
Qed.

Lemma from_app x a b : ~ In x a -> from x (a ++ b) = from x b.
Proof.
  induction a as [|y a IH]; cbn; intros H; auto.
  destruct (str_eqb y x) eqn:E.
  - exfalso. apply H. left. now apply str_eqb_eq.
  - apply IH. auto.
Qed.

Lemma from_missing x l : ~ In x l -> from x l = [].
Proof. intros H. rewrite <- (app_nil_r l). rewrite from_app by auto. reflexivity. Qed.

Lemma exec_desc_spec L start top l :
  wf_nodes (nodes L) -> Forall component top -> top <> [] ->
  forest (och (nodes L) false) (och (nodes L) false (abs_path top)) l ->
  forall found,
  exec_desc L start found [] l
  = (filter (clear (nodes L) (abs_path top)) (if found then l else from start l),
     found || str_in start l).
Proof.
  intros Hwf Hc Hne Hf.
  assert (G : forall b a found disabled, l = a ++ b ->
     (forall y, In y disabled <-> In y a /\ clear (nodes L) (abs_path top) y = false) ->
     exec_desc L start found disabled b
     = (filter (clear (nodes L) (abs_path top)) (if found then b else from start b),
        found || str_in start b)).
  { induction b as [|x b IH]; intros a found disabled Hl Hdis; cbn [exec_desc].
    - unfold str_in. cbn. rewrite orb_false_r. destruct found; auto.
    - rewrite (exec_test L top l a x b disabled) by auto.
      assert (Hstep : exists p, p = (found || str_eqb x start) /\
        (if found then x :: b else from start (x :: b)) =
        (if p then x :: b else from start b)).
      { exists (found || str_eqb x start). split; [reflexivity|]. cbn [from].
        now destruct found, (str_eqb x start). }
      destruct Hstep as (p & Ep & ->). rewrite <- Ep.
      assert (Es : found || str_in start (x :: b) = p || str_in start b).
      { subst p. unfold str_in. cbn. rewrite str_eqb_sym.
        destruct found, (str_eqb x start); reflexivity. }
      rewrite Es.
      destruct (clear (nodes L) (abs_path top) x) eqn:Ec.
      + rewrite (IH (a ++ [x]) p disabled).
        * destruct p; cbn; [rewrite Ec|]; reflexivity.
        * now rewrite <- app_assoc.
        * intros y. rewrite Hdis, in_app_iff. cbn. split; [tauto|].
          intros [[H|[<-|[]]] H2]; auto. congruence.
      + rewrite (IH (a ++ [x]) p (disabled ++ [x])).
        * destruct p; cbn; [rewrite Ec|]; reflexivity.
        * now rewrite <- app_assoc.
        * intros y. rewrite !in_app_iff, Hdis. cbn. split.
          -- intros [[H1 H2]|[<-|[]]]; auto.
          -- intros [[H1|[<-|[]]] H2]; auto. }
  intros found. apply (G l []); auto. intros y. cbn. tauto.
Qed.

(** *** The whole order *)

Section Order.
Variables (same same_name : pystr -> pystr -> bool).

Lemma desc_ordered fuel depth L nm :
  wf_nodes (nodes L) -> all_ready same L -> component nm -> has (nodes L) [nm] ->
  shallower (nodes L) depth -> depth <= fuel ->
  exists l L', descendants same same_name fuel L (abs_path [nm]) RPath true false = (AList l, L') /\
    forest (och (nodes L) false) (och (nodes L) false (abs_path [nm])) l /\
    nodes L' = nodes L /\ all_ready same L'.
Proof.
  intros Hwf Hr Hnm Hh Hd Hf. unfold descendants.
  assert (Hc : Forall component [nm]) by auto.
  rewrite abs_neq_world by (auto; discriminate). cbn [rtype_eqb negb].
  assert (Hl : 1 < depth) by (apply (Hd [nm]); auto).
  destruct (ordered_desc_refines same same_name (nodes L) false fuel depth [nm] L)
    as (l & L' & -> & H); auto.
  - discriminate.
  - lia.
  - exists l, L'. auto.
Qed.

Lemma exec_roots_after fuel depth L d start rs :
  wf_nodes d -> nodes L = d -> all_ready same L -> shallower d depth -> depth <= fuel ->
  (forall r, In r rs -> exists nm, component nm /\ r = abs_path [nm] /\ has d [nm]) ->
  exists blocks L', exec_roots same same_name fuel L start true rs = (AList (concat blocks), L') /\
    Forall2 (block d (och d false)) rs blocks /\ nodes L' = d /\ all_ready same L'.
Proof.
  intros Hwf HL Hr Hd Hf. revert L HL Hr.
  induction rs as [|r rs IH]; intros L HL Hr Hrs; cbn [exec_roots].
  - exists [], L. split; [reflexivity|]. split; [constructor|]. auto.
  - cbn [orb andb]. rewrite is_enabled_off, HL, negb_involutive.
    assert (Hrs' : forall r, In r rs -> exists nm, component nm /\ r = abs_path [nm] /\ has d [nm])
      by (intros; apply Hrs; now right).
    destruct (off d r) eqn:Eo.
    + destruct (IH L HL Hr Hrs') as (bs & L' & -> & Hb & H). exists ([] :: bs), L'.
      split; auto. split; auto. constructor; auto. unfold block. now rewrite Eo.
    + destruct (Hrs r (or_introl eq_refl)) as (nm & Hnm & -> & Hh).
      destruct (desc_ordered fuel depth L nm) as (l & L1 & -> & Hfo & Hn1 & Hr1);
        try (rewrite HL); auto.
      rewrite HL in *.
      rewrite (exec_desc_spec L1 start [nm] l) by (rewrite ?Hn1; auto; discriminate).
      rewrite Hn1. cbn [orb].
      destruct (IH L1 Hn1 Hr1 Hrs') as (bs & L' & -> & Hb & H).
      exists ((abs_path [nm] :: filter (clear d (abs_path [nm])) l) :: bs), L'.
      split; auto. split; auto. constructor; auto. unfold block. rewrite Eo. eauto.
Qed.

Lemma exec_roots_never fuel depth L d s rs :
  wf_nodes d -> nodes L = d -> all_ready same L -> shallower d depth -> depth <= fuel ->
  Forall component s -> ~ linked d [] s -> s <> [] ->
  (forall r, In r rs -> exists nm, component nm /\ r = abs_path [nm] /\ has d [nm]) ->
  exists L', exec_roots same same_name fuel L (abs_path s) false rs = (AList [], L').
Proof.
  intros Hwf HL Hr Hd Hf Hs Hns Hsn. revert L HL Hr.
  induction rs as [|r rs IH]; intros L HL Hr Hrs; cbn [exec_roots].
  - eauto.
  - destruct (Hrs r (or_introl eq_refl)) as (nm & Hnm & -> & Hh).
    replace (str_eqb (abs_path [nm]) (abs_path s)) with false.
    2:{ symmetry. apply str_eqb_neq. intros E. apply abs_path_inj in E; auto. subst s.
        apply Hns. intros r1 r2 E Hn. destruct r1 as [|x [|y r1]]; [congruence| |discriminate].
        cbn in E. injection E as <- _. exact Hh. }
    cbn [orb andb].
    destruct (desc_ordered fuel depth L nm) as (l & L1 & -> & Hfo & Hn1 & Hr1);
      try (rewrite HL); auto.
    rewrite HL in *.
    rewrite (exec_desc_spec L1 (abs_path s) [nm] l) by (rewrite ?Hn1; auto; discriminate).
    rewrite Hn1. cbn [orb].
    assert (Hni : ~ In (abs_path s) l).
    { intros Hi. apply (forest_below d false Hwf [nm] l) in Hi; auto; [|discriminate].
      destruct Hi as (r & Hrn & Hrc & E & Hg). apply abs_path_inj in E; auto.
      - subst s. apply Hns. intros r1 r2 E Hn. destruct r1 as [|x r1]; [congruence|].
        cbn in E. injection E as <- E. destruct r1 as [|y r1]; [exact Hh|].
        apply (Hg (y :: r1) r2); auto. discriminate.
      - constructor; auto. }
    rewrite from_missing by auto.
    replace (str_in (abs_path s) l) with false by (symmetry; now apply str_in_false).
    destruct (IH L1) as (L' & ->); auto.
    { intros. apply Hrs. now right. }
    cbn. eauto.
Qed.

(** nxt_layer.get_exec_order, characterised. *)
Lemma exec_order_exact fuel depth L d n0 rest rs :
  wf_nodes d -> nodes L = d -> all_ready same L ->
  Forall component (n0 :: rest) -> linked d [] (n0 :: rest) ->
  exec_chain d (abs_path [n0]) rs ->
  shallower d depth -> depth <= fuel -> length d < fuel ->
  exists l0 first blocks L',
    get_exec_order same same_name fuel L (abs_path (n0 :: rest))
    = (AList (first ++ concat blocks), L') /\
    forest (och d false) (och d false (abs_path [n0])) l0 /\
    first = (match rest with
             | [] => if off d (abs_path [n0]) then []
                     else abs_path [n0] :: filter (clear d (abs_path [n0])) l0
             | _ => filter (clear d (abs_path [n0])) (from (abs_path (n0 :: rest)) l0)
             end) /\
    Forall2 (block d (och d false)) rs blocks.
Proof.
  intros Hwf HL Hr Hc Hl Hch Hd Hf Hlen. unfold get_exec_order.
  rewrite abs_neq_world by (auto; discriminate).
  rewrite get_root_path_abs by auto. unfold get_root_exec_order.
  destruct (root_loop_complete same same_name fuel L (abs_path [n0]) rs d) as (L1 & -> & Hn1 & Hr1);
    auto.
  { apply Hwf. }
  { pose proof (chain_length _ _ _ Hwf Hch). lia. }
  inversion Hc as [|? ? Hn0 Hrest]; subst x l.
  assert (Hh : has d [n0]) by (apply (Hl [n0] rest); auto; discriminate).
  assert (Hroots : forall r, In r rs -> exists nm, component nm /\ r = abs_path [nm] /\ has d [nm])
    by (intros r Hi; eapply chain_roots; eauto).
  cbn [exec_roots orb].
  destruct (desc_ordered fuel depth L1 n0) as (l0 & L2 & E0 & Hfo & Hn2 & Hr2);
    try (rewrite Hn1); auto.
  rewrite Hn1 in Hfo, Hn2.
  destruct rest as [|m rest].
  - rewrite str_eqb_refl. cbn [andb]. rewrite is_enabled_off, Hn1, negb_involutive.
    destruct (off d (abs_path [n0])) eqn:Eo.
    + destruct (exec_roots_after fuel depth L1 d (abs_path [n0]) rs) as (bs & L' & E & Hb & _); auto.
      exists l0, [], bs, L'. split; [exact E|]. auto.
    + rewrite E0. rewrite (exec_desc_spec L2 _ [n0] l0) by (rewrite ?Hn2; auto; discriminate).
      rewrite Hn2. cbn [orb].
      destruct (exec_roots_after fuel depth L2 d (abs_path [n0]) rs) as (bs & L' & E & Hb & _); auto.
      rewrite E. eexists l0, _, bs, L'. split; [|split; [exact Hfo|split; [reflexivity|exact Hb]]].
      reflexivity.
  - replace (str_eqb (abs_path [n0]) (abs_path (n0 :: m :: rest))) with false.
    2:{ symmetry. apply str_eqb_neq. intros E. apply abs_path_inj in E; auto. discriminate. }
    cbn [andb]. rewrite E0.
    rewrite (exec_desc_spec L2 _ [n0] l0) by (rewrite ?Hn2; auto; discriminate).
    rewrite Hn2. cbn [orb].
    assert (Hin : In (abs_path (n0 :: m :: rest)) l0).
    { apply (forest_below d false Hwf [n0] l0); auto; [discriminate|].
      exists (m :: rest). repeat split; auto; [discriminate|].
      intros r1 r2 E Hn. apply (Hl (n0 :: r1) r2); [now rewrite E|discriminate]. }
    replace (str_in (abs_path (n0 :: m :: rest)) l0) with true by (symmetry; now apply str_in_In).
    destruct (exec_roots_after fuel depth L2 d (abs_path (n0 :: m :: rest)) rs)
      as (bs & L' & E & Hb & _); auto.
    rewrite E. eexists l0, _, bs, L'. split; [|split; [exact Hfo|split; [reflexivity|exact Hb]]].
    reflexivity.
Qed.

End Order.

(** *** Consequences *)

Lemma forest_listing d ns l :
  wf_nodes d -> Forall component ns -> ns <> [] ->
  forest (och d false) (och d false (abs_path ns)) l ->
  forall x, In x l <-> exists r, r <> [] /\ Forall component r /\ x = abs_path (ns ++ r) /\
                                 linked d ns r.
Proof. intros Hwf Hc Hne Hf x. now apply (forest_below d false Hwf ns l x). Qed.

Lemma clear_not_off d top xs :
  wf_nodes d -> Forall component top -> top <> [] -> Forall component xs -> xs <> [] ->
  linked d top xs -> clear d (abs_path top) (abs_path (top ++ xs)) = true ->
  forall r q, r <> [] -> xs = r ++ q -> off d (abs_path (top ++ r)) = false.
Proof.
  intros Hwf Hc Hne Hx Hxn Hl Hcl r q Hr ->.
  destruct (off d (abs_path (top ++ r))) eqn:E; auto. exfalso.
  apply not_false_iff_true in Hcl. apply Hcl.
  apply clear_false_iff; auto.
  { apply Forall_app; auto. }
  exists r, q. apply Forall_app in Hx as [Hr1 Hr2]. repeat split; auto.
  apply (Hl r q); auto.
Qed.

Lemma from_incl x l y : In y (from x l) -> In y l.
Proof.
  induction l as [|z l IH]; cbn; auto. destruct (str_eqb z x); auto.
Qed.

Lemma from_head x l : In x l -> exists t, from x l = x :: t.
Proof.
  induction l as [|z l IH]; [intros []|]. cbn. destruct (str_eqb z x) eqn:E.
  - apply str_eqb_eq in E. subst. eauto.
  - apply str_eqb_neq in E. intros [->|H]; [congruence|auto].
Qed.

Lemma from_nodup x l : NoDup l -> NoDup (from x l).
Proof.
  induction 1 as [|y l Hy Hl IH]; cbn; [constructor|]. destruct (str_eqb y x); auto.
  now constructor.
Qed.

Section Consequences.
Variables (same same_name : pystr -> pystr -> bool).
Variables (fuel depth : nat) (L : layer) (d : dict cnode) (n0 : pystr) (rest rs : list pystr).
Hypotheses (Hwf : wf_nodes d) (HL : nodes L = d) (Hr : all_ready same L)
  (Hc : Forall component (n0 :: rest)) (Hl : linked d [] (n0 :: rest))
  (Hch : exec_chain d (abs_path [n0]) rs) (Hd : shallower d depth) (Hf : depth <= fuel)
  (Hlen : length d < fuel).

Notation order := (as_list (fst (get_exec_order same same_name fuel L (abs_path (n0 :: rest))))).

(** What is in the order, and what is not. *)
Lemma order_member x :
  In x order ->
  exists top r, x = abs_path (top :: r) /\ Forall component (top :: r) /\ linked d [] (top :: r) /\
    (abs_path [top] = abs_path [n0] \/ In (abs_path [top]) rs) /\
    (forall r1 r2, r1 <> [] -> r = r1 ++ r2 -> off d (abs_path (top :: r1)) = false) /\
    (abs_path [top] = abs_path [n0] /\ rest <> [] /\ r <> [] \/ off d (abs_path [top]) = false).
Proof.
  destruct (exec_order_exact same same_name fuel depth L d n0 rest rs)
    as (l0 & first & blocks & L' & E & Hfo & Ef & Hb); auto.
  rewrite E. cbn [fst as_list].
  inversion Hc as [|? ? Hn0 Hrest]; subst x0 l.
  assert (Hh : has d [n0]) by (apply (Hl [n0] rest); auto; discriminate).
  assert (Hone : forall nm, component nm -> has d [nm] -> linked d [] [nm]).
  { intros nm Hnm Hh1 r1 r2 Er Hn. destruct r1 as [|a [|b r1]]; [congruence| |discriminate].
    cbn in Er. injection Er as <- _. exact Hh1. }
  (* members of one root's listing *)
  assert (Hlist : forall nm l x, component nm -> has d [nm] ->
     forest (och d false) (och d false (abs_path [nm])) l ->
     In x l -> clear d (abs_path [nm]) x = true ->
     exists r, r <> [] /\ x = abs_path (nm :: r) /\ Forall component (nm :: r) /\ linked d [] (nm :: r) /\
       (forall r1 r2, r1 <> [] -> r = r1 ++ r2 -> off d (abs_path (nm :: r1)) = false)).
  { intros nm l y Hnm Hh1 Hfl Hy Hcl.
    apply (forest_listing d [nm] l) in Hy; auto; [|discriminate].
    destruct Hy as (r & Hrn & Hrc & -> & Hlk). exists r. split; [exact Hrn|]. split; [reflexivity|].
    split; [constructor; auto|]. split.
    - intros r1 r2 Er Hn. destruct r1 as [|a r1]; [congruence|]. cbn in Er.
      injection Er as <- Er. destruct r1 as [|b r1]; [exact Hh1|].
      apply (Hlk (b :: r1) r2); auto. discriminate.
    - intros r1 r2 Hn Er. eapply (clear_not_off d [nm] r); eauto. discriminate. }
  intros Hx. apply in_app_iff in Hx as [Hx|Hx].
  - destruct rest as [|m rest'].
    + destruct (off d (abs_path [n0])) eqn:Eo; rewrite Ef in Hx; [destruct Hx|].
      destruct Hx as [<-|Hx].
      * exists n0, []. repeat split; auto. intros r1 r2 Hn Er. destruct r1; [congruence|discriminate].
      * apply filter_In in Hx as [Hx Hcl].
        destruct (Hlist n0 l0 x) as (r & Hrne & -> & H1 & H2 & H3); auto. exists n0, r.
        repeat split; auto.
    + rewrite Ef in Hx. apply filter_In in Hx as [Hx Hcl]. apply from_incl in Hx.
      destruct (Hlist n0 l0 x) as (r & Hrne & -> & H1 & H2 & H3); auto. exists n0, r.
      repeat split; auto. left. split; [reflexivity|split; [discriminate|exact Hrne]].
  - apply in_concat in Hx as (b & Hbi & Hx).
    assert (G : exists r0, In r0 rs /\ block d (och d false) r0 b).
    { clear -Hb Hbi. induction Hb as [|r0 b0 rs bs H1 H2 IH]; [destruct Hbi|].
      destruct Hbi as [<-|Hbi]; [exists r0; split; [now left|auto]|].
      destruct (IH Hbi) as (r1 & H3 & H4). exists r1. split; [now right|auto]. }
    destruct G as (r0 & Hr0 & Hbl).
    destruct (chain_roots d _ rs r0 Hwf Hch Hr0) as (nm & Hnm & -> & Hh1).
    unfold block in Hbl. destruct (off d (abs_path [nm])) eqn:Eo; [subst b; destruct Hx|].
    destruct Hbl as (l & Hfl & ->). destruct Hx as [<-|Hx].
    + exists nm, []. repeat split; auto. intros r1 r2 Hn Er. destruct r1; [congruence|discriminate].
    + apply filter_In in Hx as [Hx Hcl].
      destruct (Hlist nm l x) as (r & Hrne & -> & H1 & H2 & H3); auto. exists nm, r.
      repeat split; auto.
Qed.

(** An enabled start comes first. *)
Lemma order_starts :
  (forall r1 r2, r1 <> [] -> rest = r1 ++ r2 -> off d (abs_path (n0 :: r1)) = false) ->
  (rest = [] -> off d (abs_path [n0]) = false) ->
  exists t, order = abs_path (n0 :: rest) :: t.
Proof.
  intros Hon Hon0.
  destruct (exec_order_exact same same_name fuel depth L d n0 rest rs)
    as (l0 & first & blocks & L' & E & Hfo & Ef & Hb); auto.
  rewrite E. cbn [fst as_list]. rewrite Ef.
  inversion Hc as [|? ? Hn0 Hrest]; subst x l.
  destruct rest as [|m rest'] eqn:Er.
  - rewrite Hon0 by auto. cbn. eauto.
  - assert (Hin : In (abs_path (n0 :: m :: rest')) l0).
    { apply (forest_listing d [n0] l0); auto; [discriminate|].
      exists (m :: rest'). repeat split; auto; [discriminate|].
      intros r1 r2 E1 Hn. apply (Hl (n0 :: r1) r2); [now rewrite E1|discriminate]. }
    destruct (from_head _ _ Hin) as (t & ->). cbn [filter].
    replace (clear d (abs_path [n0]) (abs_path (n0 :: m :: rest'))) with true.
    + cbn. eauto.
    + symmetry. apply not_false_iff_true. intros Hcf.
      apply clear_false_iff in Hcf; auto; [|discriminate].
      destruct Hcf as (r & q & Hrn & Hrc & E1 & Hh2 & Ho). cbn [app] in E1, Ho. injection E1 as E1.
      rewrite (Hon r q) in Ho; auto. discriminate.
Qed.

(** No node runs twice. *)
Lemma order_nodup :
  (forall ms, Forall component ms -> NoDup (stored_order d (abs_path ms))) -> NoDup order.
Proof.
  intros Ho.
  destruct (exec_order_exact same same_name fuel depth L d n0 rest rs)
    as (l0 & first & blocks & L' & E & Hfo & Ef & Hb); auto.
  rewrite E. cbn [fst as_list].
  inversion Hc as [|? ? Hn0 Hrest]; subst x l.
  assert (Hh : has d [n0]) by (apply (Hl [n0] rest); auto; discriminate).
  pose proof (chain_nodup d _ rs (proj1 Hwf) Hch) as Hnd.
  (* the listing of one root, with the root *)
  assert (Hlist : forall nm l, component nm ->
     forest (och d false) (och d false (abs_path [nm])) l ->
     NoDup l /\ forall x, In x (abs_path [nm] :: l) -> exists r, Forall component r /\ x = abs_path (nm :: r)
       /\ (In x l -> r <> [])).
  { intros nm l Hnm Hfl. split.
    - apply (forest_nodup d false Hwf (och d false (abs_path [nm])) l [nm]); auto.
      + discriminate.
      + apply och_nodup; auto. left. discriminate.
      + apply forall_kids; auto. discriminate.
    - intros x [<-|Hx].
      + exists []. split; [constructor|]. split; [reflexivity|]. intros Hx.
        apply (forest_listing d [nm] l) in Hx; auto; [|discriminate].
        destruct Hx as (r & Hrn & Hrc & E1 & _). exfalso. apply Hrn.
        apply abs_path_inj in E1; [|auto|constructor; auto]. now injection E1.
      + apply (forest_listing d [nm] l) in Hx; auto; [|discriminate].
        destruct Hx as (r & Hrn & Hrc & -> & _). exists r. auto. }
  assert (Hcons : forall nm l, component nm ->
     forest (och d false) (och d false (abs_path [nm])) l -> NoDup (abs_path [nm] :: l)).
  { intros nm l Hnm Hfl. destruct (Hlist nm l Hnm Hfl) as [H1 H2]. constructor; auto.
    intros Hi. destruct (H2 (abs_path [nm]) (or_introl eq_refl)) as (r & Hrc & E1 & H3).
    apply H3; auto. apply abs_path_inj in E1; [|auto|constructor; auto]. now injection E1. }
  assert (Hroot : forall nm r, component nm -> Forall component r -> get_root_path (abs_path (nm :: r)) = abs_path [nm]).
  { intros. apply get_root_path_abs. constructor; auto. }
  (* everything in a block has the block's root *)
  assert (Hblocks : forall rs bs, Forall2 (block d (och d false)) rs bs -> NoDup rs ->
     (forall r, In r rs -> exists nm, component nm /\ r = abs_path [nm]) ->
     NoDup (concat bs) /\ forall x, In x (concat bs) -> In (get_root_path x) rs).
  { clear -Hwf Hcons Hlist Hroot. intros rs bs Hb. induction Hb as [|r b rs bs H1 H2 IH]; intros Hnd Hrs.
    - split; [constructor|intros x []].
    - inversion Hnd as [|? ? N1 N2]; subst.
      destruct IH as [IH1 IH2]; auto. { intros. apply Hrs. now right. }
      destruct (Hrs r (or_introl eq_refl)) as (nm & Hnm & ->).
      assert (G : NoDup b /\ forall x, In x b -> get_root_path x = abs_path [nm]).
      { unfold block in H1. destruct (off d (abs_path [nm])); [subst; split; [constructor|intros x []]|].
        destruct H1 as (l & Hfl & ->). pose proof (Hcons nm l Hnm Hfl) as Hn.
        inversion Hn as [|? ? M1 M2]; subst. split.
        - constructor; [|now apply NoDup_filter]. intros Hi. apply filter_In in Hi. tauto.
        - intros x Hx. destruct (Hlist nm l Hnm Hfl) as [_ H3].
          destruct (H3 x) as (r & Hrc & -> & _); [|now apply Hroot].
          destruct Hx as [Hx|Hx]; [now left|]. apply filter_In in Hx as [Hx _]. now right. }
      destruct G as [G1 G2]. cbn [concat]. split.
      + apply NoDup_app_intro; auto. intros x Hx Hx2. apply IH2 in Hx2. rewrite G2 in Hx2; auto.
      + intros x Hx. apply in_app_iff in Hx as [Hx|Hx]; [left; symmetry; auto|right; auto]. }
  apply NoDup_cons_iff in Hnd as [N1 N2].
  destruct (Hblocks rs blocks Hb N2) as [B1 B2].
  { intros r Hi. destruct (chain_roots _ _ rs r Hwf Hch Hi) as (nm & Hnm & -> & _). eauto. }
  assert (Hfirst : NoDup first /\ forall x, In x first -> get_root_path x = abs_path [n0]).
  { pose proof (Hcons n0 l0 Hn0 Hfo) as Hn. apply NoDup_cons_iff in Hn as [M1 M2]. rewrite Ef.
    destruct (Hlist n0 l0 Hn0 Hfo) as [_ H3].
    assert (G : forall x, In x (abs_path [n0] :: l0) -> get_root_path x = abs_path [n0]).
    { intros x Hx. destruct (H3 x Hx) as (r & Hrc & -> & _). now apply Hroot. }
    destruct rest as [|m rest'].
    - destruct (off _ _).
      + split; [constructor|intros x []].
      + split.
        * constructor; [|now apply NoDup_filter]. intros Hi. apply filter_In in Hi. tauto.
        * intros x [Hx|Hx]; apply G; [now left|]. apply filter_In in Hx as [Hx _]. now right.
    - split.
      + apply NoDup_filter. now apply from_nodup.
      + intros x Hx. apply filter_In in Hx as [Hx _]. apply from_incl in Hx. apply G. now right. }
  destruct Hfirst as [F1 F2]. apply NoDup_app_intro; auto.
  intros x Hx Hx2. apply B2 in Hx2. rewrite F2 in Hx2; auto.
Qed.

End Consequences.
