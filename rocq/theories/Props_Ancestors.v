(** C78: the ancestors a layer gives for a node. *)

From Coq Require Import String List NArith ZArith Bool Arith Lia.
From Verif Require Import PyStr PyStrFacts NxtPath PathSpec PathProofs Dict DictFacts ListMerger Layer LayerSpec DescProofs Ancestors AncestorsSpec.
Import ListNotations.

Lemma proper_snoc ps nm : ps <> [] -> proper_ancestors (ps ++ [nm]) = ps :: proper_ancestors ps.
Proof.
  intros N. unfold proper_ancestors. rewrite app_length. cbn [length]. replace (length ps + 1 - 1) with (length ps) by lia. destruct ps as [|x ps] using rev_ind; [contradiction|]. clear IHps. rewrite app_length. cbn [length].
  replace (length ps + 1) with (S (length ps)) by lia. rewrite seq_S, rev_app_distr. cbn [rev app map]. f_equal.
  - replace (1 + length ps) with (length (ps ++ [x])) by (rewrite app_length; cbn [length]; lia). rewrite firstn_app, Nat.sub_diag, firstn_all, firstn_O. apply app_nil_r.
  - replace (S (length ps) - 1) with (length ps) by lia. apply map_ext_in. intros k Hk. apply in_rev in Hk. apply in_seq in Hk. rewrite firstn_app. replace (k - length (ps ++ [x])) with 0 by (rewrite app_length; cbn [length]; lia). rewrite firstn_O. apply app_nil_r.
Qed.
Lemma above_snoc d ps nm : above d (ps ++ [nm]) = match ps with [] => [] | _ => if present d ps then ps :: above d ps else above d ps end.
Proof. destruct ps as [|x ps]; [reflexivity|]. unfold above. rewrite proper_snoc by discriminate. reflexivity. Qed.

Section Climb.
Variable d : dict cnode.
Hypothesis W : wf_nodes d.
Lemma at_path ns n : Forall component ns -> ns <> [] -> dget (abs_path ns) d = Some n -> n_parent n = abs_path (removelast ns) /\ n_name n = leaf_name ns.
Proof.
  intros Hc N E. apply dget_In in E. destruct (proj2 W _ _ E) as [(Q & _)|(ps & nm & Hp & Q & -> & ->)].
  - apply (abs_path_inj ns []) in Q; [contradiction|exact Hc|constructor].
  - apply (abs_path_inj ns (ps ++ [nm])) in Q; [|exact Hc|exact Hp]. subst ns. rewrite removelast_last. unfold leaf_name. now rewrite last_last.
Qed.
Lemma not_world ns : Forall component ns -> ns <> [] -> str_eqb (abs_path ns) WORLD = false.
Proof. intros Hc N. apply str_eqb_neq. intros Q. apply (abs_path_inj ns []) in Q; [contradiction|exact Hc|constructor]. Qed.
Lemma climb_from : forall ps nm fuel name, Forall component (ps ++ [nm]) -> length ps < fuel ->
  climb fuel d name (abs_path ps) = Some (combine (name :: map leaf_name (above d (ps ++ [nm]))) (map abs_path (above d (ps ++ [nm])))).
Proof.
  induction ps as [|x ps IH] using rev_ind; intros nm fuel name Hc Hf; (destruct fuel as [|f]; [lia|]); cbn [climb]; [reflexivity|].
  apply Forall_app in Hc as (Hc & _). rewrite not_world by (auto; now destruct ps). rewrite above_snoc. rewrite app_length in Hf. cbn [length] in Hf.
  assert (E : match ps ++ [x] with [] => [] | _ :: _ => if present d (ps ++ [x]) then (ps ++ [x]) :: above d (ps ++ [x]) else above d (ps ++ [x]) end = if present d (ps ++ [x]) then (ps ++ [x]) :: above d (ps ++ [x]) else above d (ps ++ [x])) by (now destruct ps). rewrite E. unfold present, dmem.
  destruct (dget (abs_path (ps ++ [x])) d) as [n|] eqn:En.
  - destruct (at_path _ _ Hc ltac:(now destruct ps) En) as (-> & ->). rewrite removelast_last, (IH x f) by (auto; lia). reflexivity.
  - rewrite get_parent_path_abs by exact Hc. apply IH; [exact Hc|lia].
Qed.
Lemma climb_any_from : forall ps nm fuel, Forall component (ps ++ [nm]) -> length ps < fuel ->
  climb_any fuel d (abs_path ps) = Some (match above d (ps ++ [nm]) with [] => false | _ => true end).
Proof.
  induction ps as [|x ps IH] using rev_ind; intros nm fuel Hc Hf; (destruct fuel as [|f]; [lia|]); cbn [climb_any]; [reflexivity|].
  apply Forall_app in Hc as (Hc & _). rewrite not_world by (auto; now destruct ps). rewrite above_snoc. rewrite app_length in Hf. cbn [length] in Hf.
  assert (E : match ps ++ [x] with [] => [] | _ :: _ => if present d (ps ++ [x]) then (ps ++ [x]) :: above d (ps ++ [x]) else above d (ps ++ [x]) end = if present d (ps ++ [x]) then (ps ++ [x]) :: above d (ps ++ [x]) else above d (ps ++ [x])) by (now destruct ps). rewrite E. unfold present, dmem.
  destruct (dget (abs_path (ps ++ [x])) d) as [n|] eqn:En; [reflexivity|]. rewrite get_parent_path_abs by exact Hc. apply IH; [exact Hc|lia].
Qed.
Lemma empty_path : dget [] d = None.
Proof.
  destruct (dget [] d) as [n|] eqn:E; [|reflexivity]. apply dget_In in E. destruct (proj2 W _ _ E) as [(Q & _)|(ps & nm & _ & Q & _)]; [discriminate|]. destruct ps; discriminate.
Qed.
Lemma from_node ns n fuel : Forall component ns -> dget (abs_path ns) d = Some n -> S (length ns) < fuel ->
  climb fuel d (n_name n) (n_parent n) = Some (map (fun s => (leaf_name (fst s), abs_path (snd s))) (steps d ns)) /\
  climb_any fuel d (n_parent n) = Some (match above d ns with [] => false | _ => true end).
Proof.
  intros Hc E Hf. destruct ns as [|x ns _] using rev_ind.
  - apply dget_In in E. destruct (proj2 W _ _ E) as [(_ & ->)|(ps & nm & Hp & Q & _)]; [|apply (abs_path_inj [] (ps ++ [nm])) in Q; [now destruct ps|constructor|exact Hp]].
    destruct fuel as [|[|f]]; cbn [length] in Hf; try lia. cbn [climb climb_any]. change (str_eqb [] WORLD) with false. rewrite empty_path. change (get_parent_path []) with WORLD. rewrite str_eqb_refl. now split.
  - rewrite app_length in Hf. cbn [length] in Hf. destruct (at_path _ _ Hc ltac:(now destruct ns) E) as (-> & ->). rewrite removelast_last. rewrite (climb_from ns x) by (auto; lia). rewrite (climb_any_from ns x) by (auto; lia). split; [|reflexivity]. f_equal. unfold steps.
    assert (G : forall l m, combine (map leaf_name l) (map abs_path m) = map (fun s => (leaf_name (fst s), abs_path (snd s))) (combine l m)) by (induction l as [|a l IH]; intros [|b m]; try reflexivity; cbn [map combine fst snd]; now rewrite IH).
    exact (G ((ns ++ [x]) :: above d (ns ++ [x])) _).
Qed.
End Climb.

(** The ancestors of a node that the layer has are those nodes above it that the
    layer has, nearest first and without the world, whichever of them are
    missing in between.  The answer is a list of nodes, of paths or of pairs of
    both, or whether there are any. *)
Theorem C78_ancestors :
  forall L ns rt fuel, wf_nodes (nodes L) -> Forall component ns -> has (nodes L) ns -> S (length ns) < fuel ->
  In rt [RNode; RPath; RTable] ->
  ancestors fuel L (abs_path ns) rt false = AList (map abs_path (above (nodes L) ns)) /\
  ancestors fuel L (abs_path ns) RBool false = ABool (match above (nodes L) ns with [] => false | _ => true end).
Proof.
  intros L ns rt fuel W Hc Hh Hf Hr. unfold ancestors. apply dmem_In in Hh. unfold dmem in Hh. destruct (dget (abs_path ns) (nodes L)) as [n|] eqn:E; [|discriminate].
  destruct (from_node _ W ns n fuel Hc E Hf) as (E1 & E2). rewrite E1, E2. split; [|reflexivity].
  assert (Q : map snd (map (fun s => (leaf_name (fst s), abs_path (snd s))) (steps (nodes L) ns)) = map abs_path (above (nodes L) ns)).
  { rewrite map_map. cbn [snd]. unfold steps. generalize (above (nodes L) ns) as l. intros l. generalize ns as x. clear. induction l as [|a l IH]; intros x; [reflexivity|]. change (combine (x :: a :: l) (a :: l)) with ((x, a) :: combine (a :: l) l). cbn [map snd]. now rewrite IH. }
  rewrite Q. destruct Hr as [<-|[<-|[<-|[]]]]; reflexivity.
Qed.
Print Assumptions C78_ancestors.

(** What is above a node. *)
Theorem C78_above :
  forall d ns, (forall a, In a (above d ns) <-> a <> [] /\ has d a /\ exists r, r <> [] /\ ns = a ++ r) /\
  forall i j a b, nth_error (above d ns) i = Some a -> nth_error (above d ns) j = Some b -> i < j -> exists r, r <> [] /\ a = b ++ r.
Proof.
  intros d ns. split.
  - intros a. unfold above. rewrite filter_In, proper_ancestors_in. unfold present. rewrite dmem_In. unfold has. tauto.
  - induction ns as [|x ns IH] using rev_ind; intros i j a b Hi Hj L; [now destruct i|]. rewrite above_snoc in Hi, Hj. destruct ns as [|y ns]; [now destruct i|]. destruct (present d (y :: ns)); [|now apply (IH i j)].
    destruct j as [|j]; [lia|]. cbn [nth_error] in Hj. destruct i as [|i]; [|apply (IH i j); auto; lia]. injection Hi as <-. apply nth_error_In in Hj. unfold above in Hj. apply filter_In in Hj as (Hj & _). apply proper_ancestors_in in Hj as (_ & Hj). exact Hj.
Qed.
Print Assumptions C78_above.

(** With implied nodes, every place above is an ancestor; only paths can be
    asked for.  A node that the layer does not have has no ancestors to give. *)
Theorem C78_implied :
  forall L ns fuel rt, Forall component ns -> ns <> [] ->
  ancestors fuel L (abs_path ns) RPath true = AList (map abs_path (proper_ancestors ns)) /\
  (rt <> RPath -> ancestors fuel L (abs_path ns) rt true = AErr TypeError) /\
  (~ has (nodes L) ns -> ancestors fuel L (abs_path ns) rt false = AErr AttributeError).
Proof.
  intros L ns fuel rt Hc N. unfold ancestors. split; [cbn [rtype_eqb]; now rewrite all_ancestor_paths_abs'|]. split; [intros Hr; destruct rt; try contradiction; reflexivity|].
  intros Hn. destruct (dget (abs_path ns) (nodes L)) eqn:E; [|reflexivity]. exfalso. apply Hn. unfold has. apply dmem_In. unfold dmem. now rewrite E.
Qed.
Print Assumptions C78_implied.

(** The dictionary has each ancestor under the name of the node below it in
    the chain. *)
Theorem C78_dict :
  forall L ns fuel, wf_nodes (nodes L) -> Forall component ns -> has (nodes L) ns -> S (length ns) < fuel ->
  exists D, ancestors fuel L (abs_path ns) RDict false = ADict D /\
    (forall k, In k (dkeys D) <-> exists s, In s (steps (nodes L) ns) /\ k = leaf_name (fst s)) /\
    (NoDup (map (fun s => leaf_name (fst s)) (steps (nodes L) ns)) ->
       forall s, In s (steps (nodes L) ns) -> dget (leaf_name (fst s)) D = Some (abs_path (snd s))).
Proof.
  intros L ns fuel W Hc Hh Hf. unfold ancestors. apply dmem_In in Hh. unfold dmem in Hh. destruct (dget (abs_path ns) (nodes L)) as [n|] eqn:E; [|discriminate].
  destruct (from_node _ W ns n fuel Hc E Hf) as (E1 & _). rewrite E1. eexists. split; [reflexivity|]. generalize (steps (nodes L) ns) as l. clear. intros l. split.
  - intros k. assert (G : forall l (a : dict pystr), In k (dkeys (fold_left (fun d kn => dset (fst kn) (snd kn) d) (map (fun s => (leaf_name (fst s), abs_path (snd s))) l) a)) <-> In k (dkeys a) \/ exists s, In s l /\ k = leaf_name (fst s)).
    { clear. induction l as [|s l IH]; intros a; cbn [map fold_left fst snd]; [split; [now left|intros [Q|(s & [] & _)]; exact Q]|]. rewrite IH, <- !dmem_In. unfold dmem. rewrite dget_dset. destruct (str_eqb (leaf_name (fst s)) k) eqn:Q.
      - apply str_eqb_eq in Q as <-. split; [intros _; right; exists s; split; [now left|reflexivity]|now left].
      - apply str_eqb_neq in Q. split; [intros [A|(t & Ht & ->)]; [now left|right; exists t; split; [now right|reflexivity]]|intros [A|(t & [<-|Ht] & ->)]; [now left|congruence|right; now exists t]]. }
    rewrite G. split; [intros [[]|Q]; exact Q|now right].
  - intros Nd s Hs. assert (G : forall l (a : dict pystr), NoDup (map (fun s => leaf_name (fst s)) l) -> forall k v, (exists s, In s l /\ k = leaf_name (fst s) /\ v = abs_path (snd s)) \/ (forall s, In s l -> k <> leaf_name (fst s)) /\ dget k a = Some v ->
      dget k (fold_left (fun d kn => dset (fst kn) (snd kn) d) (map (fun s => (leaf_name (fst s), abs_path (snd s))) l) a) = Some v).
    { clear. induction l as [|s l IH]; intros a Nd k v Q; cbn [map fold_left fst snd]; [destruct Q as [(s & [] & _)|(_ & Q)]; exact Q|]. cbn [map] in Nd. inversion Nd as [|? ? N1 N2]; subst. apply IH; [exact N2|].
      destruct Q as [(t & [<-|Ht] & -> & ->)|(Qn & Q)].
      - right. split; [intros t Ht Q; apply N1; rewrite Q; apply in_map_iff; now exists t|]. rewrite dget_dset. now rewrite str_eqb_refl.
      - left. now exists t.
      - right. split; [intros t Ht; apply Qn; now right|]. rewrite dget_dset. assert (F : str_eqb (leaf_name (fst s)) k = false) by (apply str_eqb_neq; intros Z; apply (Qn s); [now left|now symmetry]). now rewrite F. }
    apply (G l [] Nd). left. now exists s.
Qed.
Print Assumptions C78_dict.

(** The execution point is asked of roots only. *)
Theorem C78_exec_in :
  forall L ns n, wf_nodes (nodes L) -> Forall component ns -> dget (abs_path ns) (nodes L) = Some n ->
  get_exec_in L (abs_path ns) = Some (if Nat.eqb (length ns) 1 then n_exec_in n else None).
Proof.
  intros L ns n W Hc E. unfold get_exec_in. rewrite E. destruct ns as [|x ns _] using rev_ind.
  - apply dget_In in E. destruct (proj2 W _ _ E) as [(_ & ->)|(ps & nm & Hp & Q & _)]; [reflexivity|apply (abs_path_inj [] (ps ++ [nm])) in Q; [now destruct ps|constructor|exact Hp]].
  - destruct (at_path _ W _ _ Hc ltac:(now destruct ns) E) as (-> & _). rewrite removelast_last, app_length. apply Forall_app in Hc as (Hc & _). destruct ns as [|y ns]; [reflexivity|]. rewrite not_world by (auto; discriminate). cbn [length]. now rewrite Nat.add_1_r.
Qed.
Print Assumptions C78_exec_in.

(** ** Samples *)
Definition plain_node (parent name : string) : cnode := {| n_name := lit name; n_parent := lit parent; n_order := []; n_enabled := None; n_exec_in := Some (lit "/a") |}.
Definition sample : layer := {| nodes := [(lit "/", {| n_name := lit "/"; n_parent := []; n_order := []; n_enabled := None; n_exec_in := None |}); (lit "/a", plain_node "/" "a"); (lit "/a/b", plain_node "/a" "b"); (lit "/a/b/c/d", plain_node "/a/b/c" "d")]; kids := []; implied := [] |}.
Definition abcd : list pystr := [lit "a"; lit "b"; lit "c"; lit "d"].
Lemma sample_wf : wf_nodes (nodes sample).
Proof.
  split; [repeat constructor; vm_compute; intuition discriminate|]. intros k n Hk. repeat destruct Hk as [Hk|Hk]; try contradiction; injection Hk as <- <-; [now left|right..].
  - exists [], (lit "a"). repeat split; try reflexivity. repeat constructor; vm_compute; intuition discriminate.
  - exists [lit "a"], (lit "b"). repeat split; try reflexivity. repeat constructor; vm_compute; intuition discriminate.
  - exists [lit "a"; lit "b"; lit "c"], (lit "d"). repeat split; try reflexivity. repeat constructor; vm_compute; intuition discriminate.
Qed.
(** /a/b/c/d has no parent in the layer; its ancestors are /a/b and /a. *)
Example C78_sample : wf_nodes (nodes sample) /\ Forall component abcd /\ has (nodes sample) abcd /\
  ancestors 9 sample (lit "/a/b/c/d") RPath false = AList [lit "/a/b"; lit "/a"] /\
  ancestors 9 sample (lit "/a/b/c/d") RPath true = AList [lit "/a/b/c"; lit "/a/b"; lit "/a"] /\
  ancestors 9 sample (lit "/a") RBool false = ABool false /\ get_exec_in sample (lit "/a/b") = Some None /\ get_exec_in sample (lit "/a") = Some (Some (lit "/a")).
Proof. split; [exact sample_wf|]. split; [repeat constructor; vm_compute; intuition discriminate|]. split; [vm_compute; auto 6|]. repeat split; vm_compute; reflexivity. Qed.

(** The dictionary does not have the ancestors under their names. *)
Theorem C78_names_refuted :
  exists L ns D a, wf_nodes (nodes L) /\ Forall component ns /\ has (nodes L) ns /\ ancestors 9 L (abs_path ns) RDict false = ADict D /\
  In a (above (nodes L) ns) /\ dget (leaf_name a) D <> Some (abs_path a).
Proof.
  exists sample, abcd, [(lit "d", lit "/a/b"); (lit "b", lit "/a")], [lit "a"; lit "b"]. split; [exact sample_wf|]. split; [repeat constructor; vm_compute; intuition discriminate|]. split; [vm_compute; auto 6|].
  split; [vm_compute; reflexivity|]. split; [vm_compute; auto|vm_compute; discriminate].
Qed.
Print Assumptions C78_names_refuted.
(** The top node is the nearest ancestor, not the furthest. *)
Theorem C78_top :
  forall L ns fuel, wf_nodes (nodes L) -> Forall component ns -> has (nodes L) ns -> S (length ns) < fuel ->
  get_top_node fuel L (abs_path ns) = Some (hd_error (map abs_path (above (nodes L) ns))).
Proof. intros L ns fuel W Hc Hh Hf. unfold get_top_node. destruct (C78_ancestors L ns RNode fuel W Hc Hh Hf) as (-> & _); [now left|reflexivity]. Qed.
Print Assumptions C78_top.
Theorem C78_top_refuted :
  exists L ns a b, wf_nodes (nodes L) /\ Forall component ns /\ In a (above (nodes L) ns) /\ (exists r, r <> [] /\ b = a ++ r) /\
  get_top_node 9 L (abs_path ns) = Some (Some (abs_path b)).
Proof.
  exists sample, abcd, [lit "a"], [lit "a"; lit "b"]. split; [exact sample_wf|]. split; [repeat constructor; vm_compute; intuition discriminate|]. split; [vm_compute; auto|]. split; [exists [lit "b"]; split; [discriminate|reflexivity]|vm_compute; reflexivity].
Qed.
Print Assumptions C78_top_refuted.
