(** Stage.parent_nodes on one node: leaving the old parent's child order,
    joining the new one's and moving the sub-tree. *)

From Coq Require Import String List NArith Bool Arith Lia Permutation.
From Verif Require Import PyStr PyStrFacts NxtPath PathSpec PathProofs Dict DictFacts ListMerger
  MergeProofs Layer LayerSpec LayerProofs DescProofs ChildCacheProofs HierarchyProofs SortRows SortProofs PyVal
  Names NamesSpec NamesProofs SpecOps SpecOpsSpec SpecBase SpecMove.
Import ListNotations.

(** *** Child orders *)

Lemma try_remove_without x : forall l, try_remove x l = without x l.
Proof.
  induction l as [|y l IH]; [reflexivity|]. unfold try_remove in *. cbn [py_remove without].
  destruct (str_eqb y x); [reflexivity|]. destruct (py_remove x l); now rewrite <- IH.
Qed.

Lemma without_not_in x l : ~ In x l -> without x l = l.
Proof.
  induction l as [|y l IH]; intros H; [reflexivity|]. cbn [without In] in *.
  destruct (str_eqb y x) eqn:E; [apply str_eqb_eq in E; tauto|]. rewrite IH; tauto.
Qed.

(** Orders change by a function of the node. *)
Definition reorders (g : nat -> list pystr -> list pystr) (L L' : slayer) : Prop :=
  reordered L L' /\
  forall k, obj L' k = option_map (fun n => set_order (g k (s_order n)) n) (obj L k).

Lemma reorders_refl L : reorders (fun _ l => l) L L.
Proof.
  split; [apply reordered_refl|]. intros k. destruct (obj L k) as [n|]; [|reflexivity].
  cbn [option_map]. now rewrite set_order_same.
Qed.

Lemma reorders_trans g h A B C : reorders g A B -> reorders h B C ->
  reorders (fun k l => h k (g k l)) A C.
Proof.
  intros [R1 H1] [R2 H2]. split; [now apply (reordered_trans A B C)|].
  intros k. rewrite H2, H1. destruct (obj A k); reflexivity.
Qed.

Lemma forget_reorders L i c :
  reorders (fun k l => if Nat.eqb i k then without c l else l) L (forget L i c).
Proof.
  unfold forget. destruct (obj L i) as [n|] eqn:E.
  2:{ split; [apply reordered_refl|]. intros k. destruct (Nat.eqb i k) eqn:Ek.
      - apply Nat.eqb_eq in Ek. subst k. now rewrite E.
      - destruct (obj L k); [|reflexivity]. cbn [option_map]. now rewrite set_order_same. }
  destruct (str_in c (s_order n)) eqn:S.
  - split; [apply reordered_on; intros m; now eexists|]. intros k. rewrite obj_on_node.
    destruct (Nat.eqb i k) eqn:Ek.
    + apply Nat.eqb_eq in Ek. subst k. rewrite E. cbn [option_map]. now rewrite try_remove_without.
    + destruct (obj L k); [|reflexivity]. cbn [option_map]. now rewrite set_order_same.
  - split; [apply reordered_refl|]. intros k. destruct (Nat.eqb i k) eqn:Ek.
    + apply Nat.eqb_eq in Ek. subst k. rewrite E. cbn [option_map].
      rewrite without_not_in by (apply str_in_not; exact S). now rewrite set_order_same.
    + destruct (obj L k); [|reflexivity]. cbn [option_map]. now rewrite set_order_same.
Qed.

Lemma join_order_reorders L par nm :
  reorders (fun k l => match lookup L par with
                       | Some j => if Nat.eqb j k then adding nm l else l
                       | None => l
                       end) L (join_order L par nm).
Proof.
  unfold join_order. destruct (lookup L par) as [j|]; [|apply reorders_refl].
  destruct (obj L j) as [n|] eqn:E.
  2:{ split; [apply reordered_refl|]. intros k. destruct (Nat.eqb j k) eqn:Ek.
      - apply Nat.eqb_eq in Ek. subst k. now rewrite E.
      - destruct (obj L k); [|reflexivity]. cbn [option_map]. now rewrite set_order_same. }
  destruct (str_in nm (s_order n)) eqn:S.
  - split; [apply reordered_refl|]. intros k. destruct (Nat.eqb j k) eqn:Ek.
    + apply Nat.eqb_eq in Ek. subst k. rewrite E. cbn [option_map]. unfold adding. rewrite S.
      now rewrite set_order_same.
    + destruct (obj L k); [|reflexivity]. cbn [option_map]. now rewrite set_order_same.
  - split; [apply reordered_on; intros m; now eexists|]. intros k. rewrite obj_on_node.
    destruct (Nat.eqb j k) eqn:Ek.
    + apply Nat.eqb_eq in Ek. subst k. rewrite E. cbn [option_map]. unfold adding. now rewrite S.
    + destruct (obj L k); [|reflexivity]. cbn [option_map]. now rewrite set_order_same.
Qed.

(** *** The nearest ancestor *)

Lemma nearest_spec L fuel : forall po, Forall plain po -> length po < fuel ->
  match nearest L fuel (abs_path po) with
  | Some (ap, ai) => exists ms r, po = ms ++ r /\ ms <> [] /\ ap = abs_path ms /\ lookup L ap = Some ai /\
      forall r1 r2, r = r1 ++ r2 -> r1 <> [] -> lookup L (abs_path (ms ++ r1)) = None
  | None => forall ms r, po = ms ++ r -> ms <> [] -> lookup L (abs_path ms) = None
  end.
Proof.
  induction fuel as [|f IH]; intros po Hp Hl; [lia|]. cbn [nearest].
  destruct po as [|c po _] using rev_ind.
  { intros ms r E Hne. symmetry in E. apply app_eq_nil in E. tauto. }
  rewrite abs_path_neqb; [|now apply plain_component|now destruct po].
  destruct (lookup L (abs_path (po ++ [c]))) as [a|] eqn:E.
  - exists (po ++ [c]), []. rewrite app_nil_r. split; [reflexivity|]. split; [now destruct po|].
    split; [reflexivity|]. split; [exact E|]. intros r1 r2 Er Hr. symmetry in Er.
    apply app_eq_nil in Er. tauto.
  - rewrite get_parent_path_abs by now apply plain_component.
    assert (Hpo : Forall plain po) by exact (Forall_app_l _ _ _ Hp).
    rewrite app_length in Hl. cbn [length] in Hl.
    specialize (IH po Hpo ltac:(lia)). destruct (nearest L f (abs_path po)) as [[ap ai]|].
    + destruct IH as (ms & r & -> & Hne & -> & El & Hr). exists ms, (r ++ [c]).
      rewrite app_assoc. split; [reflexivity|]. split; [exact Hne|]. split; [reflexivity|].
      split; [exact El|]. intros r1 r2 Er Hr1. destruct r2 as [|y r2 _] using rev_ind.
      * rewrite app_nil_r in Er. subst r1. rewrite app_assoc. exact E.
      * rewrite app_assoc in Er. apply app_inj_tail in Er as [Er _]. exact (Hr r1 r2 Er Hr1).
    + intros ms r Er Hne. destruct r as [|y r _] using rev_ind.
      * rewrite app_nil_r in Er. subst ms. exact E.
      * rewrite app_assoc in Er. apply app_inj_tail in Er as [Er _]. exact (IH ms r Er Hne).
Qed.

Lemma app_app_cases {A} : forall (a b c d : list A), a ++ b = c ++ d ->
  (exists e, c = a ++ e /\ b = e ++ d) \/ (exists e, e <> [] /\ a = c ++ e /\ d = e ++ b).
Proof.
  induction a as [|x a IH]; intros b c d E.
  - left. exists c. auto.
  - destruct c as [|y c].
    + right. exists (x :: a). split; [discriminate|]. cbn [app] in *. auto.
    + injection E as -> E. destruct (IH b c d E) as [(e & -> & ->)|(e & He & -> & ->)].
      * left. exists e. auto.
      * right. exists e. auto.
Qed.

Lemma nearest_above_det L o a c a' c' :
  nearest_above L o a c -> nearest_above L o a' c' -> a = a' /\ c = c'.
Proof.
  intros (ms & r & E & Hne & El & Hr) (ms' & r' & E' & Hne' & El' & Hr').
  rewrite E in E'.
  assert (G : forall ms r ms' r' c c' a, ms ++ c :: r = ms' ++ c' :: r' ->
    lookup L (abs_path ms) = Some a ->
    (forall r1 r2, r' = r1 ++ r2 -> r2 <> [] -> lookup L (abs_path (ms' ++ c' :: r1)) = None) ->
    forall e, e <> [] -> ms = ms' ++ e -> False).
  { clear. intros ms r ms' r' c c' a E El Hr e He ->.
    rewrite <- app_assoc in E. apply app_inv_head in E. destruct e as [|x e]; [congruence|].
    cbn [app] in E. injection E as -> E. rewrite (Hr e (c :: r)) in El; [discriminate|now symmetry|discriminate]. }
  destruct (app_app_cases _ _ _ _ E') as [(e & Em & Eb)|(e & He & Em & Eb)].
  - destruct e as [|x e].
    + rewrite app_nil_r in Em. subst ms'. cbn [app] in Eb. injection Eb as -> ->.
      split; [congruence|reflexivity].
    + exfalso. apply (G ms' r' ms r c' c a' (eq_sym E') El' Hr (x :: e)); [discriminate|exact Em].
  - exfalso. exact (G ms r ms' r' c c' a E' El Hr' e He Em).
Qed.

Lemma partition_at_start sep a : partition sep (sep ++ a) = ([], sep, a).
Proof.
  apply (partition_first sep [] a). intros b1 b2 E Hb. symmetry in E. apply app_eq_nil in E. tauto.
Qed.

Lemma leave_parent_reorders L po nm0 : Forall plain (po ++ [nm0]) ->
  exists g, reorders g L (leave_parent L (abs_path (po ++ [nm0])) (abs_path po) nm0) /\
    forall k l, leaves L (po ++ [nm0]) k l (g k l).
Proof.
  intros Hp. unfold leave_parent. assert (Hpo : Forall plain po) by exact (Forall_app_l _ _ _ Hp).
  destruct po as [|p0 po'] eqn:Epo.
  { cbn [abs_path]. unfold WORLD. cbn [str_eqb list_eqb]. exists (fun _ l => l).
    split; [apply reorders_refl|]. intros k l. split; [|reflexivity].
    intros c (ms & r & E & Hne & _). exfalso. destruct ms as [|m ms]; [congruence|].
    cbn [app] in E. injection E as _ E. destruct ms; discriminate. }
  rewrite <- Epo in *. assert (Hne : po <> []) by (subst; discriminate). clear Epo p0 po'.
  rewrite abs_path_neqb; [|now apply plain_component|exact Hne].
  assert (G : forall ms r a c, po ++ [nm0] = ms ++ c :: r -> ms <> [] -> lookup L (abs_path ms) = Some a ->
     (forall r1 r2, r = r1 ++ r2 -> r2 <> [] -> lookup L (abs_path (ms ++ c :: r1)) = None) ->
     exists g, reorders g L (forget L a c) /\ forall k l, leaves L (po ++ [nm0]) k l (g k l)).
  { intros ms r a c E Hms El Hr. eexists. split; [apply forget_reorders|]. intros k l. cbv beta.
    assert (NA : nearest_above L (po ++ [nm0]) a c) by (exists ms, r; auto).
    split.
    - intros c' H. destruct (nearest_above_det _ _ _ _ _ _ NA H) as [<- <-]. now rewrite Nat.eqb_refl.
    - intros H. destruct (Nat.eqb a k) eqn:E2; [|reflexivity]. apply Nat.eqb_eq in E2. subst k.
      exfalso. exact (H c NA). }
  destruct (lookup L (abs_path po)) as [a|] eqn:El.
  - apply (G po [] a nm0); auto. intros r1 r2 E Hr. symmetry in E. apply app_eq_nil in E. tauto.
  - pose proof (nearest_spec L (S (length (abs_path po))) po Hpo) as HN.
    assert (Hlen : length po < S (length (abs_path po))).
    { rewrite abs_path_slashed by exact Hne. clear - Hpo. induction po as [|x po IH]; [cbn; lia|].
      cbn [slashed length] in *. inversion Hpo; subst. specialize (IH H2).
      rewrite app_length. lia. }
    specialize (HN Hlen). destruct (nearest L _ (abs_path po)) as [[ap ai]|].
    + destruct HN as (ms & r & E & Hms & -> & Elm & Hr).
      destruct r as [|c r].
      { rewrite app_nil_r in E. subst ms. congruence. }
      assert (EO : abs_path (po ++ [nm0]) = (abs_path ms ++ NODE_SEP) ++ c ++ slashed (r ++ [nm0])).
      { rewrite E, <- app_assoc. cbn [app]. rewrite !abs_path_slashed; [|exact Hms|now destruct ms].
        rewrite slashed_app. cbn [slashed]. rewrite <- app_assoc. reflexivity. }
      rewrite EO, partition_at_start.
      replace (NODE_SEP ++ c ++ slashed (r ++ [nm0])) with (abs_path (c :: r ++ [nm0])) by reflexivity.
      assert (Hc : Forall plain (c :: r ++ [nm0])).
      { rewrite E in Hp. rewrite <- app_assoc in Hp. cbn [app] in Hp. exact (Forall_app_r _ _ _ Hp). }
      rewrite get_root_path_abs by now apply plain_component.
      assert (EN : node_name_from_node_path (abs_path [c]) = c).
      { apply (node_name_abs [] c). constructor; [|constructor]. inversion Hc as [|? ? [H _] _]; exact H. }
      rewrite EN.
      apply (G ms (r ++ [nm0]) ai c); auto.
      * rewrite E, <- app_assoc. reflexivity.
      * intros r1 r2 Er Hr2. destruct r2 as [|y r2 _] using rev_ind; [congruence|].
        rewrite app_assoc in Er. apply app_inj_tail in Er as [Er _].
        apply (Hr (c :: r1) r2); [cbn [app]; now rewrite Er|discriminate].
    + exists (fun _ l => l). split; [apply reorders_refl|]. intros k l. split; [|reflexivity].
      intros c (ms & r & E & Hms & Elm & _). exfalso.
      destruct r as [|y r _] using rev_ind.
      * apply app_inj_tail in E as [-> _]. congruence.
      * rewrite app_comm_cons, app_assoc in E. apply app_inj_tail in E as [E _].
        rewrite (HN ms (c :: r) E Hms) in Elm. discriminate.
Qed.

(** *** One node *)

(** The fields [parent_nodes] and friends leave alone. *)
Definition moved_objs (i : nat) (nm : pystr) (h : nat -> list pystr -> list pystr) (L L' : slayer) : Prop :=
  forall k, match obj L k with
            | None => obj L' k = None
            | Some m => exists p, obj L' k =
                Some (set_order (h k (s_order m)) (set_parent p (if Nat.eqb k i then set_name nm m else m)))
            end.

Section One.
Variables (ud uw : N -> bool) (extra : slayer -> list pystr).

Definition chosen (cn : bool) (L : slayer) (n : snode) (o par : list pystr) (nm : pystr) : Prop :=
  if cn then unique_name ud uw extra (leave_parent L (abs_path o) (s_parent n) (s_name n))
                         (Some (s_name n)) (abs_path par) = Some (Ok nm)
  else s_name n = nm.

Lemma parent_one_spec L i o n par nm cn :
  books L -> path_of L i = Some (abs_path o) -> Forall plain o -> o <> [] -> obj L i = Some n ->
  Forall plain (par ++ [nm]) -> chosen cn L n o par nm -> vacant L (par ++ [nm]) ->
  exists L' h,
    parent_one ud uw extra cn (abs_path par) L i = (L', Done (abs_path o)) /\
    books L' /\ moved o (par ++ [nm]) L L' /\ moved_objs i nm h L L' /\
    (forall k l, exists l1, leaves L o k l l1 /\ joins L par nm k l1 (h k l)) /\
    same_flags L L' /\ moved_keys (abs_path o) (abs_path (par ++ [nm])) L L'.
Proof.
  intros HB Hpo Ho Hone En Hw Hch Hv.
  assert (Hl : lookup L (abs_path o) = Some i) by now apply (b_inverse L HB).
  destruct (b_spells L HB _ _ Hl) as (n' & En' & Hs). assert (n' = n) by congruence. subst n'. clear En'.
  destruct o as [|nm0 po _] using rev_ind; [congruence|]. clear Hone.
  apply spells_snoc in Hs as [Hspar Hsnm]; [|exact Ho].
  unfold parent_one. rewrite Hpo, En, Hspar, Hsnm. cbv zeta.
  unfold chosen in Hch. rewrite Hspar, Hsnm in Hch.
  destruct (leave_parent_reorders L po nm0 Ho) as (g & Rg & Hg).
  set (L1 := leave_parent L (abs_path (po ++ [nm0])) (abs_path po) nm0) in *.
  assert (EU : (if cn then unique_name ud uw extra L1 (Some nm0) (abs_path par) else Some (Ok nm0)) = Some (Ok nm)).
  { destruct cn; [exact Hch|now rewrite Hch]. }
  rewrite EU. clear EU.
  set (L2 := if cn then on_node L1 i (set_name nm) else L1).
  rewrite (join_plain par nm Hw).
  assert (O2 : forall k, obj L2 k = option_map (fun m => set_order (g k (s_order m)) (if Nat.eqb k i then set_name nm m else m)) (obj L k)).
  { intros k. unfold L2. destruct Rg as [_ Rg]. destruct cn.
    - rewrite obj_on_node, Rg, (Nat.eqb_sym k i). destruct (obj L k) as [m|].
      + cbn [option_map]. destruct (Nat.eqb i k); reflexivity.
      + now destruct (Nat.eqb i k).
    - rewrite Rg. destruct (obj L k) as [m|] eqn:Em; [|reflexivity]. cbn [option_map].
      destruct (Nat.eqb k i) eqn:Ek; [|reflexivity]. apply Nat.eqb_eq in Ek. subst k.
      assert (m = n) by congruence. subst m. rewrite <- Hch, <- Hsnm. destruct n; reflexivity. }
  assert (F2 : spec_list L2 = spec_list L /\ by_path L2 = by_path L /\ by_node L2 = by_node L /\
     table L2 = table L /\ positions L2 = positions L /\ collapse L2 = collapse L /\ muted L2 = muted L /\
     hidden L2 = hidden L /\ top L2 = top L).
  { destruct Rg as [Rg _]. unfold L2. destruct cn; cbn; destruct Rg; repeat split; assumption. }
  destruct (join_order_reorders L2 (abs_path par) nm) as [Rj Oj].
  set (L3 := join_order L2 (abs_path par) nm) in *.
  set (LD := on_node L3 i (set_parent (abs_path par))).
  assert (EP : by_path LD = by_path L).
  { change (by_path LD) with (by_path L3). rewrite (r_paths _ _ Rj). apply F2. }
  assert (EN : by_node LD = by_node L).
  { change (by_node LD) with (by_node L3). rewrite (r_nodes _ _ Rj). apply F2. }
  assert (EL : spec_list LD = spec_list L).
  { change (spec_list LD) with (spec_list L3). rewrite (r_list _ _ Rj). apply F2. }
  set (h := fun k l => match lookup L (abs_path par) with
                       | Some j => if Nat.eqb j k then adding nm (g k l) else g k l
                       | None => g k l
                       end).
  assert (OD : forall k, obj LD k = option_map (fun m =>
      set_order (h k (s_order m)) (if Nat.eqb k i then set_parent (abs_path par) (set_name nm m) else m)) (obj L k)).
  { intros k. unfold LD. rewrite obj_on_node, Oj, O2, (Nat.eqb_sym k i).
    assert (E2 : lookup L2 (abs_path par) = lookup L (abs_path par)).
    { unfold lookup. now rewrite (proj1 (proj2 F2)). }
    rewrite E2. unfold h. destruct (obj L k) as [m|]; [|now destruct (Nat.eqb i k)]. cbn [option_map].
    destruct (lookup L (abs_path par)) as [j|]; [destruct (Nat.eqb j k)|]; destruct (Nat.eqb i k); reflexivity. }
  assert (EG : dget (abs_path (po ++ [nm0])) (by_path LD) = Some i).
  { rewrite EP. exact Hl. }
  rewrite EG.
  assert (HDo : forall k, match obj L k with
    | None => obj LD k = None
    | Some m => exists s, obj LD k = Some (set_order s (if Nat.eqb k i then set_parent (abs_path par) (set_name nm m) else m))
    end).
  { intros k. rewrite OD. destruct (obj L k); [eexists; reflexivity|reflexivity]. }
  assert (Hne : po ++ [nm0] <> []) by (now destruct po).
  pose proof (st_books L LD i (po ++ [nm0]) par nm HB Ho Hw Hne Hl Hv EP EN EL HDo) as SB.
  pose proof (st_moved L LD i (po ++ [nm0]) par nm HB Ho Hw Hne Hl Hv EP) as SM.
  pose proof (fun k => st_obj L LD i (po ++ [nm0]) par nm HB Ho Hne Hl Hv EP k) as SO.
  pose proof (st_fields LD i (po ++ [nm0]) par nm) as SF.
  set (LF := fold_left _ _ _) in SB, SM, SO, SF.
  change (with_by_node (with_by_path LD (dset (abs_path (par ++ [nm])) i (ddel (abs_path (po ++ [nm0])) (by_path LD))))
                (nset i (abs_path (par ++ [nm])) (by_node (with_by_path LD (dset (abs_path (par ++ [nm])) i (ddel (abs_path (po ++ [nm0])) (by_path LD))))))
          ) with (entered LD i (abs_path (po ++ [nm0])) (abs_path (par ++ [nm]))).
  fold LF.
  eexists. exists h. split; [reflexivity|].
  split; [|split; [|split; [|split; [|split]]]].
  - destruct SB. constructor; assumption.
  - destruct SM. constructor; assumption.
  - intros k. specialize (SO k). rewrite OD in SO. destruct (obj L k) as [m|].
    + cbn [option_map] in SO. destruct SO as (p & E). exists p.
      change (obj LF k = Some (set_order (h k (s_order m)) (set_parent p (if Nat.eqb k i then set_name nm m else m)))).
      rewrite E. destruct (Nat.eqb k i); reflexivity.
    + exact SO.
  - intros k l. exists (g k l). split; [apply Hg|]. unfold h. split.
    + intros ->. now rewrite Nat.eqb_refl.
    + intros H. destruct (lookup L (abs_path par)) as [j|]; [|reflexivity].
      destruct (Nat.eqb j k) eqn:E; [|reflexivity]. apply Nat.eqb_eq in E. subst j. congruence.
  - destruct SF as (S1 & S2 & S3 & S4 & S5 & S6 & S7). unfold same_flags.
    cbn [muted hidden spec_list with_top with_collapse]. rewrite S1, S5, S6.
    change (muted LD) with (muted L3). change (hidden LD) with (hidden L3).
    rewrite EL, (r_muted _ _ Rj), (r_hidden _ _ Rj). repeat split; apply F2.
  - destruct SF as (S1 & S2 & S3 & S4 & S5 & S6 & S7). unfold moved_keys.
    cbn [positions collapse top with_top with_collapse]. rewrite S3, S4, S7.
    change (positions LD) with (positions L3). change (collapse LD) with (collapse L3).
    change (top LD) with (top L3). rewrite (r_positions _ _ Rj), (r_collapse _ _ Rj), (r_top _ _ Rj).
    destruct F2 as (_ & _ & _ & _ & F2a & F2b & _ & _ & F2c). rewrite F2a, F2b, F2c. auto.
Qed.
End One.
