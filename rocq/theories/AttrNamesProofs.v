(** Attribute names of composed nodes. *)

From Coq Require Import String List NArith ZArith Bool Arith Lia.
From Verif Require Import PyStr PyStrFacts NxtPath PathSpec PathProofs Dict DictFacts SortRows Layer PyVal NodeIO LayerIO PyClass PyClassSpec
  Comp CompSpec CompProofs CompPostProofs CompTreeProofs CompStageProofs CompTotalProofs StageView StageViewProofs Props_Comp Arcs ArcsProofs Opinions OpinionsSpec OpinionsProofs MergeProofs AttrNames AttrNamesSpec.
Import ListNotations.

Lemma add_names_in bad a : forall ks acc, In a (add_names bad ks acc) <-> In a acc \/ In a ks /\ ~ In a bad /\ endswith META_SUFFIX a = false.
Proof.
  unfold add_names. induction ks as [|k ks IH]; intros acc; cbn [fold_left]; [cbn [In]; tauto|]. rewrite IH. cbn [In].
  destruct (str_in k acc) eqn:E1; [apply str_in_In in E1; split; [tauto|intros [?|([<-|?] & ?)]; tauto]|].
  destruct (str_in k bad) eqn:E2; [apply str_in_In in E2; split; [tauto|intros [?|([<-|?] & ? & ?)]; tauto]|].
  destruct (endswith META_SUFFIX k) eqn:E3; [split; [tauto|intros [?|([<-|?] & ? & ?)]; [tauto|congruence|tauto]]|].
  rewrite in_app_iff. cbn [In]. assert (N : ~ In k bad) by (intros Q; apply str_in_In in Q; congruence). split.
  - intros [[?|[<-|[]]]|?]; tauto.
  - intros [?|([<-|?] & ?)]; tauto.
Qed.
Lemma add_names_nodup bad : forall ks acc, NoDup acc -> NoDup (add_names bad ks acc).
Proof.
  unfold add_names. induction ks as [|k ks IH]; intros acc Hn; cbn [fold_left]; [exact Hn|]. destruct (str_in k acc) eqn:E1; [now apply IH|]. destruct (str_in k bad); [now apply IH|]. destruct (endswith META_SUFFIX k); [now apply IH|].
  apply IH. apply DirtyProofs.NoDup_snoc; [exact Hn|]. intros Q. apply str_in_In in Q. congruence.
Qed.

Section Users.
Variable bi : list pystr.
Lemma user_iff a : user_attr bi a <-> ~ In a (PROTECTED bi) /\ endswith META_SUFFIX a = false.
Proof.
  unfold user_attr, PROTECTED, ALL_INTERNAL. rewrite !in_app_iff. cbn [NO_COMP In]. split.
  - intros (A & B & C & D). split; [intuition|]. destruct (endswith META_SUFFIX a) eqn:E; [|reflexivity]. apply endswith_iff in E as (r & E). now destruct (D r).
  - intros (A & B). split; [tauto|]. split; [tauto|]. split; [intros ->; apply A; right; right; right; left; reflexivity|]. intros b ->. assert (Q : endswith META_SUFFIX (b ++ lit "__nxt") = true) by (apply endswith_iff; now exists b). congruence.
Qed.
Lemma user_internal a : user_attr bi a -> ~ In a internal_keys.
Proof.
  intros (_ & A & _ & D) Q. unfold internal_keys in Q. apply in_app_or in Q as [Q|Q]; [now apply A|]. apply in_map_iff in Q as (b & <- & _). apply (D (b ++ lit "_source")). rewrite <- app_assoc. reflexivity.
Qed.
End Users.

Section Stage.
Variables (bi : list pystr) (layers : list (list layer_row)) (H : heap).
Hypothesis wf : well_formed layers.
Hypothesis St : stage_of layers H.
Hypothesis One : one_each layers.
Notation L := (by_path layers).
Notation has := (has_at H).
Notation local := (local_at layers).

Lemma dir_in a p : In a (dir H p) <-> getattr H (Co p) a <> None.
Proof.
  unfold dir, getattr. destruct (mro_of H (Co p)) as [l|]; [|cbn; split; [intros []|congruence]].
  assert (O : forall r, In a (own_keys H r) <-> own_attr H a r <> None). { intros [i|q]; cbn; [destruct (nth_error (specs H) i) as [n|]|destruct (dget q (comps H)) as [c|]]; try (split; [intros []|congruence]); rewrite <- dget_some_key; (match goal with |- context [dget a ?d] => destruct (dget a d) as [w|] end); split; intros Q; try congruence; try (now exists w); destruct Q as (? & Q); discriminate Q. }
  induction l as [|r l IH]; cbn [flat_map lookup_in]; [cbn; split; [intros []|congruence]|]. rewrite in_app_iff, O, IH. destruct (own_attr H a r); split; try congruence; try tauto. intros _. left. discriminate.
Qed.
Lemma dir_has a cs : In a (dir H (abs_path cs)) <-> has a cs.
Proof. rewrite dir_in. unfold has_at, reads. destruct (getattr H (Co (abs_path cs)) a); cbn; split; congruence. Qed.
Lemma names_in a cs : In a (get_node_attr_names bi H (abs_path cs)) <-> user_attr bi a /\ has a cs.
Proof. unfold get_node_attr_names. rewrite add_names_in, dir_has, user_iff. cbn [In]. tauto. Qed.

Lemma layer_rows l cs : In l layers -> names cs ->
  opinions cs [l] = match @dget node (abs_path cs) (map (fun r : layer_row => (node_namespace_to_str_path (fst r), snd r)) l) with Some m => [m] | None => [] end.
Proof.
  intros Hl Hc. assert (Hf : forall r, In r l -> fits r) by (intros r; now apply (wf l)). pose proof (One l Hl) as Hn. clear Hl. revert Hf Hn. unfold opinions. cbn [concat]. rewrite app_nil_r. match goal with |- context [filter ?f l] => set (P := f) end.
  assert (HP : forall r, P r = true <-> fst r = ns_of cs). { intros r. unfold P. match goal with |- (if ?x then _ else _) = _ <-> _ => destruct x end; split; congruence. }
  clearbody P. induction l as [|r l IH]; intros Hf Hn; [reflexivity|]. cbn [map filter] in *. inversion Hn as [|? ? N1 N2]; subst.
  specialize (IH (fun x Hx => Hf x (or_intror Hx)) N2). pose proof (fits_path r cs (Hf r (or_introl eq_refl)) Hc) as B. unfold row_path in B. cbn [dget]. pose proof (HP r) as E.
  destruct (P r).
  - assert (Q : node_namespace_to_str_path (fst r) = abs_path cs) by now apply B, E. rewrite Q, str_eqb_refl. cbn [map]. f_equal.
    destruct (filter P l) as [|y ys] eqn:Ef; [reflexivity|]. exfalso. assert (Hy : In y (y :: ys)) by now left. rewrite <- Ef in Hy. apply filter_In in Hy as (Hy & Qy). apply HP in Qy.
    apply N1. pose proof (in_map fst l y Hy) as Hi. assert (Ee : fst y = fst r) by exact (eq_trans Qy (eq_sym (proj1 E eq_refl))). exact (eq_ind _ (fun z => In z (map fst l)) Hi _ Ee).
  - destruct (str_eqb (node_namespace_to_str_path (fst r)) (abs_path cs)) eqn:Es; [apply str_eqb_eq in Es; apply B, E in Es; discriminate Es|exact IH].
Qed.
Lemma opinions_cons cs l ls : opinions cs (l :: ls) = opinions cs [l] ++ opinions cs ls.
Proof. unfold opinions. cbn [concat]. now rewrite app_nil_r, filter_app, map_app. Qed.
Lemma local_in a cs : names cs -> In a (local_names bi L (abs_path cs)) <-> user_attr bi a /\ local a cs.
Proof.
  intros Hc. unfold local_names, by_path, local_at.
  assert (G : forall ls acc, (forall l, In l ls -> In l layers) ->
    In a (fold_left (fun acc (t : dict node) => match @dget node (abs_path cs) t with Some n => add_names (PROTECTED bi) (dkeys n) acc | None => acc end) (map (map (fun r : layer_row => (node_namespace_to_str_path (fst r), snd r))) ls) acc) <->
    In a acc \/ user_attr bi a /\ exists m, In m (opinions cs ls) /\ dget a m <> None).
  { induction ls as [|l ls IH]; intros acc Hs; cbn [map fold_left]; [split; [tauto|intros [?|(_ & m & [] & _)]; assumption]|]. rewrite IH by (intros x Hx; apply Hs; now right). rewrite opinions_cons, (layer_rows l cs (Hs l (or_introl eq_refl)) Hc).
    match goal with |- context [@dget ?t ?p ?d] => destruct (@dget t p d) as [n|] end; cbn [app In]; [|reflexivity]. rewrite add_names_in, user_iff. split.
    - intros [[?|(A & B)]|(A & m & B & C)]; [tauto| |right; split; [exact A|]; exists m; auto]. right. split; [exact B|]. exists n. split; [now left|]. intros Q. apply dget_none in Q. now apply Q.
    - intros [?|(A & m & [<-|B] & C)]; [tauto| |right; split; [exact A|]; exists m; auto]. left. right. split; [|exact A]. destruct (dget a n) eqn:E; [|congruence]. apply dget_some_key. now exists p. }
  rewrite G by auto. cbn [In]. tauto.
Qed.

(** Deciding. *)
Lemma has_dec a cs : has a cs \/ ~ has a cs.
Proof. unfold has_at. destruct (reads H cs a); [left; discriminate|right; congruence]. Qed.
Lemma local_dec a cs : local a cs \/ ~ local a cs.
Proof.
  unfold local_at. induction (opinions cs layers) as [|m l IH]; [right; intros (m & [] & _)|]. destruct (dget a m) eqn:E; [left; exists m; split; [now left|congruence]|].
  destruct IH as [(x & A & B)|N]; [left; exists x; split; [now right|exact B]|right]. intros (x & [<-|A] & B); [congruence|]. apply N. now exists x.
Qed.
Lemma in_dec_ (a : pystr) l : In a l \/ ~ In a l.
Proof. destruct (str_in a l) eqn:E; [left; now apply str_in_In|right; intros Q; apply str_in_In in Q; congruence]. Qed.

Lemma parent_unique cs ds ds' : StageView.parent H cs ds -> StageView.parent H cs ds' -> ds' = ds.
Proof. intros (k & A & -> & B & C) (k' & A' & -> & B' & C'). destruct (Nat.lt_trichotomy k k') as [Lt|[->|Lt]]; [|reflexivity|]; [destruct (C k')|destruct (C' k)]; auto; lia. Qed.

(** Where an attribute of the user's comes from. *)
Lemma parent_or cs : (exists ds, StageView.parent H cs ds) \/ forall k, k < length cs -> ~ in_stage H (firstn k cs).
Proof.
  unfold StageView.parent, closest. assert (G : forall n, n <= length cs -> (exists k, k < n /\ in_stage H (firstn k cs) /\ forall j, k < j < n -> ~ in_stage H (firstn j cs)) \/ forall k, k < n -> ~ in_stage H (firstn k cs)).
  { induction n as [|n IH]; intros Hn; [right; intros k Hk; lia|]. destruct (here H (abs_path (firstn n cs))) eqn:E; [left; exists n; split; [lia|]; split; [exact E|intros j Hj; lia]|].
    destruct IH as [(k & A & B & C)|N]; [lia| |].
    - left. exists k. split; [lia|]. split; [exact B|]. intros j Hj. destruct (Nat.eq_dec j n) as [->|]; [unfold in_stage; congruence|apply C; lia].
    - right. intros k Hk. destruct (Nat.eq_dec k n) as [->|]; [unfold in_stage; congruence|apply N; lia]. }
  destruct (G (length cs) (le_n _)) as [(k & A & B & C)|N]; [left; exists (firstn k cs), k; auto|now right].
Qed.
Lemma parent_dec cs : (exists ds, StageView.parent H cs ds) \/ forall ds, ~ StageView.parent H cs ds.
Proof. destruct (parent_or cs) as [K|N]; [now left|right]. intros ds (k & A & -> & B & _). now apply (N k). Qed.
Lemma instances_dec cs : in_stage H cs -> (exists rs, instances H cs rs) \/ forall rs, ~ instances H cs rs.
Proof.
  intros Hh. destruct (stage_parts layers H wf St) as (H1 & F & P). pose proof (fun b => view_src layers H1 F H wf P cs b Hh) as V.
  destruct (attr H (abs_path cs) INSTANCE_PATH) as [| | |b| | | |] eqn:E; try (right; intros rs I; destruct (view_source layers H1 F H wf P cs rs Hh I) as (A & _); congruence).
  destruct (str_eqb b WORLD) eqn:Ew; [apply str_eqb_eq in Ew; right; intros rs I; destruct (view_source layers H1 F H wf P cs rs Hh I) as (A & B & _); congruence|]. apply str_eqb_neq in Ew.
  destruct (here H b) eqn:Eh; [left; destruct (V b) as (rs & _ & I); auto; now exists rs|right]. intros rs I; destruct (view_source layers H1 F H wf P cs rs Hh I) as (A & _ & C). congruence.
Qed.
Lemma has_iff a cs : ~ In a internal_keys -> names cs -> in_stage H cs ->
  has a cs <-> local a cs \/ (exists rs, instances H cs rs /\ has a rs) \/ exists ds, StageView.parent H cs ds /\ has a ds.
Proof.
  intros Ha Hc Hh. unfold has_at. destruct (local_dec a cs) as [Lo|Lo].
  - split; [tauto|]. intros _. assert (E : exists v, has_first a (opinions cs layers) v).
    { destruct Lo as (m & Hm & Hd). clear - Hm Hd. induction (opinions cs layers) as [|x l IH]; [destruct Hm|]. destruct (dget a x) as [v|] eqn:E; [exists v, [], x, l; split; [reflexivity|split; [exact E|intros ? []]]|].
      destruct Hm as [<-|Hm]; [congruence|]. destruct (IH Hm) as (v & u & n & w & Q & A & B). exists v, (x :: u), n, w. split; [now rewrite Q|]. split; [exact A|]. intros y [<-|Hy]; auto. }
    destruct E as (v & E). rewrite (C33_strongest_layer layers H wf St a Ha cs v Hc E). discriminate.
  - assert (No : none_in layers a cs). { intros d Hd. destruct (dget a d) eqn:E; [|reflexivity]. destruct Lo. exists d. split; [exact Hd|congruence]. }
    destruct (instances_dec cs Hh) as [(rs & I)|NI], (parent_dec cs) as [(ds & K)|NK].
    + destruct (C33_either layers H wf St a Ha cs ds rs Hc Hh No K I) as (_ & E). split.
      * intros Q. destruct (reads H ds a) eqn:E1; [right; right; exists ds; split; [exact K|congruence]|]. destruct (reads H rs a) eqn:E2; [right; left; exists rs; split; [exact I|congruence]|]. destruct Q. now apply E.
      * intros [Q|[(rs' & I' & Q)|(ds' & K' & Q)]] N; [now apply Lo| |]; apply E in N as (N1 & N2).
        -- assert (rs' = rs); [|now subst]. destruct I as (A & _ & _ & B), I' as (A' & _ & _ & B'). rewrite B in B'. injection B' as B'. symmetry. now apply path_inj.
        -- assert (ds' = ds); [|now subst]. destruct K as (k & A & -> & B & C), K' as (k' & A' & -> & B' & C'). destruct (Nat.lt_trichotomy k k') as [Lt|[->|Lt]]; [|reflexivity|]; [destruct (C k')|destruct (C' k)]; auto; lia.
    + rewrite (C33_source layers H wf St a Ha cs rs Hc Hh No I NK). split.
      * intros Q. right. left. eauto.
      * intros [Q|[(rs' & I' & Q)|(ds' & K' & Q)]]; [tauto| |now destruct (NK ds')]. assert (rs' = rs); [|now subst]. destruct I as (A & _ & _ & B), I' as (A' & _ & _ & B'). rewrite B in B'. injection B' as B'. symmetry. now apply path_inj.
    + rewrite (C33_parent layers H wf St a Ha cs ds Hc Hh No NI K). split.
      * intros Q. right. right. eauto.
      * intros [Q|[(rs' & I' & Q)|(ds' & K' & Q)]]; [tauto|now destruct (NI rs')|]. assert (ds' = ds); [|now subst]. destruct K as (k & A & -> & B & C), K' as (k' & A' & -> & B' & C'). destruct (Nat.lt_trichotomy k k') as [Lt|[->|Lt]]; [|reflexivity|]; [destruct (C k')|destruct (C' k)]; auto; lia.
    + rewrite (C33_alone layers H wf St a Ha cs Hc Hh No NI NK). split; [congruence|]. intros [Q|[(rs' & I' & Q)|(ds' & K' & Q)]]; [tauto|now destruct (NI rs')|now destruct (NK ds')].
Qed.
(** What an ancestor has its descendants have. *)
Lemma has_below a : ~ In a internal_keys -> forall ts ds, names (ds ++ ts) -> in_stage H ds -> in_stage H (ds ++ ts) -> has a ds -> has a (ds ++ ts).
Proof.
  intros Ha ts. remember (length ts) as n eqn:En. revert ts En. induction n as [n IH] using lt_wf_ind. intros xs -> ds Hn Hd Hh Q. rename xs into ts.
  destruct ts as [|t0 ts0] eqn:Et; [now rewrite app_nil_r|]. rewrite <- Et in *. apply (has_iff a (ds ++ ts) Ha Hn Hh). right. right.
  destruct (parent_or (ds ++ ts)) as [(es & K)|NK].
  - exists es. split; [exact K|]. destruct K as (k & A & -> & B & C). assert (Hk : length ds <= k). { destruct (le_lt_dec (length ds) k) as [|Lt]; [assumption|]. destruct (C (length ds)). - rewrite app_length, Et. cbn [length]. lia. - rewrite firstn_app, firstn_all, Nat.sub_diag, firstn_O, app_nil_r. exact Hd. }
    rewrite firstn_app, (firstn_all2 ds) by exact Hk. rewrite app_length in A. apply (IH (length (firstn (k - length ds) ts))); auto.
    + rewrite firstn_length. lia.
    + apply Forall_app in Hn as (N1 & N2). apply Forall_app. split; [exact N1|]. rewrite <- (firstn_skipn (k - length ds) ts) in N2. now apply Forall_app in N2 as (N2 & _).
    + rewrite firstn_app, (firstn_all2 ds) in B by exact Hk. exact B.
  - destruct (NK (length ds)); [rewrite app_length, Et; cbn [length]; lia|]. rewrite firstn_app, firstn_all, Nat.sub_diag, firstn_O, app_nil_r. exact Hd.
Qed.

(** Going up. *)
Lemma parent_path_at ps nm : names (ps ++ [nm]) -> in_stage H (ps ++ [nm]) -> parent_path H (abs_path (ps ++ [nm])) = abs_path ps.
Proof. intros Hn Hh. unfold parent_path. rewrite (get_comp layers H wf St _ _ Hh) by (apply key; reflexivity). destruct (at_place layers H wf St ps nm Hn Hh) as (-> & _). reflexivity. Qed.
Lemma parent_path_world : in_stage H [] -> parent_path H (abs_path []) = [].
Proof.
  intros Hh. unfold parent_path. rewrite (get_comp layers H wf St _ _ Hh) by (apply key; reflexivity). destruct (stage_parts layers H wf St) as (H1 & F & P). pose proof Hh as Hh'. unfold in_stage in Hh'. rewrite (fin_here layers H1 F H P) in Hh'. pose proof (fin_root_layer layers H1 F H wf P Hh') as Ho.
  destruct (opinions [] layers) as [|d l] eqn:Eo; [congruence|]. rewrite (fin_plain layers H1 F H wf P [] PARENT_PATH d l (Forall_nil _) Eo) by (cbn; tauto). destruct (opinion_root layers wf d) as (-> & _); [rewrite Eo; now left|reflexivity].
Qed.
Lemma empty_not_here : here H [] = false.
Proof. destruct (here H []) eqn:E; [|reflexivity]. destruct (stage_parts layers H wf St) as (H1 & F & P). destruct (fin_path layers H1 F H P [] E) as (cs & _ & Q). now destruct cs. Qed.
(** The closest of [ps] and its ancestors that is there. *)
Definition reach (ps ds : list pystr) : Prop := exists k, k <= length ps /\ ds = firstn k ps /\ in_stage H ds /\ forall j, k < j <= length ps -> ~ in_stage H (firstn j ps).
Lemma climb_spec ps : names ps -> forall fuel, length ps < fuel -> (exists ds, reach ps ds /\ climb H fuel (abs_path ps) = Some (Some (abs_path ds))) \/ (forall k, k <= length ps -> ~ in_stage H (firstn k ps)) /\ climb H fuel (abs_path ps) = Some None.
Proof.
  induction ps as [|nm ps IH] using rev_ind; intros Hn [|fuel] Hf; try lia; cbn [climb].
  - destruct (here H (abs_path [])) eqn:E; [left; exists []; split; [exists 0; split; [cbn; lia|]; split; [reflexivity|]; split; [exact E|cbn; intros; lia]|reflexivity]|].
    right. split; [|reflexivity]. intros k _. rewrite firstn_nil. unfold in_stage. congruence.
  - destruct (here H (abs_path (ps ++ [nm]))) eqn:E.
    + left. exists (ps ++ [nm]). split; [|reflexivity]. exists (length (ps ++ [nm])). split; [lia|]. split; [now rewrite firstn_all|]. split; [exact E|intros; lia].
    + destruct (str_eqb (abs_path (ps ++ [nm])) WORLD) eqn:Ew; [apply str_eqb_eq in Ew; change WORLD with (abs_path []) in Ew; apply path_inj in Ew; [now destruct ps|exact Hn|constructor]|].
      pose proof (names_comp _ Hn) as Hcomp. rewrite (get_parent_path_abs _ _ Hcomp). apply Forall_app in Hn as (Hp & _). rewrite app_length in Hf. cbn [length] in Hf.
      assert (Ne : forall j, j = length (ps ++ [nm]) -> ~ in_stage H (firstn j (ps ++ [nm]))) by (intros j ->; rewrite firstn_all; unfold in_stage; congruence).
      assert (Fi : forall j, j <= length ps -> firstn j (ps ++ [nm]) = firstn j ps). { intros j Hj. rewrite firstn_app. replace (j - length ps) with 0 by lia. now rewrite firstn_O, app_nil_r. }
      destruct (IH Hp fuel) as [(ds & (k & A & -> & B & C) & ->)|(N & ->)]; [lia| |].
      * left. exists (firstn k ps). split; [|reflexivity]. exists k. rewrite app_length. cbn [length]. split; [lia|]. split; [now rewrite Fi|]. split; [exact B|]. intros j Hj. destruct (Nat.eq_dec j (length ps + 1)) as [->|]; [apply Ne; now rewrite app_length|]. rewrite Fi by lia. apply C. lia.
      * right. split; [|reflexivity]. rewrite app_length. cbn [length]. intros j Hj. destruct (Nat.eq_dec j (length ps + 1)) as [->|]; [apply Ne; now rewrite app_length|]. rewrite Fi by lia. apply N. lia.
Qed.
Lemma reach_parent ps nm ds : reach ps ds <-> StageView.parent H (ps ++ [nm]) ds.
Proof.
  unfold reach, StageView.parent, closest. rewrite app_length. cbn [length].
  assert (Fi : forall j, j <= length ps -> firstn j (ps ++ [nm]) = firstn j ps). { intros j Hj. rewrite firstn_app. replace (j - length ps) with 0 by lia. now rewrite firstn_O, app_nil_r. }
  split; intros (k & A & E & B & C); exists k; (split; [lia|]); (split; [rewrite E; rewrite Fi by lia; reflexivity|]); (split; [exact B|]); intros j Hj; [rewrite Fi by lia|rewrite <- Fi by lia]; apply C; lia.
Qed.

(** The name list of a node's parent. *)
Definition above (cs ds : list pystr) : Prop := StageView.parent H cs ds \/ cs = [] /\ ds = [].
Lemma inherited_in cs inst : names cs -> in_stage H cs -> exists i, inherited_with bi L H (abs_path cs) inst = Some i /\
  forall a, In a i <-> user_attr bi a /\ (exists ds, above cs ds /\ has a ds) /\ ~ In a inst /\ ~ local a cs.
Proof.
  intros Hn Hh.
  assert (G : forall q, (forall a, In a (add_names (PROTECTED bi ++ inst ++ local_names bi L (abs_path cs)) (dir H (abs_path q)) []) <-> user_attr bi a /\ has a q /\ ~ In a inst /\ ~ local a cs)).
  { intros q a. rewrite add_names_in, dir_has, user_iff, !in_app_iff, (local_in a cs Hn), user_iff. cbn [In]. tauto. }
  unfold inherited_with. destruct cs as [|nm ps _] using rev_ind.
  - rewrite (parent_path_world Hh). cbn [climb length]. rewrite empty_not_here. change (str_eqb [] WORLD) with false. cbv iota. change (get_parent_path []) with (abs_path []). unfold in_stage in Hh. rewrite Hh. eexists. split; [reflexivity|]. intros a. rewrite (G [] a). split.
    + intros (A & B & C). split; [exact A|]. split; [|exact C]. exists []. split; [now right|exact B].
    + intros (A & (ds & [(k & K & _)|(_ & ->)] & B) & C); [cbn in K; lia|tauto].
  - rewrite (parent_path_at ps nm Hn Hh). assert (Hp : names ps) by (now apply Forall_app in Hn as (Hn' & _)). destruct (climb_spec ps Hp (S (S (length (abs_path ps))))) as [(ds & R & ->)|(N & ->)].
    { destruct ps as [|x ps]; [cbn; lia|]. rewrite abs_path_slashed by discriminate. pose proof (slashed_length (x :: ps)). lia. }
    + eexists. split; [reflexivity|]. intros a. rewrite (G ds a). pose proof (proj1 (reach_parent ps nm ds) R) as K. split.
      * intros (A & B & C). split; [exact A|]. split; [|exact C]. exists ds. split; [now left|exact B].
      * intros (A & (ds' & [K'|(Q & _)] & B) & C); [|now destruct ps]. split; [exact A|]. split; [|exact C]. assert (ds' = ds); [|now subst]. destruct K as (k & KA & -> & KB & KC), K' as (k' & KA' & -> & KB' & KC'). destruct (Nat.lt_trichotomy k k') as [Lt|[->|Lt]]; [|reflexivity|]; [destruct (KC k')|destruct (KC' k)]; auto; lia.
    + eexists. split; [reflexivity|]. intros a. split; [intros []|]. intros (_ & (ds & [K|(Q & _)] & _) & _); [|now destruct ps]. apply (reach_parent ps nm ds) in K as (k & A & -> & B & _). now destruct (N k A).
Qed.

(** What the instance brings. *)
Lemma instance_at cs : in_stage H cs -> match instance_of H (abs_path cs) with Some q => exists rs, q = abs_path rs /\ points H cs rs | None => forall rs, ~ points H cs rs end.
Proof.
  intros Hh. unfold instance_of. rewrite (get_comp layers H wf St _ _ Hh) by (apply key; reflexivity). destruct (stage_parts layers H wf St) as (H1 & F & P). unfold points. rewrite (view_internal layers H1 F H wf P cs INSTANCE_PATH Hh inst_key).
  destruct (attr H (abs_path cs) INSTANCE_PATH) as [| | |b| | | |] eqn:E; try (intros rs (_ & _ & Q); discriminate Q). destruct (negb (is_empty b) && here H b) eqn:Eb.
  - apply andb_true_iff in Eb as (_ & Eh). destruct (fin_path layers H1 F H P b Eh) as (rs & Hr & ->). exists rs. auto.
  - intros rs (Hr & Hrh & [= ->]). unfold in_stage in Hrh. rewrite Hrh, abs_not_empty in Eb. discriminate Eb.
Qed.
Lemma points_has a cs rs : ~ In a internal_keys -> names cs -> in_stage H cs -> points H cs rs -> has a rs -> has a cs.
Proof.
  intros Ha Hn Hh (Hr & Hrh & E) Q. destruct rs as [|r rs].
  - apply (has_below a Ha cs [] Hn Hrh Hh Q).
  - apply (has_iff a cs Ha Hn Hh). right. left. exists (r :: rs). split; [|exact Q]. split; [exact Hr|]. split; [discriminate|]. split; [exact Hrh|exact E].
Qed.

(** One step of the recursion. *)
Definition brings (a : pystr) (cs : list pystr) : Prop := exists rs, points H cs rs /\ has a rs.
Lemma step_names cs inherited attrs : names cs -> in_stage H cs -> (forall a, In a inherited -> user_attr bi a) ->
  exists l, (match instance_of H (abs_path cs) with None => Some attrs | Some q => Some (add_names (PROTECTED bi ++ inherited ++ local_names bi L (abs_path cs)) (dir H q) attrs) end) = Some l /\
    forall a, In a l <-> In a attrs \/ user_attr bi a /\ brings a cs /\ ~ In a inherited /\ ~ local a cs.
Proof.
  intros Hn Hh Hu. pose proof (instance_at cs Hh) as I. destruct (instance_of H (abs_path cs)) as [q|].
  - destruct I as (rs & -> & I). eexists. split; [reflexivity|]. intros a. rewrite add_names_in, dir_has, !in_app_iff, (local_in a cs Hn), user_iff. split.
    + intros [?|(A & B & C)]; [tauto|]. right. split; [tauto|]. split; [now exists rs|]. tauto.
    + intros [?|(A & (rs' & I' & B) & C)]; [tauto|]. right. assert (rs' = rs); [|subst; tauto]. destruct I as (X & _ & Y), I' as (X' & _ & Y'). rewrite Y in Y'. injection Y' as Y'. symmetry. now apply path_inj.
  - eexists. split; [reflexivity|]. intros a. split; [tauto|]. intros [?|(_ & (rs & I' & _) & _)]; [assumption|now destruct (I rs)].
Qed.
Lemma instanced_step ps nm fuel : names (ps ++ [nm]) -> in_stage H (ps ++ [nm]) -> in_stage H ps -> forall l, instanced bi L H fuel (abs_path ps) = Some l -> (forall a, In a l -> user_attr bi a) ->
  exists l', instanced bi L H (S fuel) (abs_path (ps ++ [nm])) = Some l' /\
    forall a, let kept := local a ps \/ (exists ds, above ps ds /\ has a ds) /\ ~ In a l in
    In a l' <-> In a l /\ ~ local a ps \/ user_attr bi a /\ brings a (ps ++ [nm]) /\ ~ local a (ps ++ [nm]) /\ ~ kept.
Proof.
  intros Hn Hh Hp l El Hu. cbn [instanced]. rewrite (parent_path_at ps nm Hn Hh). pose proof Hp as Hp'. unfold in_stage in Hp'. rewrite Hp', El. assert (Hnp : names ps) by (now apply Forall_app in Hn as (Hn' & _)).
  destruct (inherited_in ps l Hnp Hp) as (i & -> & Hi). cbv zeta.
  destruct (step_names (ps ++ [nm]) (local_names bi L (abs_path ps) ++ i) (filter (fun a => negb (str_in a (local_names bi L (abs_path ps) ++ i))) l) Hn Hh) as (l' & E & Hl').
  { intros a Ha. apply in_app_or in Ha as [Ha|Ha]; [now apply (local_in a ps Hnp) in Ha|now apply Hi in Ha]. }
  exists l'. split; [exact E|]. intros a. rewrite Hl', filter_In, negb_true_iff, str_in_false, in_app_iff, (local_in a ps Hnp), Hi. split.
  - intros [(A & B)|(A & B & C & D)]; [left; split; [exact A|]; intros Q; apply B; left; split; [now apply Hu|exact Q]|]. right. split; [exact A|]. split; [exact B|]. split; [exact D|]. intros [Q|(Q1 & Q2)]; [tauto|]. apply C. destruct (local_dec a ps); tauto.
  - intros [(A & B)|(A & B & C & D)]; [left; split; [exact A|]; intros [(_ & Q)|Q]; tauto|]. right. split; [exact A|]. split; [exact B|]. split; [|exact C]. tauto.
Qed.
Lemma instanced_top cs fuel : names cs -> in_stage H cs -> here H (parent_path H (abs_path cs)) = false ->
  exists l, instanced bi L H (S fuel) (abs_path cs) = Some l /\ forall a, In a l <-> user_attr bi a /\ brings a cs /\ ~ local a cs.
Proof.
  intros Hn Hh Hp. cbn [instanced]. rewrite Hp. destruct (step_names cs [] [] Hn Hh) as (l & E & Hl); [intros a []|]. exists l. split; [exact E|]. intros a. rewrite Hl. cbn [In]. tauto.
Qed.

(** All names, with gaps or without. *)
Lemma instanced_sound cs : names cs -> in_stage H cs -> forall fuel, S (length cs) < fuel -> exists l, instanced bi L H fuel (abs_path cs) = Some l /\
  (forall a, In a l -> user_attr bi a /\ has a cs) /\
  forall a, user_attr bi a -> brings a cs -> In a l \/ local a cs \/ exists ds, above cs ds /\ has a ds.
Proof.
  induction cs as [|nm ps IH] using rev_ind; intros Hn Hh [|fuel] Hf; try lia.
  - destruct (instanced_top [] fuel Hn Hh) as (l & E & Hl); [rewrite (parent_path_world Hh); apply empty_not_here|]. exists l. split; [exact E|]. split.
    + intros a Ha. apply Hl in Ha as (A & (rs & B & C) & _). split; [exact A|]. apply (points_has a [] rs (user_internal bi a A) Hn Hh B C).
    + intros a A B. destruct (local_dec a []); [tauto|]. left. now apply Hl.
  - assert (Hnp : names ps) by (now apply Forall_app in Hn as (Hn' & _)). rewrite app_length in Hf. cbn [length] in Hf. destruct (here H (abs_path ps)) eqn:Ep.
    + destruct (IH Hnp Ep fuel) as (l & El & So & _); [lia|]. assert (K : StageView.parent H (ps ++ [nm]) ps). { apply reach_parent. exists (length ps). split; [lia|]. split; [now rewrite firstn_all|]. split; [exact Ep|intros; lia]. }
      destruct (instanced_step ps nm fuel Hn Hh Ep l El) as (l' & E' & Hl'); [intros a Ha; now apply So|]. exists l'. split; [exact E'|]. split.
      * intros a Ha. apply Hl' in Ha as [(A & _)|(A & (rs & B & C) & _)].
        -- destruct (So a A) as (U & Q). split; [exact U|]. apply (has_iff a _ (user_internal bi a U) Hn Hh). right. right. exists ps. auto.
        -- split; [exact A|]. now apply (points_has a _ rs (user_internal bi a A) Hn Hh).
      * intros a A B. destruct (local_dec a (ps ++ [nm])) as [|Nl]; [tauto|]. destruct (has_dec a ps) as [Q|Q]; [right; right; exists ps; split; [now left|exact Q]|].
        left. apply Hl'. right. split; [exact A|]. split; [exact B|]. split; [exact Nl|]. intros Z. apply Q. destruct Z as [Z|((ds & Z & Hd) & _)]; [apply (has_iff a ps (user_internal bi a A) Hnp Ep); now left|].
        destruct Z as [Z|(-> & ->)]; [|exact Hd]. apply (has_iff a ps (user_internal bi a A) Hnp Ep). right. right. eauto.
    + destruct (instanced_top (ps ++ [nm]) fuel Hn Hh) as (l & E & Hl); [rewrite (parent_path_at ps nm Hn Hh); exact Ep|]. exists l. split; [exact E|]. split.
      * intros a Ha. apply Hl in Ha as (A & (rs & B & C) & _). split; [exact A|]. now apply (points_has a _ rs (user_internal bi a A) Hn Hh).
      * intros a A B. destruct (local_dec a (ps ++ [nm])); [tauto|]. left. now apply Hl.
Qed.

(** Without gaps. *)
Lemma instanced_by cs : names cs -> no_gap H cs -> forall fuel, S (length cs) < fuel -> exists l, instanced bi L H fuel (abs_path cs) = Some l /\
  forall a, In a l <-> user_attr bi a /\ by_instance layers H a cs.
Proof.
  induction cs as [|nm ps IH] using rev_ind; intros Hn Hg [|fuel] Hf; try lia.
  - assert (Hh : in_stage H []) by (now apply (Hg [] [])). destruct (instanced_top [] fuel Hn Hh) as (l & E & Hl); [rewrite (parent_path_world Hh); apply empty_not_here|]. exists l. split; [exact E|].
    intros a. rewrite Hl. split; intros (A & B); (split; [exact A|]).
    + destruct B as ((rs & I & Q) & Nl). exists [], []. split; [reflexivity|]. split; [now apply (points_has a _ rs (user_internal bi a A) Hn Hh)|]. split; [intros qs q Z; destruct qs; discriminate Z|]. split; [exact Nl|]. intros u v Z Hv. symmetry in Z. apply app_eq_nil in Z as (-> & ->). congruence.
    + destruct B as (es & ts & Z & Q & _ & Nl & _). symmetry in Z. apply app_eq_nil in Z as (-> & ->). split; [|exact Nl]. apply (has_iff a [] (user_internal bi a A) Hn Hh) in Q as [Q|[(rs & (I1 & I2 & I3 & I4) & Q)|(ds & (k & K & _) & _)]]; [tauto| |cbn in K; lia]. exists rs. split; [split; auto|exact Q].
  - assert (Hh : in_stage H (ps ++ [nm])) by (apply (Hg _ []); now rewrite app_nil_r). assert (Hp : in_stage H ps) by (now apply (Hg ps [nm])). assert (Hnp : names ps) by (now apply Forall_app in Hn as (Hn' & _)). rewrite app_length in Hf. cbn [length] in Hf.
    destruct (IH Hnp) with (fuel := fuel) as (l & El & Hl); [intros qs ts ->; apply (Hg qs (ts ++ [nm])); now rewrite app_assoc|lia|].
    destruct (instanced_step ps nm fuel Hn Hh Hp l El) as (l' & E' & Hl'); [intros a Ha; now apply Hl in Ha|]. exists l'. split; [exact E'|]. intros a. rewrite Hl'. cbv zeta.
    assert (K : StageView.parent H (ps ++ [nm]) ps). { apply reach_parent. exists (length ps). split; [lia|]. split; [now rewrite firstn_all|]. split; [exact Hp|intros; lia]. }
    destruct (instanced_sound ps Hnp Hp fuel) as (l2 & El2 & So & Co); [lia|]. rewrite El in El2. injection El2 as <-.
    assert (First : In a l -> ~ local a ps -> user_attr bi a /\ by_instance layers H a (ps ++ [nm])).
    { intros A Nl. apply Hl in A as (U & es & ts & -> & B & C & D & E). split; [exact U|]. exists es, (ts ++ [nm]). split; [now rewrite app_assoc|]. split; [exact B|]. split; [exact C|]. split; [exact D|]. intros u v Z Hv. destruct v as [|x v _] using rev_ind; [congruence|]. rewrite app_assoc in Z. apply app_inj_tail in Z as (-> & ->).
      destruct v as [|y v]; [now rewrite app_nil_r in Nl|]. apply (E u (y :: v)); [reflexivity|discriminate]. }
    split.
    + intros [(A & Nl)|(A & (rs & I & Q) & Nl & Nk)]; [now apply First|]. destruct (in_dec_ a l) as [Z'|Z']; [apply First; tauto|]. split; [exact A|].
      assert (Nh : ~ has a ps).
      { intros Z. apply Nk. apply (has_iff a ps (user_internal bi a A) Hnp Hp) in Z as [Z|[(rs' & (I1 & I2 & I3 & I4) & Z)|(ds & Z1 & Z2)]]; [now left| |right; split; [exists ds; split; [now left|exact Z2]|exact Z']].
        destruct (Co a A) as [?|[?|?]]; [exists rs'; split; [split; auto|exact Z]|tauto|now left|right; auto]. }
      exists (ps ++ [nm]), []. split; [now rewrite app_nil_r|]. split; [now apply (points_has a _ rs (user_internal bi a A) Hn Hh)|]. split; [intros qs q Z; apply app_inj_tail in Z as (<- & _); exact Nh|]. split; [exact Nl|]. intros u v Z Hv. symmetry in Z. apply app_eq_nil in Z as (-> & ->). congruence.
    + intros (U & es & ts & Z & B & C & D & E). destruct ts as [|x ts _] using rev_ind.
      * rewrite app_nil_r in Z. subst es. right. split; [exact U|]. pose proof (C ps nm eq_refl) as Nh.
        split; [apply (has_iff a _ (user_internal bi a U) Hn Hh) in B as [B|[(rs & (I1 & I2 & I3 & I4) & B)|(ds & B1 & B2)]]; [tauto|exists rs; split; [split; auto|exact B]|]|].
        -- exfalso. apply Nh. now rewrite <- (parent_unique _ _ _ K B1).
        -- split; [exact D|]. intros Z. apply Nh. destruct Z as [Z|((ds & Z & Hd) & _)]; [apply (has_iff a ps (user_internal bi a U) Hnp Hp); now left|]. destruct Z as [Z|(-> & ->)]; [|exact Hd]. apply (has_iff a ps (user_internal bi a U) Hnp Hp). right. right. eauto.
      * left. rewrite app_assoc in Z. apply app_inj_tail in Z as (-> & ->). split; [apply Hl; split; [exact U|]; exists es, ts; split; [reflexivity|]; split; [exact B|]; split; [exact C|]; split; [exact D|]|apply (E ts [x]); [reflexivity|discriminate]].
        intros u v -> Hv. apply (E u (v ++ [x])); [now rewrite app_assoc|]. now destruct v.
Qed.
End Stage.
