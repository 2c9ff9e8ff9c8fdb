(** The whole conversion. *)

From Coq Require Import String List NArith ZArith Bool Lia Sorted.
From Verif Require Import PyStr PyStrFacts Dict DictFacts PyVal PyValFacts Legacy LegacySpec LegacyProofs LegacyProofs2 LegacyProofs3.
Import ListNotations.

(** The steps from version [v] on. *)
Definition chain (v : Z) (d : dict pyval) : res (dict pyval) :=
  bind (if Z.leb v 9 then v109 d else Ok d) (fun d =>
  bind (if Z.leb v 14 then v114 d else Ok d) (fun d =>
  if Z.leb v 15 then v115 d else Ok d)).

Lemma chain_step v d : (v < 17)%Z ->
  chain v d = bind (match converter v with Some c => c d | None => Ok d end) (chain (v + 1)).
Proof.
  intros H. unfold chain, converter.
  destruct (Z.eqb_spec v 9) as [->|H9]; [cbn [Z.leb Z.add Z.compare Pos.add Pos.compare Pos.compare_cont bind]; reflexivity|].
  destruct (Z.eqb_spec v 14) as [->|H14]; [cbn; destruct (v114 d); reflexivity|].
  destruct (Z.eqb_spec v 15) as [->|H15]; [cbn; destruct (v115 d); reflexivity|].
  cbn [bind]. assert (L : forall a, v <> a -> Z.leb v a = Z.leb (v + 1) a).
  { intros a Ha. destruct (Z.leb_spec v a), (Z.leb_spec (v + 1) a); auto; lia. }
  now rewrite !L by auto.
Qed.

Lemma steps_chain n : forall v d fuel, Z.to_nat (17 - v) = n -> (v <= 17)%Z -> n < fuel ->
  step_versions fuel v d = Some (chain v d).
Proof.
  induction n as [|n IH]; intros v d fuel Hn Hv Hf; (destruct fuel as [|fuel]; [lia|]); cbn [step_versions].
  - assert (v = 17)%Z as -> by lia. reflexivity.
  - assert (v < 17)%Z by lia. rewrite chain_step by auto.
    destruct (match converter v with Some c => c d | None => Ok d end) as [d1|e]; cbn [bind]; auto.
    unfold GRAPH_MINOR. rewrite (proj2 (Z.eqb_neq v 17)) by lia. apply IH; lia.
Qed.
Lemma steps_endless fuel : forall v d, (v > 17)%Z -> step_versions fuel v d = None.
Proof.
  induction fuel as [|fuel IH]; intros v d Hv; cbn [step_versions]; auto.
  unfold converter, GRAPH_MINOR. rewrite !(proj2 (Z.eqb_neq _ _)) by lia. apply IH. lia.
Qed.

Lemma sorted_keys (n : dict pyval) : NoDup (dkeys n) ->
  StronglySorted (fun p q => str_ltb p q = true) (dkeys (sort_items n)).
Proof.
  intros H. apply sort_sorted in H. induction H as [|kv l H IH F]; cbn; constructor; auto.
  rewrite Forall_forall in *. intros p Hp. apply in_map_iff in Hp as (x & <- & Hx). exact (F x Hx).
Qed.
Lemma reordered_true d d1 d' : proper (VDict d) -> rooted_file d -> v114 d = Ok d1 -> v115 d1 = Ok d' ->
  reordered true d d'.
Proof.
  intros Hp Hr E1 E2. destruct (v114_ok _ _ Hp Hr E1) as (P1 & _ & V1 & O1).
  destruct (v115_ok _ _ P1 E2) as (N2 & V2 & A2 & O2 & Z2).
  assert (Nd : osame (dget (lit "nodes") d) (dget (lit "nodes") d1)) by (apply (O1 (lit "nodes")); discriminate).
  split; auto. split; auto. split; [|split].
  - intros H. rewrite H in Nd. apply osame_none in Nd. auto.
  - intros n Hn. rewrite Hn in Nd. apply osame_inv in Nd as (w & Hw & Sw).
    destruct (same_dict_inv _ _ Sw) as [n1 ->]. destruct (A2 n1 Hw) as (n' & Hn' & Kn & Kp).
    pose proof (proper_get _ _ _ Hp Hn) as Pn. pose proof (proper_get _ _ _ P1 Hw) as Pn1.
    exists n'. split; auto. change (map fst n') with (dkeys n'). rewrite Kn. split; [now apply sorted_keys, proper_nodup|]. split.
    + intros p. rewrite sort_keys_in. apply same_keys; auto; now apply proper_nodup.
    + intros p v Hv. pose proof (same_get_p _ _ p Pn Pn1 Sw) as Q. rewrite Hv in Q.
      apply osame_inv in Q as (v1 & Hv1 & Sv). destruct (Kp p v1 Hv1) as (w & Hw' & Kw).
      exists w. split; auto.
      exact (node_kept_same _ _ _ (proper_get _ _ _ Pn Hv) (proper_get _ _ _ Pn1 Hv1) Sv Kw).
  - intros k K1 K2. specialize (O1 k K1). specialize (O2 k K1 K2). unfold off_dropped in O1.
    destruct (str_in k [lit "mute"; lit "solo"]) eqn:Es.
    + apply str_in_In in Es. destruct (dget k d) as [v|] eqn:Ev.
      * destruct v as [|[]| | | | | |]; try (right; split; [intros (_ & _ & H); discriminate|]; eapply osame_trans; eassumption).
        left. split; auto. split; auto. split; auto. apply osame_none in O1. rewrite O1 in O2. now apply osame_none in O2.
      * right. split; [intros (_ & _ & H); discriminate|]. eapply osame_trans; eassumption.
    + apply str_in_not_In in Es. right. split; [tauto|]. eapply osame_trans; eassumption.
Qed.
Lemma reordered_false d d' : proper (VDict d) -> v115 d = Ok d' -> reordered false d d'.
Proof.
  intros Hp E2. destruct (v115_ok _ _ Hp E2) as (N2 & V2 & A2 & O2 & Z2).
  split; auto. split; auto. split; auto. split.
  - intros n Hn. destruct (A2 n Hn) as (n' & Hn' & Kn & Kp). exists n'. split; auto.
    pose proof (proper_get _ _ _ Hp Hn) as Pn.
    change (map fst n') with (dkeys n'). rewrite Kn. split; [now apply sorted_keys, proper_nodup|]. split; auto.
    intros p. symmetry. apply sort_keys_in.
  - intros k K1 K2. right. split; [intros [? _]; discriminate|]. auto.
Qed.

Lemma chain_ok v d d' : proper (VDict d) -> rooted_file d -> chain v d = Ok d' -> upgraded v d d'.
Proof.
  intros Hp Hr. unfold chain, upgraded.
  destruct (Z.leb_spec v 9) as [H9|H9].
  - rewrite (proj2 (Z.leb_le v 14)), (proj2 (Z.leb_le v 15)) by lia.
    destruct (v109 d) as [d1|] eqn:E1; [|discriminate]. cbn [bind].
    destruct (v114 d1) as [d2|] eqn:E2; [|discriminate]. cbn [bind]. intros E3.
    destruct (v109_ok _ _ Hp Hr E1) as (P1 & R1 & U1). left. split; auto. exists d1. split; auto.
    eapply reordered_true; eauto.
  - cbn [bind]. destruct (Z.leb_spec v 14) as [H14|H14].
    + rewrite (proj2 (Z.leb_le v 15)) by lia.
      destruct (v114 d) as [d2|] eqn:E2; [|discriminate]. cbn [bind]. intros E3.
      right; left. split; auto. eapply reordered_true; eauto.
    + cbn [bind]. destruct (Z.leb_spec v 15) as [H15|H15].
      * intros E. right; right; left. split; [lia|]. now apply reordered_false.
      * intros E. injection E as <-. right; right; right. auto.
Qed.

(** *** Well formed files convert *)

Lemma same_dict_get d w : proper (VDict d) -> proper w -> same (VDict d) w ->
  exists e, w = VDict e /\ forall k, osame (dget k d) (dget k e).
Proof.
  intros H1 H2 H. destruct (same_dict_inv _ _ H) as [e ->]. exists e. split; auto. intros k. now apply same_get_p.
Qed.
Lemma is_dict_same v w : same v w -> is_dict v -> is_dict w.
Proof. intros H [d ->]. destruct (same_dict_inv _ _ H) as [e ->]. now exists e. Qed.
Lemma osame_back o o' w : osame o o' -> o' = Some w -> exists v, o = Some v /\ same v w.
Proof. intros H ->. destruct o as [v|]; [|discriminate]. exists v. split; auto. unfold osame in H. cbn in H. now injection H. Qed.

Section Shapes.
Variables (d e : dict pyval).
Hypotheses (Hd : proper (VDict d)) (He : proper (VDict e)).
Lemma nodes_shape_same k : osame (dget k d) (dget k e) -> nodes_shape (dget k d) -> nodes_shape (dget k e).
Proof.
  intros S H v Ev. destruct (osame_back _ _ _ S Ev) as (u & Eu & Su). destruct (H u Eu) as (n & -> & Hn).
  pose proof (proper_get _ _ _ Hd Eu) as Pn. pose proof (proper_get _ _ _ He Ev) as Pv.
  destruct (same_dict_get _ _ Pn Pv Su) as (m & -> & G). exists m. split; auto. intros p x Hx.
  destruct (osame_back _ _ _ (G p) Hx) as (y & Hy & Sy). destruct (Hn p y Hy) as (f & -> & Hf).
  pose proof (proper_get _ _ _ Pn Hy) as Pf. pose proof (proper_get _ _ _ Pv Hx) as Px.
  destruct (same_dict_get _ _ Pf Px Sy) as (g & -> & G2). exists g. split; auto. intros a Ha.
  destruct (osame_back _ _ _ (G2 _) Ha) as (b & Hb & Sb). destruct (Hf b Hb) as (t & -> & Ht).
  pose proof (proper_get _ _ _ Pf Hb) as Pt. pose proof (proper_get _ _ _ Px Ha) as Pa.
  destruct (same_dict_get _ _ Pt Pa Sb) as (t' & -> & G3). exists t'. split; auto. intros k' y' Hy'.
  destruct (osame_back _ _ _ (G3 _) Hy') as (z & Hz & Sz). eapply is_dict_same; eauto.
Qed.
Lemma meta_shape_same k : osame (dget k d) (dget k e) -> meta_shape (dget k d) -> meta_shape (dget k e).
Proof.
  intros S H v Ev. destruct (osame_back _ _ _ S Ev) as (u & Eu & Su). destruct (H u Eu) as (n & -> & Hn).
  pose proof (proper_get _ _ _ Hd Eu) as Pn. pose proof (proper_get _ _ _ He Ev) as Pv.
  destruct (same_dict_get _ _ Pn Pv Su) as (m & -> & G). exists m. split; auto. intros p x Hp Hx.
  destruct (osame_back _ _ _ (G p) Hx) as (y & Hy & Sy). eapply is_dict_same; eauto.
Qed.
Lemma overs_shape_same k : osame (dget k d) (dget k e) -> overs_shape (dget k d) -> overs_shape (dget k e).
Proof.
  intros S H v Ev. destruct (osame_back _ _ _ S Ev) as (u & Eu & Su). destruct (H u Eu) as (n & -> & Hn).
  pose proof (proper_get _ _ _ Hd Eu) as Pn. pose proof (proper_get _ _ _ He Ev) as Pv.
  destruct (same_dict_get _ _ Pn Pv Su) as (m & -> & G). exists m. split; auto. intros p x Hx.
  destruct (osame_back _ _ _ (G p) Hx) as (y & Hy & Sy). eapply is_dict_same; eauto.
Qed.
End Shapes.

Definition shape (d : dict pyval) : Prop :=
  nodes_shape (dget (lit "nodes") d) /\ meta_shape (dget (lit "meta_data") d) /\
  overs_shape (dget (lit "comp_overrides") d).
Lemma nodes_dict d : nodes_shape (dget (lit "nodes") d) ->
  forall v, dget (lit "nodes") d = Some v -> exists n, v = VDict n.
Proof. intros H v Hv. destruct (H v Hv) as (n & -> & _). eauto. Qed.

Lemma fold_res_total {A B} (P : A -> Prop) (f : A -> B -> res A) l :
  (forall a x, In x l -> P a -> exists b, f a x = Ok b /\ P b) ->
  forall a, P a -> exists b, fold_res f l a = Ok b /\ P b.
Proof.
  induction l as [|x l IH]; intros H a Ha; cbn [fold_res]; [eauto|].
  destruct (H a x (or_introl eq_refl) Ha) as (b & -> & Hb). cbn [bind]. apply IH; auto. intros a' x' Hi. apply H. now right.
Qed.

Lemma order_node_total e : (forall a, dget (lit "attrs") e = Some a -> exists t, a = VDict t /\ forall k y, dget k t = Some y -> is_dict y) ->
  proper (VDict e) -> exists w, order_node_data (VDict e) = Ok w.
Proof.
  intros H Hp. unfold order_node_data. cbn [as_dict bind].
  match goal with |- exists w, bind (fold_res ?f ?l ?acc0) _ = _ =>
    destruct (fold_res_total (fun _ => True) f l) with (a := acc0) as (b & -> & _); auto end.
  2:{ cbn [bind]. eauto. }
  intros acc key _ _. destruct (dget key e) as [v|] eqn:Ev; [|eauto].
  destruct (str_eqb_spec key (lit "attrs")) as [->|]; [|eauto].
  destruct (H v Ev) as (t & -> & Ht). unfold order_attrs. cbn [as_dict bind].
  match goal with |- context [fold_res ?f ?l ?acc0] =>
    destruct (fold_res_total (fun _ => True) f l) with (a := acc0) as (b & -> & _); auto end.
  2:{ cbn [bind]. eauto. }
  intros acc' [k y] Hi _. apply (sort_in (k, y) t) in Hi.
  pose proof (proper_get _ _ _ Hp Ev) as Pt. apply In_dget in Hi; [|now apply proper_nodup].
  destruct (Ht k y Hi) as [z ->]. cbn [snd as_dict bind]. eauto.
Qed.

Lemma order_nodes_total n : proper (VDict n) ->
  (forall p x, dget p n = Some x -> exists e, x = VDict e /\
   forall a, dget (lit "attrs") e = Some a -> exists t, a = VDict t /\ forall k y, dget k t = Some y -> is_dict y) ->
  exists w, order_nodes n = Ok w.
Proof.
  intros Hp H. unfold order_nodes.
  match goal with |- context [fold_res ?f ?l ?acc0] =>
    destruct (fold_res_total (fun _ => True) f l) with (a := acc0) as (b & -> & _); eauto end.
  intros acc [p x] Hi _. apply (sort_in (p, x) n) in Hi. apply In_dget in Hi; [|now apply proper_nodup].
  destruct (H p x Hi) as (e & -> & He). cbn [fst snd].
  destruct (order_node_total e He (proper_get _ _ _ Hp Hi)) as [w ->]. cbn [bind]. eauto.
Qed.

Lemma v115_total d : proper (VDict d) -> shape d -> exists d', v115 d = Ok d'.
Proof.
  intros Hp (Hn & Hm & Ho). unfold v115, order_save_data.
  match goal with |- context [fold_res ?f ?l ?acc0] =>
    destruct (fold_res_total (fun _ => True) f l) with (a := acc0) as ([r ks] & E & _); auto end.
  2:{ rewrite E. cbn [bind]. eauto. }
  intros [r ks] key _ _. destruct (dget key _) as [v|] eqn:Ev; [|eauto].
  assert (G : exists w, order_entry key v = Ok w); [|destruct G as [w ->]; cbn [bind]; eauto].
  unfold order_entry.
  destruct (str_eqb_spec key (lit "nodes")) as [->|K1].
  { rewrite dget_dset_other in Ev by discriminate. destruct (Hn v Ev) as (n & -> & Hx). cbn [as_dict bind].
    destruct (order_nodes_total n (proper_get _ _ _ Hp Ev) Hx) as [w ->]. cbn [bind]. eauto. }
  destruct (str_eqb_spec key (lit "meta_data")) as [->|K2].
  { rewrite dget_dset_other in Ev by discriminate. destruct (Hm v Ev) as (m & -> & Hx). cbn [as_dict bind].
    unfold order_meta_data.
    match goal with |- context [fold_res ?f ?l ?acc0] =>
      destruct (fold_res_total (fun _ => True) f l) with (a := acc0) as ([r2 ks2] & E2 & _); auto end.
    2:{ rewrite E2. cbn [bind]. eauto. }
    intros [r2 ks2] key Hk _. destruct (dget key m) as [x|] eqn:Ex; [|eauto].
    destruct (Hx key x) as [z ->]; auto; [|cbn [as_dict bind]; eauto].
    clear - Hk. unfold META_KEYS in Hk. cbn [map In] in *. tauto. }
  destruct (str_eqb_spec key (lit "comp_overrides")) as [->|K3]; [|eauto].
  rewrite dget_dset_other in Ev by discriminate. destruct (Ho v Ev) as (m & -> & Hx). cbn [as_dict bind]. eauto.
Qed.

Lemma v114_shape d d' : proper (VDict d) -> rooted_file d -> v114 d = Ok d' -> shape d -> shape d'.
Proof.
  intros Hp Hr E (H1 & H2 & H3). destruct (v114_ok _ _ Hp Hr E) as (P & _ & _ & O).
  split; [|split].
  - apply (nodes_shape_same d d' Hp P); auto. apply (O (lit "nodes")). discriminate.
  - apply (meta_shape_same d d' Hp P); auto. apply (O (lit "meta_data")). discriminate.
  - apply (overs_shape_same d d' Hp P); auto. apply (O (lit "comp_overrides")). discriminate.
Qed.

Lemma sub_dict_total k d : (forall v, dget (lit k) d = Some v -> is_dict v) -> exists e, sub_dict k d = Ok e /\ e = dict_at (lit k) d.
Proof.
  intros H. unfold sub_dict, dict_at. destruct (dget (lit k) d) as [v|]; [|eauto].
  destruct (H v eq_refl) as [e ->]. eauto.
Qed.

Lemma update_refs_total d : NoDup (dkeys d) -> shape d -> old_refs_shape (dget (lit "references") d) ->
  exists d', update_refs d = Ok d' /\ shape d'.
Proof.
  intros Hn (Sn & Sm & So) Sr. unfold update_refs.
  destruct (dget (lit "references") d) as [v|] eqn:Er; [|exists d; split; auto; split; auto].
  destruct (truthy v); cbn [negb]; [|exists d; split; auto; split; auto].
  destruct (Sr v eq_refl) as (l & -> & Hl).
  assert (O : forall k, k <> lit "references" -> dget k (ddel (lit "references") d) = dget k d)
    by (intros k Hk; now rewrite dget_ddel_other by auto).
  set (d0 := ddel (lit "references") d) in *. clearbody d0.
  rewrite <- (O (lit "nodes")) in Sn by discriminate. rewrite <- (O (lit "meta_data")) in Sm by discriminate.
  rewrite <- (O (lit "comp_overrides")) in So by discriminate.
  destruct (sub_dict_total "meta_data" d0) as (meta & -> & Em).
  { intros w Hw. destruct (Sm w Hw) as (m & -> & _). now exists m. }
  destruct (sub_dict_total "comp_overrides" d0) as (overs & -> & Eo).
  { intros w Hw. destruct (So w Hw) as (m & -> & _). now exists m. }
  cbn [bind].
  assert (Mk : forall k x, In k (map lit ["aliases"; "colors"; "positions"; "collapse"; "position_data"; "collapse_data"]%string) ->
     dget k meta = Some x -> is_dict x).
  { intros k x Hk Hx. subst meta. unfold dict_at in Hx. destruct (dget (lit "meta_data") d0) as [w|] eqn:Ew; [|discriminate].
    destruct (Sm w eq_refl) as (m & -> & Hm). eapply Hm; eauto. }
  assert (Ok' : forall k x, dget k overs = Some x -> is_dict x).
  { intros k x Hx. subst overs. unfold dict_at in Hx. destruct (dget (lit "comp_overrides") d0) as [w|] eqn:Ew; [|discriminate].
    destruct (So w eq_refl) as (m & -> & Hm). eapply Hm; eauto. }
  destruct (sub_dict_total "aliases" meta) as (al & -> & _).
  { intros w Hw. eapply Mk; eauto. cbn [map In]. tauto. }
  destruct (sub_dict_total "colors" meta) as (co & -> & _).
  { intros w Hw. eapply Mk; eauto. cbn [map In]. tauto. }
  cbn [bind].
  set (Inv := fun st : refs_state => let '(_, ov, _, _) := st in forall k x, dget k ov = Some x -> is_dict x).
  destruct (fold_res_total Inv ref_step l) with (a := (@nil pystr, overs, al, co)) as (st & -> & Hst); auto.
  { intros [[[rs ov] a] c] r Hr Hi. destruct (Hl r Hr) as (rd & -> & Hrd). unfold ref_step.
    destruct (dget (lit "path") rd) as [x|] eqn:Ex; [|eexists; split; eauto].
    destruct (Hrd x eq_refl) as [s ->]. destruct s as [|ch s]; [eexists; split; eauto|].
    assert (G : exists rdat, match dget (ch :: s) ov with None => Ok [] | Some (VDict v) => Ok v | Some _ => Raise TypeError end = Ok rdat).
    { destruct (dget (ch :: s) ov) as [y|] eqn:Ey; [|eauto]. destruct (Hi _ _ Ey) as [z ->]. eauto. }
    destruct G as [rdat ->]. cbn [bind]. eexists. split; [reflexivity|]. unfold Inv.
    destruct (set_opt (lit "solo") _ _) as [|kv t]; auto. intros k x Hx. rewrite dget_dset in Hx.
    destruct (str_eqb (ch :: s) k); [injection Hx as <-; now eexists|]. eapply Hi; eauto. }
  cbn [bind]. destruct st as [[[rs ov] a] c]. unfold Inv in Hst. clear Inv.
  destruct rs as [|r rs]; [exists d0; split; auto; split; auto|].
  eexists. split; [reflexivity|].
  assert (G : forall k e f, ~ (k = lit e) -> forall b, dget k (set_nonempty e f b) = dget k b).
  { intros k e f H b. unfold set_nonempty. destruct f; auto. now rewrite dget_dset_other by auto. }
  assert (G2 : forall e f b, dget (lit e) (set_nonempty e f b) = match f with [] => dget (lit e) b | _ => Some (VDict f) end).
  { intros e f b. unfold set_nonempty. destruct f; auto. apply dget_dset_same. }
  split; [|split].
  - rewrite !G, dget_dset_other by discriminate. exact Sn.
  - rewrite G2.
    assert (Q : forall m, (forall k x, In k (map lit ["aliases"; "colors"; "positions"; "collapse"; "position_data"; "collapse_data"]%string) ->
     dget k m = Some x -> is_dict x) -> meta_shape (match m with [] => dget (lit "meta_data") (set_nonempty "comp_overrides" ov
             (dset (lit "references") (VList (map VStr (r :: rs))) d0)) | _ :: _ => Some (VDict m) end)).
    { intros m Hm. destruct m as [|kv m].
      - rewrite G, dget_dset_other by discriminate. exact Sm.
      - intros w Hw. injection Hw as <-. eexists. split; [reflexivity|]. exact Hm. }
    apply Q. intros k x Hk Hx. revert Hx. unfold set_nonempty.
    destruct a as [|a0 a], c as [|c0 c]; rewrite ?dget_dset; intros Hx;
      repeat match type of Hx with context [if ?b then _ else _] => destruct b; [injection Hx as <-; now eexists|] end;
      eapply Mk; eauto.
  - rewrite G, G2 by discriminate. destruct ov as [|o ov].
    + rewrite dget_dset_other by discriminate. exact So.
    + intros w Hw. injection Hw as <-. eexists. split; [reflexivity|]. exact Hst.
Qed.

Lemma update_meta_total d : NoDup (dkeys d) -> proper (VDict d) -> shape d -> exists d', update_meta_data d = Ok d' /\ shape d'.
Proof.
  intros Hn Hp (Sn & Sm & So). unfold update_meta_data.
  destruct (dget (lit "meta_data") d) as [v|] eqn:E; [|exists d; split; auto; split; auto; rewrite E; auto].
  destruct (Sm v eq_refl) as (m & -> & Hm).
  destruct (truthy (VDict m)); cbn [negb]; [|exists d; split; auto; split; auto; rewrite E; auto].
  eexists. split; [reflexivity|]. pose proof (proper_get _ _ _ Hp E) as Pm. split; [|split].
  - now rewrite dget_dset_other by discriminate.
  - rewrite dget_dset_same. intros w Hw. injection Hw as <-. eexists. split; [reflexivity|].
    assert (R : forall o n m, In (lit o) (map lit ["aliases"; "colors"; "positions"; "collapse"; "position_data"; "collapse_data"]%string) ->
       proper (VDict m) ->
       (forall k x, In k (map lit ["aliases"; "colors"; "positions"; "collapse"; "position_data"; "collapse_data"]%string) ->
          dget k m = Some x -> is_dict x) ->
       (forall k x, In k (map lit ["aliases"; "colors"; "positions"; "collapse"; "position_data"; "collapse_data"]%string) ->
          dget k (rename_key o n m) = Some x -> is_dict x)).
    { clear. intros o n m Ho Pm H k x Hk Hx. rewrite rename_key_get in Hx by now apply proper_nodup.
      unfold renamed in Hx. destruct (dget (lit o) m) as [v|] eqn:Ev; [|eauto].
      destruct (truthy v); [|eauto]. destruct (str_eqb k (lit n)); [injection Hx as <-; eauto|].
      destruct (str_eqb k (lit o)); [discriminate|eauto]. }
    apply R; [cbn [map In]; tauto|now apply rename_key_proper|]. apply R; auto. cbn [map In]; tauto.
  - now rewrite dget_dset_other by discriminate.
Qed.

Lemma v109_total d : proper (VDict d) -> rooted_file d -> shape d -> old_refs_shape (dget (lit "references") d) ->
  exists d', v109 d = Ok d' /\ shape d'.
Proof.
  intros Hp Hr Hs Sr. unfold v109. pose proof (proper_nodup _ Hp) as Hn.
  destruct (update_refs_total d Hn Hs Sr) as (d1 & E1 & S1). rewrite E1. cbn [bind].
  destruct (update_refs_ok _ _ Hp E1) as [P1 (_ & _ & _ & _ & _ & A6 & _)].
  destruct (update_meta_total d1 (proper_nodup _ P1) P1 S1) as (d2 & E2 & S2). rewrite E2. cbn [bind].
  destruct (update_meta_ok _ _ P1 E2) as (P2 & B1 & _).
  assert (R2 : rooted_file d2).
  { intros n. rewrite B1 by discriminate. rewrite A6 by discriminate. apply Hr. }
  destruct (arrange_total d2) as [d3 E3]; [apply nodes_dict; apply S2|]. rewrite E3. cbn [bind].
  eexists. split; [reflexivity|].
  destruct (arrange_same _ _ P2 R2 E3) as [P3 S3].
  destruct (deep_order_same V109_KEYS d3 P3) as [P4 S4]. pose proof (same_trans _ _ _ S3 S4) as S.
  destruct S2 as (X1 & X2 & X3). split; [|split].
  - apply (nodes_shape_same d2 _ P2 P4); auto. now apply same_get_p.
  - apply (meta_shape_same d2 _ P2 P4); auto. now apply same_get_p.
  - apply (overs_shape_same d2 _ P2 P4); auto. now apply same_get_p.
Qed.

Lemma chain_total v d : proper (VDict d) -> rooted_file d -> file_shape v d -> exists d', chain v d = Ok d'.
Proof.
  intros Hp Hr (Sn & Sm & So & Sr). assert (Hs : shape d) by (split; auto).
  assert (T : forall d, proper (VDict d) -> rooted_file d -> shape d ->
     exists d', bind (if Z.leb v 14 then v114 d else Ok d) (fun d => if Z.leb v 15 then v115 d else Ok d) = Ok d').
  { clear. intros d Hp Hr Hs.
    assert (T : forall d, proper (VDict d) -> shape d -> exists d', (if Z.leb v 15 then v115 d else Ok d) = Ok d').
    { intros d0 Hp0 Hs0. destruct (Z.leb v 15); [now apply v115_total|eauto]. }
    destruct (Z.leb v 14); cbn [bind]; auto.
    destruct (v114_total d) as [d1 E1]; [apply nodes_dict; apply Hs|now apply proper_nodup|].
    rewrite E1. cbn [bind]. destruct (v114_ok _ _ Hp Hr E1) as (P1 & _). apply T; auto. exact (v114_shape d d1 Hp Hr E1 Hs). }
  unfold chain. destruct (Z.leb_spec v 9) as [H9|H9]; cbn [bind]; [|now apply T].
  destruct (v109_total d Hp Hr Hs (Sr H9)) as (d1 & E1 & S1). rewrite E1. cbn [bind].
  destruct (v109_ok _ _ Hp Hr E1) as (P1 & R1 & _). now apply T.
Qed.
