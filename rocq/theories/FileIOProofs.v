(** Proofs about opening files. *)

From Coq Require Import String List NArith ZArith Bool Lia.
From Verif Require Import PyStr PyStrFacts Dict DictFacts PyVal PyValFacts Legacy FileIO LegacySpec LegacyProofs.
From Verif Require Import LegacyProofs2 LegacyProofs3 LegacyProofs4.
Import ListNotations.

(** *** Numbers *)

Lemma split_two s a b r : split DOT s = a :: b :: r ->
  exists t, s = a ++ dot :: b ++ t /\ (t = [] \/ exists t', t = dot :: t') /\ ~ In dot a /\ ~ In dot b.
Proof.
  intros E. pose proof (split_forall_no_sep DOT s) as F. rewrite E in F.
  inversion F as [|? ? Ha F']; subst. inversion F' as [|? ? Hb F'']; subst.
  pose proof (join_split DOT s) as J. rewrite E in J.
  exists (match r with [] => [] | _ => dot :: join [dot] r end).
  split; [|split; [destruct r; eauto|auto]].
  rewrite <- J. destruct r as [|c r].
  - cbn [join]. now rewrite app_nil_r.
  - rewrite !join_cons by discriminate. reflexivity.
Qed.
Lemma two_ints_ok s x y : two_ints s = Ok (x, y) <-> two_numbers py_int s x y.
Proof.
  unfold two_ints. split.
  - destruct (split DOT s) as [|a [|b r]] eqn:E; try discriminate.
    destruct (py_int a) as [x'|] eqn:Ea; [|discriminate]. destruct (py_int b) as [y'|] eqn:Eb; [|discriminate].
    intros H. injection H as <- <-. destruct (split_two _ _ _ _ E) as (t & -> & Ht & Ha & Hb).
    exists a, b, t. auto 10.
  - intros (a & b & r & -> & Hr & Ha & Hb & Hx & Hy). change dot with DOT in *.
    rewrite split_cons by auto. destruct Hr as [->|[r' ->]].
    + rewrite app_nil_r, split_no_sep by auto. now rewrite Hx, Hy.
    + rewrite split_cons by auto. now rewrite Hx, Hy.
Qed.
Lemma two_ints_raise s e : two_ints s = Raise e -> forall x y, ~ two_numbers py_int s x y.
Proof. intros H x y G. apply two_ints_ok in G. congruence. Qed.
Lemma two_ints_dec s : (exists x y, two_ints s = Ok (x, y)) \/ two_ints s = Raise ValueError.
Proof.
  unfold two_ints. destruct (split DOT s) as [|a [|b r]]; auto.
  destruct (py_int a); auto. destruct (py_int b); eauto.
Qed.

(** What Python's [int] makes of decimal digits. *)
Lemma digit_of d : (0 <= d <= 9)%Z -> digit (Z.to_N (48 + d)) = Some d.
Proof.
  intros H. unfold digit. rewrite (proj2 (N.leb_le 48 _)), (proj2 (N.leb_le _ 57)) by lia. cbn [andb]. f_equal. lia.
Qed.
Lemma digits_value ds : Forall (fun d => (0 <= d <= 9)%Z) ds -> forall acc,
  digits (map (fun d => Z.to_N (48 + d)) ds) acc false = Some (fold_left (fun a d => (a * 10 + d)%Z) ds acc).
Proof.
  induction 1 as [|d ds Hd _ IH]; intros acc; cbn [map digits fold_left]; auto. now rewrite digit_of, IH.
Qed.
Lemma lstrip_digits c s : is_blank c = false -> lstrip (c :: s) = c :: s.
Proof. intros H. cbn. now rewrite H. Qed.
Lemma strip_digits ds : Forall (fun d => (0 <= d <= 9)%Z) ds ->
  strip (map (fun d => Z.to_N (48 + d)) ds) = map (fun d => Z.to_N (48 + d)) ds.
Proof.
  intros F. unfold strip.
  assert (L : forall l, Forall (fun c => is_blank c = false) l -> lstrip l = l).
  { intros [|c l] H; auto. inversion H; subst. now apply lstrip_digits. }
  assert (B : Forall (fun c => is_blank c = false) (map (fun d => Z.to_N (48 + d)) ds)).
  { apply Forall_map. eapply Forall_impl; [|exact F]. intros d Hd. cbv beta in *. unfold is_blank.
    rewrite (proj2 (N.eqb_neq _ 32)), (proj2 (N.leb_gt _ 13)) by lia. cbn. apply andb_false_r. }
  rewrite (L _ B). rewrite L; [apply rev_involutive|]. apply Forall_forall. intros c Hc. apply in_rev in Hc.
  rewrite Forall_forall in B. auto.
Qed.
Lemma py_int_decimal ds : ds <> [] -> Forall (fun d => (0 <= d <= 9)%Z) ds ->
  py_int (map (fun d => Z.to_N (48 + d)) ds) = Some (fold_left (fun a d => (a * 10 + d)%Z) ds 0%Z).
Proof.
  intros Hn F. unfold py_int. rewrite strip_digits by auto. destruct ds as [|d ds]; [congruence|].
  inversion F as [|? ? Hd F']; subst. cbn [map].
  rewrite (proj2 (N.eqb_neq _ 45)), (proj2 (N.eqb_neq _ 43)) by lia.
  unfold digits1. rewrite digit_of by auto. rewrite digits_value by auto. reflexivity.
Qed.

(** *** The gate *)

Lemma gate_ok d : let r := version_gate d in
  (forall s x y, said d s -> two_numbers py_int s x y -> newer x y -> r = Refuse IOError) /\
  (forall s x y, said d s -> two_numbers py_int s x y -> ~ newer x y -> (x = 0 \/ y < 17)%Z -> r = Convert) /\
  (forall s x y, said d s -> two_numbers py_int s x y -> ~ newer x y -> ~ (x = 0 \/ y < 17)%Z -> r = AsIs) /\
  ((~ exists s x y, said d s /\ two_numbers py_int s x y) -> exists e, r = Refuse e).
Proof.
  cbn zeta. unfold version_gate.
  assert (Sd : forall s, said d s <->
     (let fv := dget_def (lit "version") VNone d in (if truthy fv then fv else VStr (lit "1.17")) = VStr s)).
  { intros s. cbn zeta. unfold said, dget_def. destruct (dget (lit "version") d) as [v|]; split.
    - intros [(w & E & T & ->)|[[E|(w & E & T)] ->]]; try discriminate; injection E as ->; now rewrite T.
    - destruct (truthy v) eqn:T; intros H.
      + left. exists v. auto.
      + right. injection H as <-. split; eauto.
    - intros [(w & E & T & ->)|[_ ->]]; [discriminate|reflexivity].
    - cbn. intros H. injection H as <-. right. auto. }
  cbn zeta in Sd. set (fv := dget_def (lit "version") VNone d) in *.
  destruct (if truthy fv then fv else VStr (lit "1.17")) as [| | |s| | | |] eqn:Ef;
    try (split; [intros s' x y H; apply Sd in H; discriminate|split; [intros s' x y H; apply Sd in H; discriminate|
         split; [intros s' x y H; apply Sd in H; discriminate|intros _; try (destruct (existsb _ _)); eauto]]]).
  assert (Z0 : count_char DOT s = 0 -> two_ints s = Raise ValueError).
  { intros H. apply count_char_zero in H. unfold two_ints. now rewrite split_no_sep. }
  destruct (Nat.eqb_spec (count_char DOT s) 0) as [Hz|Hz].
  - specialize (Z0 Hz).
    assert (No : forall s' x y, said d s' -> ~ two_numbers py_int s' x y).
    { intros s' x y H. apply Sd in H. injection H as <-. now apply (two_ints_raise s ValueError). }
    split; [intros s' x y H G; now elim (No s' x y H)|]. split; [intros s' x y H G; now elim (No s' x y H)|].
    split; [intros s' x y H G; now elim (No s' x y H)|]. eauto.
  - destruct (two_ints_dec s) as [(x & y & E)|E]; rewrite E.
    + assert (U : forall s' x' y', said d s' -> two_numbers py_int s' x' y' -> x' = x /\ y' = y).
      { intros s' x' y' H G. apply Sd in H. injection H as <-. apply two_ints_ok in G. rewrite E in G. injection G as <- <-. auto. }
      assert (Nw : (Z.ltb GRAPH_MAJOR x || (Z.eqb x GRAPH_MAJOR && Z.ltb GRAPH_MINOR y)) = true <-> newer x y).
      { unfold newer, GRAPH_MAJOR, GRAPH_MINOR. rewrite orb_true_iff, andb_true_iff, !Z.ltb_lt, Z.eqb_eq. lia. }
      assert (Ol : (Z.eqb x 0 || Z.ltb y GRAPH_MINOR) = true <-> (x = 0 \/ y < 17)%Z).
      { unfold GRAPH_MINOR. rewrite orb_true_iff, Z.ltb_lt, Z.eqb_eq. lia. }
      split; [|split; [|split]].
      * intros s' x' y' H G. destruct (U _ _ _ H G) as [-> ->]. intros Hn. apply Nw in Hn. now rewrite Hn.
      * intros s' x' y' H G. destruct (U _ _ _ H G) as [-> ->]. intros Hn Ho. rewrite <- Nw in Hn. apply not_true_is_false in Hn.
        rewrite Hn. apply Ol in Ho. now rewrite Ho.
      * intros s' x' y' H G. destruct (U _ _ _ H G) as [-> ->]. intros Hn Ho. rewrite <- Nw in Hn. apply not_true_is_false in Hn.
        rewrite Hn. rewrite <- Ol in Ho. apply not_true_is_false in Ho. now rewrite Ho.
      * intros Hx. elim Hx. exists s, x, y. split; [now apply Sd|now apply two_ints_ok].
    + assert (No : forall s' x y, said d s' -> ~ two_numbers py_int s' x y).
      { intros s' x y H. apply Sd in H. injection H as <-. now apply (two_ints_raise s ValueError). }
      split; [intros s' x y H G; now elim (No s' x y H)|]. split; [intros s' x y H G; now elim (No s' x y H)|].
      split; [intros s' x y H G; now elim (No s' x y H)|]. eauto.
Qed.

(** *** File names *)

Lemma base_name_last dir b : (dir = [] \/ exists e, dir = e ++ [slash]) -> ~ In slash b -> base_name (dir ++ b) = b.
Proof.
  intros [->|[e ->]] H; unfold base_name; change (lit "/") with [slash].
  - cbn [app]. now rewrite rpartition_char_none.
  - rewrite <- app_assoc. cbn [app]. now rewrite rpartition_char_found.
Qed.
Lemma base_name_inv p : exists dir, p = dir ++ base_name p /\ (dir = [] \/ exists e, dir = e ++ [slash]) /\ ~ In slash (base_name p).
Proof.
  destruct (in_dec N.eq_dec slash p) as [Hi|Hn].
  - destruct (last_slash p Hi) as (a & b & -> & Hb). exists (a ++ [slash]). change (a ++ slash :: b) with (a ++ ([slash] ++ b)).
    rewrite app_assoc. rewrite base_name_last by eauto. eauto.
  - exists []. cbn [app]. unfold base_name. change (lit "/") with [slash]. rewrite rpartition_char_none by auto. auto.
Qed.
Lemma only_dots_false s : only_dots s = false <-> exists c, In c s /\ c <> dot.
Proof.
  induction s as [|c s IH]; cbn [only_dots].
  - split; [discriminate|intros (c & [] & _)].
  - change DOT with dot. destruct (N.eqb_spec c dot) as [->|H]; cbn [andb].
    + rewrite IH. split; intros (x & Hx & Hd); exists x; split; auto; [now right|]. destruct Hx as [<-|Hx]; auto. congruence.
    + split; auto. intros _. exists c. split; auto. now left.
Qed.
Lemma last_dot (p : pystr) : In dot p -> exists par name, p = par ++ dot :: name /\ ~ In dot name.
Proof.
  induction p as [|c p IH]; intros H; [destruct H|].
  destruct (in_dec N.eq_dec dot p) as [Hi|Hn].
  - destruct (IH Hi) as (par & name & -> & H'). exists (c :: par), name. auto.
  - destruct H as [->|H]; [|contradiction]. exists [], p. auto.
Qed.
Lemma rp_dot b x : ~ In dot x -> rpartition_opt [DOT] (b ++ dot :: x) = Some (b, x).
Proof.
  intros H. pose proof (rpartition_char_found DOT b x H) as G. unfold rpartition in G. change dot with DOT.
  destruct (rpartition_opt [DOT] (b ++ DOT :: x)) as [[u v]|]; [|discriminate]. now injection G as -> ->.
Qed.
Lemma splitext_ext dir b x : (dir = [] \/ exists e, dir = e ++ [slash]) -> ~ In slash b -> ~ In slash x -> ~ In dot x ->
  (exists c, In c b /\ c <> dot) -> splitext (dir ++ b ++ dot :: x) = (dir ++ b, dot :: x).
Proof.
  intros Hd Hb Hx Hdx Hc. unfold splitext. rewrite base_name_last; auto.
  2:{ rewrite in_app_iff. intros [H|[H|H]]; auto. discriminate. }
  rewrite rp_dot by auto. apply only_dots_false in Hc. rewrite Hc. f_equal.
  rewrite app_assoc. rewrite app_length. cbn [Datatypes.length].
  replace (length (dir ++ b) + S (length x) - length x - 1) with (length (dir ++ b) + 0) by lia.
  rewrite firstn_app_2. now rewrite firstn_O, app_nil_r.
Qed.
Lemma known_ext_ok p : known_ext (snd (splitext p)) = true <-> has_ext p ".nxt" \/ has_ext p ".nxtb".
Proof.
  assert (L1 : lit ".nxt" = dot :: lit "nxt") by reflexivity. assert (L2 : lit ".nxtb" = dot :: lit "nxtb") by reflexivity.
  split.
  - intros H. destruct (base_name_inv p) as (dir & E & Hd & Hn). unfold splitext in H.
    destruct (rpartition_opt [DOT] (base_name p)) as [[stem ext]|] eqn:R; [|discriminate].
    destruct (only_dots stem) eqn:O; [discriminate|]. apply only_dots_false in O. cbn [snd] in H.
    apply rpartition_opt_some in R as [R _]. 
    assert (Hs : ~ In slash stem) by (intros Hi; apply Hn; rewrite R; apply in_app_iff; auto).
    apply str_in_In in H. destruct H as [H|[H|[]]]; [left|right]; unfold has_ext; exists dir, stem; (split; [|auto]); rewrite E, R;
      cbn [app]; change DOT with dot; [change (dot :: ext) with (DOT :: ext); rewrite <- H|change (dot :: ext) with (DOT :: ext); rewrite <- H]; reflexivity.
  - intros [(dir & b & -> & Hd & Hs & Hc)|(dir & b & -> & Hd & Hs & Hc)].
    + rewrite L1, splitext_ext; auto; cbn; intuition discriminate.
    + rewrite L2, splitext_ext; auto; cbn; intuition discriminate.
Qed.

Lemma dset_keys {V} k (v : V) d : exists r, dkeys (dset k v d) = dkeys d ++ r.
Proof.
  destruct (in_dec (list_eq_dec N.eq_dec) k (dkeys d)) as [H|H].
  - exists []. rewrite app_nil_r. now apply dkeys_dset_in.
  - exists [k]. now apply dkeys_dset_new.
Qed.
Lemma stamp_ok fp rp d : stamped fp rp d (stamp fp rp d).
Proof.
  unfold stamp, stamped. set (d1 := dset (lit "real_path") (VStr rp) (dset (lit "filepath") (VStr fp) d)).
  assert (O : forall k, k <> lit "filepath" -> k <> lit "real_path" -> dget k d1 = dget k d)
    by (intros k H1 H2; unfold d1; now rewrite !dget_dset_other by auto).
  split; [rewrite dget_dset_other by discriminate; unfold d1; rewrite dget_dset_other by discriminate; apply dget_dset_same|].
  split; [rewrite dget_dset_other by discriminate; unfold d1; apply dget_dset_same|].
  rewrite dget_dset_same. unfold dget_def. rewrite O by discriminate.
  split; [intros v ->; reflexivity|].
  split. { intros ->. eexists. split; [reflexivity|]. intros dir b x -> Hd Hx Hs Hc.
    assert (X : exists y, lit x = dot :: y /\ ~ In slash y /\ ~ In dot y).
    { destruct Hx as [<-|[<-|[]]]; eexists; (split; [reflexivity|]); cbn; intuition discriminate. }
    destruct X as (y & -> & Y1 & Y2). rewrite base_name_last; auto.
    2:{ rewrite in_app_iff. intros [H|[H|H]]; auto. discriminate. }
    pose proof (splitext_ext [] b y (or_introl eq_refl) Hs Y1 Y2 Hc) as G. cbn [app] in G. rewrite G. reflexivity. }
  split. { intros k Hk. cbn [map In] in Hk. rewrite dget_dset_other by (intros <-; apply Hk; tauto).
           apply O; intros ->; apply Hk; tauto. }
  destruct (dset_keys (lit "name") (match dget (lit "name") d with Some v => v | None => VStr (fst (splitext (base_name fp))) end) d1) as [r1 H1].
  unfold d1 in H1 at 2. destruct (dset_keys (lit "real_path") (VStr rp) (dset (lit "filepath") (VStr fp) d)) as [r2 H2].
  destruct (dset_keys (lit "filepath") (VStr fp) d) as [r3 H3]. rewrite H2, H3 in H1.
  exists ((r3 ++ r2) ++ r1). unfold dkeys in *. rewrite H1. now rewrite <- !app_assoc.
Qed.

Section LoadProofs.
Variables (full_expand : pystr -> pystr) (expanders : list (pystr -> pystr)) (isfile : pystr -> bool)
          (read : pystr -> res (dict pyval)).
Notation load := (load_file_data full_expand expanders isfile read).
Notation real := (find_real_path full_expand expanders isfile).

Lemma real_path_ok fp :
  (forall ps e qs, expanders = ps ++ e :: qs -> isfile (e fp) = true -> (forall e', In e' ps -> isfile (e' fp) = false) ->
     real fp = e fp) /\
  ((forall e, In e expanders -> isfile (e fp) = false) -> real fp = full_expand fp).
Proof.
  unfold find_real_path. split.
  - intros ps e qs -> He. induction ps as [|p ps IH]; intros Hp; cbn; [now rewrite He|].
    rewrite (Hp p) by now left. apply IH. intros e' H. apply Hp. now right.
  - intros H. induction expanders as [|e es IH]; cbn; auto. rewrite (H e) by now left. apply IH.
    intros e' He. apply H. now right.
Qed.

Lemma load_unknown fuel fp : ~ has_ext (real fp) ".nxt" -> ~ has_ext (real fp) ".nxtb" -> load fuel fp = Some (Raise IOError).
Proof.
  intros H1 H2. unfold load_file_data. destruct (known_ext _) eqn:E; auto.
  apply known_ext_ok in E as [?|?]; contradiction.
Qed.
Lemma load_eq fuel fp data : has_ext (real fp) ".nxt" \/ has_ext (real fp) ".nxtb" -> read (real fp) = Ok data ->
  load fuel fp = match version_gate data with
      | Refuse e => Some (Raise e)
      | AsIs => Some (Ok (stamp fp (real fp) data))
      | Convert =>
          match convert_file fuel data with
          | None => None
          | Some (Raise e) => Some (Raise e)
          | Some (Ok d) => Some (Ok (stamp fp (real fp) d))
          end
      end.
Proof. intros H R. unfold load_file_data. apply known_ext_ok in H. rewrite H. cbn [negb]. now rewrite R. Qed.
End LoadProofs.

(** *** Converting *)

Lemma version_minor d s x y : dget (lit "version") d = Some (VStr s) -> two_numbers py_int s x y ->
  determine_version d = if Z.eqb x 0 then if Z.leb 39 y then Ok Pre else Raise IOError else Ok (Minor y).
Proof.
  intros Hv Ht. apply two_ints_ok in Ht. unfold determine_version, dget_def. rewrite Hv, Ht. reflexivity.
Qed.

Lemma convert_chain d s x y fuel : dget (lit "version") d = Some (VStr s) -> two_numbers py_int s x y ->
  x <> 0%Z -> (y <= 17)%Z -> Z.to_nat (17 - y) < fuel -> convert_file fuel d = Some (chain y d).
Proof.
  intros Hv Ht Hx Hy Hf. unfold convert_file. rewrite (version_minor d s x y Hv Ht), (proj2 (Z.eqb_neq x 0)) by auto.
  eapply steps_chain; eauto.
Qed.
Lemma convert_pre d s y fuel : dget (lit "version") d = Some (VStr s) -> two_numbers py_int s 0 y ->
  (39 <= y)%Z -> 17 < fuel -> proper (VDict d) -> rooted_file d ->
  convert_file fuel d = Some (bind (v1 d) (chain 0)).
Proof.
  intros Hv Ht Hy Hf Hp Hr. unfold convert_file. rewrite (version_minor d s 0 y Hv Ht), (proj2 (Z.leb_le 39 y)) by auto.
  cbn [Z.eqb]. destruct (v1 d) as [d1|] eqn:E; cbn [bind]; auto.
  destruct (v1_ok _ _ Hp Hr E) as (_ & _ & U & _).
  assert (T : two_numbers py_int (lit "1.0.0") 1 0) by (apply two_ints_ok; reflexivity).
  rewrite (version_minor _ _ _ _ U T). cbn [Z.eqb]. eapply steps_chain; [reflexivity|lia|cbn; lia].
Qed.
Lemma convert_too_old d s y fuel : dget (lit "version") d = Some (VStr s) -> two_numbers py_int s 0 y ->
  (y < 39)%Z -> convert_file fuel d = Some (Raise IOError).
Proof.
  intros Hv Ht Hy. unfold convert_file. rewrite (version_minor d s 0 y Hv Ht), (proj2 (Z.leb_gt 39 y)) by auto. reflexivity.
Qed.
Lemma convert_endless d s x y fuel : dget (lit "version") d = Some (VStr s) -> two_numbers py_int s x y ->
  x <> 0%Z -> (y > 17)%Z -> convert_file fuel d = None.
Proof.
  intros Hv Ht Hx Hy. unfold convert_file. rewrite (version_minor d s x y Hv Ht), (proj2 (Z.eqb_neq x 0)) by auto.
  now apply steps_endless.
Qed.

Lemma deep_get ks d k : dget k (deep_order_data ks d) = option_map (deep_val ks) (dget k d).
Proof.
  unfold deep_order_data. rewrite deep_dict. rewrite reorder_get. apply dget_map_vals.
Qed.
Lemma v1_version d d' : v1 d = Ok d' -> dget (lit "version") d' = Some (VStr (lit "1.0.0")).
Proof.
  unfold v1. destruct (unpack_children d) as [d1|]; [|discriminate]. cbn [bind].
  set (d2 := match dget (lit "data") _ with Some _ => _ | None => _ end).
  assert (V : dget (lit "version") d2 = Some (VStr (lit "1.0.0"))).
  { unfold d2. destruct (dget (lit "data") _); [|apply dget_dset_same].
    rewrite dget_dset_other by discriminate. rewrite dget_ddel_other by discriminate. apply dget_dset_same. }
  clearbody d2. destruct (arrange_node_data d2) as [d3|] eqn:E3; [|discriminate]. cbn [bind].
  destruct (drop_nodes d3) as [d4|] eqn:E4; [|discriminate]. cbn [bind]. intros H. injection H as <-.
  rewrite deep_get.
  assert (V3 : dget (lit "version") d3 = Some (VStr (lit "1.0.0"))).
  { unfold arrange_node_data in E3. destruct (nodes_of d2) as [[n|]|]; try discriminate; cbn [bind] in E3; injection E3 as <-; auto.
    now rewrite dget_dset_other by discriminate. }
  assert (V4 : dget (lit "version") d4 = Some (VStr (lit "1.0.0"))).
  { unfold drop_nodes in E4. destruct (nodes_of d3) as [[n|]|]; try discriminate; cbn [bind] in E4; injection E4 as <-; auto.
    now rewrite dget_dset_other by discriminate. }
  now rewrite V4.
Qed.
Lemma convert_pre_any d s y fuel : dget (lit "version") d = Some (VStr s) -> two_numbers py_int s 0 y ->
  (39 <= y)%Z -> 17 < fuel -> convert_file fuel d = Some (bind (v1 d) (chain 0)).
Proof.
  intros Hv Ht Hy Hf. unfold convert_file. rewrite (version_minor d s 0 y Hv Ht), (proj2 (Z.leb_le 39 y)) by auto.
  cbn [Z.eqb]. destruct (v1 d) as [d1|] eqn:E; cbn [bind]; auto. pose proof (v1_version _ _ E) as U.
  assert (T : two_numbers py_int (lit "1.0.0") 1 0) by (apply two_ints_ok; reflexivity).
  rewrite (version_minor _ _ _ _ U T). cbn [Z.eqb]. eapply steps_chain; [reflexivity|lia|cbn; lia].
Qed.

Lemma convert_ends d : match dget (lit "version") d with
    | Some (VStr s) => forall x y, two_numbers py_int s x y -> x = 0%Z \/ (y <= 17)%Z
    | _ => True end ->
  exists r fuel, forall more, convert_file (fuel + more) d = Some r.
Proof.
  intros H. destruct (dget (lit "version") d) as [v|] eqn:Ev.
  - destruct v as [| | |s| | | |];
      try (eexists; exists 0; intros more; unfold convert_file, determine_version, dget_def; rewrite Ev; reflexivity).
    destruct (two_ints_dec s) as [(x & y & E)|E].
    + apply two_ints_ok in E. destruct (Z.eq_dec x 0) as [->|Hx].
      * destruct (Z_le_gt_dec 39 y) as [H39|H39].
        -- eexists. exists 18. intros more. eapply convert_pre_any; eauto. lia.
        -- eexists. exists 0. intros more. eapply convert_too_old; eauto. lia.
      * destruct (H _ _ E) as [?|Hy]; [contradiction|].
        eexists. exists (S (Z.to_nat (17 - y))). intros more. eapply convert_chain; eauto. lia.
    + eexists; exists 0; intros more; unfold convert_file, determine_version, dget_def; rewrite Ev, E; reflexivity.
  - (* no version: taken to be 0.45 *)
    exists (bind (v1 d) (chain 0)), 18. intros more. unfold convert_file, determine_version, dget_def. rewrite Ev.
    change (two_ints (lit "0.45.0")) with (@Ok (Z * Z) (0, 45)%Z). cbn [bind Z.eqb Z.leb Z.compare Pos.compare Pos.compare_cont].
    destruct (v1 d) as [d1|] eqn:E; cbn [bind]; auto. pose proof (v1_version _ _ E) as U.
    rewrite U. change (two_ints (lit "1.0.0")) with (@Ok (Z * Z) (1, 0)%Z). cbn [bind Z.eqb].
    eapply steps_chain; [reflexivity|lia|cbn; lia].
Qed.

Lemma save_path_ok p : (has_ext p ".nxt" \/ has_ext p ".nxtb" -> save_path p = Ok p) /\
  (~ has_ext p ".nxt" -> ~ has_ext p ".nxtb" -> save_path p = Raise TypeError).
Proof.
  unfold save_path. split.
  - intros H. pose proof H as K. apply known_ext_ok in K. rewrite K.
    assert (E : endswith (snd (splitext p)) p = true); [|now rewrite E].
    assert (G : forall dir b x, p = dir ++ b ++ dot :: x -> (dir = [] \/ exists e, dir = e ++ [slash]) -> ~ In slash b ->
       ~ In slash x -> ~ In dot x -> (exists c, In c b /\ c <> dot) -> endswith (snd (splitext p)) p = true).
    { intros dir b x -> Hd Hb Hx Hdx Hc. rewrite splitext_ext by auto. cbn [snd]. apply endswith_iff.
      exists (dir ++ b). now rewrite app_assoc. }
    destruct H as [(dir & b & -> & Hd & Hs & Hc)|(dir & b & -> & Hd & Hs & Hc)].
    + apply (G dir b (lit "nxt")); auto; cbn; intuition discriminate.
    + apply (G dir b (lit "nxtb")); auto; cbn; intuition discriminate.
  - intros H1 H2. destruct (known_ext _) eqn:E; auto. apply known_ext_ok in E as [?|?]; contradiction.
Qed.

Lemma steps_some fuel : forall v d r, step_versions fuel v d = Some r -> (v <= 17)%Z /\ r = chain v d \/ exists e, r = Raise e.
Proof.
  induction fuel as [|fuel IH]; intros v d r H; [discriminate|]. cbn [step_versions] in H.
  destruct (match converter v with Some c => c d | None => Ok d end) as [d1|] eqn:E; [|injection H as <-; eauto].
  unfold GRAPH_MINOR in H. destruct (Z.eqb_spec v 17) as [->|Hv].
  - injection H as <-. left. split; [lia|]. injection E as ->. reflexivity.
  - destruct (IH _ _ _ H) as [[Hl ->]|He]; auto. left. split; [lia|]. rewrite (chain_step v) by lia. now rewrite E.
Qed.
Lemma convert_some d s x y fuel d' : dget (lit "version") d = Some (VStr s) -> two_numbers py_int s x y -> x <> 0%Z ->
  convert_file fuel d = Some (Ok d') -> (y <= 17)%Z /\ chain y d = Ok d'.
Proof.
  intros Hv Ht Hx H. unfold convert_file in H. rewrite (version_minor d s x y Hv Ht), (proj2 (Z.eqb_neq x 0)) in H by auto.
  apply steps_some in H as [[H1 H2]|[e H]]; [|discriminate]. auto.
Qed.
