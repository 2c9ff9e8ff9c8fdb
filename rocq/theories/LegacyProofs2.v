(** Proofs about the file converter: 1.9, the old tree format, and the whole
    conversion. *)

From Coq Require Import String List NArith ZArith Bool Sorted Permutation Lia.
From Verif Require Import PyStr PyStrFacts Dict DictFacts PyVal PyValFacts Legacy LegacySpec LegacyProofs.
Import ListNotations.

Lemma node_kept_same u v w : proper u -> proper v -> same u v -> node_kept v w -> node_kept u w.
Proof.
  intros Pu Pv Hs (d & e & -> & -> & H1 & H2). symmetry in Hs.
  destruct (same_dict_inv _ _ Hs) as [c ->]. symmetry in Hs.
  exists c, e. split; auto. split; auto.
  assert (G : forall k, osame (dget k c) (dget k d))
    by (intros k; apply same_get; auto using proper_nodup).
  split.
  - intros k Hk. eapply osame_trans; [apply G|now apply H1].
  - rewrite H2. apply filter_ext. intros k. specialize (G k).
    destruct (dget k c), (dget k d); auto; discriminate.
Qed.

(** *** V109 *)

Lemma set_opt_get k v d k' :
  dget k' (set_opt k v d) = if str_eqb k k' then match v with Some w => Some w | None => dget k' d end
                            else dget k' d.
Proof.
  destruct v as [w|]; cbn [set_opt]; [apply dget_dset|]. destruct (str_eqb k k'); auto.
Qed.
Lemma set_opt_nodup k v d : NoDup (dkeys d) -> NoDup (dkeys (set_opt k v d)).
Proof. destruct v; cbn; auto. apply NoDup_dset. Qed.
Lemma set_opt_proper k v d : proper (VDict d) -> (forall w, v = Some w -> proper w) -> proper (VDict (set_opt k v d)).
Proof. destruct v; cbn [set_opt]; auto. intros H1 H2. apply proper_dset; auto. Qed.

Lemma last_said_snoc f p rs q r :
  last_said f p (rs ++ [(q, r)]) =
  if str_eqb q p then match told f r with Some v => Some v | None => last_said f p rs end
  else last_said f p rs.
Proof. unfold last_said. now rewrite fold_left_app. Qed.

Definition refs_inv (overs aliases colors : dict pyval) (rs : list (pystr * dict pyval)) (st : refs_state) : Prop :=
  let '(refs, o, a, c) := st in
  refs = map fst rs /\ proper (VDict o) /\ proper (VDict a) /\ proper (VDict c) /\
  (forall p, dget p a = or_old (last_said "alias" p rs) (dget p aliases)) /\
  (forall p, dget p c = or_old (last_said "color" p rs) (dget p colors)) /\
  (forall p, ~ In p (map fst rs) -> dget p o = dget p overs) /\
  (forall p, In p (map fst rs) ->
     (dget p overs = None \/ exists e, dget p overs = Some (VDict e)) /\
     (dget p o = None \/ exists e, dget p o = Some (VDict e)) /\
     forall k, dget k (dict_at p o) =
       if str_eqb k (lit "mute") then or_old (last_said "mute" p rs) (dget k (dict_at p overs))
       else if str_eqb k (lit "solo") then or_old (last_said "solo" p rs) (dget k (dict_at p overs))
       else dget k (dict_at p overs)).

Lemma told_proper k r v : proper (VDict r) -> told k r = Some v -> proper v.
Proof.
  intros H E. unfold told in E. destruct (dget (lit k) r) as [w|] eqn:F; [|discriminate].
  pose proof (proper_get _ _ _ H F). destruct w; try discriminate; now injection E as <-.
Qed.

Lemma ref_step_ok overs aliases colors rs st r st' :
  refs_inv overs aliases colors rs st -> proper r -> ref_step st r = Ok st' ->
  refs_inv overs aliases colors (rs ++ ref_of r) st'.
Proof.
  destruct st as [[[refs o] a] c]. intros Hinv Hp. pose proof Hinv as (H1 & H2 & H3 & H4 & H5 & H6 & H7 & H8). unfold ref_step.
  change opt_val with told.
  destruct r as [| | | | | |r|]; try discriminate. cbn [ref_of].
  destruct (dget (lit "path") r) as [v|] eqn:Ep.
  2:{ intros E. injection E as <-. rewrite app_nil_r. exact Hinv. }
  assert (Skip : Ok (refs, o, a, c) = Ok st' -> refs_inv overs aliases colors (rs ++ []) st').
  { intros E. injection E as <-. rewrite app_nil_r. exact Hinv. }
  destruct v as [| | |p| | | |]; try (cbn [truthy]; match goal with
    |- context [if ?b then _ else _] => destruct b; [discriminate|exact Skip] end); try exact Skip; try discriminate.
  destruct p as [|c0 p0]; [exact Skip|]. set (p := c0 :: p0) in *.
  set (rd := match dget p o with None => Ok [] | Some (VDict v) => Ok v | Some _ => Raise TypeError end).
  assert (Hrd : forall d0, rd = Ok d0 -> d0 = dict_at p o /\ (dget p o = None \/ exists e, dget p o = Some (VDict e))
                /\ proper (VDict d0)).
  { unfold rd, dict_at. intros d0. destruct (dget p o) as [w|] eqn:E.
    - destruct w; try discriminate. intros F. injection F as <-. split; [reflexivity|].
      split; [right; eexists; reflexivity|exact (proper_get _ _ _ H2 E)].
    - intros F. injection F as <-. split; [reflexivity|]. split; [now left|]. apply proper_dict. split; constructor. }
  destruct rd as [r0|]; [|discriminate]. destruct (Hrd r0 eq_refl) as (-> & Ho & Pr). clear Hrd. cbn [bind].
  set (r_dat := set_opt (lit "solo") (told "solo" r) (set_opt (lit "mute") (told "mute" r) (dict_at p o))).
  set (o' := match r_dat with [] => o | _ => dset p (VDict r_dat) o end).
  intros E. injection E as <-.
  assert (Pd : proper (VDict r_dat)).
  { unfold r_dat. apply set_opt_proper; [|intros w; now apply told_proper].
    apply set_opt_proper; [auto|intros w; now apply told_proper]. }
  assert (Rg : forall k, dget k r_dat =
     if str_eqb k (lit "mute") then or_old (told "mute" r) (dget k (dict_at p o))
     else if str_eqb k (lit "solo") then or_old (told "solo" r) (dget k (dict_at p o))
     else dget k (dict_at p o)).
  { intros k. unfold r_dat. rewrite !set_opt_get. rewrite (str_eqb_sym k (lit "mute")), (str_eqb_sym k (lit "solo")).
    destruct (str_eqb (lit "mute") k) eqn:E1, (str_eqb (lit "solo") k) eqn:E2; unfold or_old;
      try destruct (told "solo" r); try destruct (told "mute" r); auto;
      apply str_eqb_eq in E1, E2; rewrite <- E1 in E2; discriminate. }
  assert (Oo : dict_at p o' = r_dat).
  { unfold o'. destruct r_dat as [|x0 r_dat0] eqn:Er.
    - destruct (dict_at p o) as [|[k v] t] eqn:Eo; auto. exfalso.
      assert (X : dget k ((k, v) :: t) = Some v) by (cbn; now rewrite str_eqb_refl).
      specialize (Rg k). rewrite X in Rg. cbn [dget] in Rg. unfold or_old in Rg.
      destruct (str_eqb k (lit "mute")); [destruct (told "mute" r); discriminate|].
      destruct (str_eqb k (lit "solo")); [destruct (told "solo" r); discriminate|discriminate].
    - unfold dict_at. now rewrite dget_dset_same. }
  assert (Ox : forall q, q <> p -> dget q o' = dget q o).
  { intros q Hq. unfold o'. destruct r_dat; auto. now rewrite dget_dset_other by auto. }
  assert (Op : dget p o' = None \/ exists e, dget p o' = Some (VDict e)).
  { unfold o'. destruct r_dat; auto. right. rewrite dget_dset_same. eauto. }
  split; [now rewrite map_app, H1|].
  split; [unfold o'; destruct r_dat; auto; now apply proper_dset|].
  split; [apply set_opt_proper; auto; intros w; now apply told_proper|].
  split; [apply set_opt_proper; auto; intros w; now apply told_proper|].
  split; [|split; [|split]].
  - intros q. rewrite set_opt_get, last_said_snoc, H5. destruct (str_eqb p q); auto.
    destruct (told "alias" r); auto.
  - intros q. rewrite set_opt_get, last_said_snoc, H6. destruct (str_eqb p q); auto.
    destruct (told "color" r); auto.
  - intros q Hq. rewrite map_app, in_app_iff in Hq. cbn [map fst In] in Hq.
    rewrite Ox by (intros ->; apply Hq; right; now left). apply H7. tauto.
  - intros q Hq. rewrite map_app, in_app_iff in Hq. cbn [map fst In] in Hq.
    destruct (str_eqb_spec p q) as [<-|Hne].
    + split.
      { destruct (in_dec pystr_eq_dec p (map fst rs)) as [Hi|Hi]; [now apply H8|].
        rewrite <- (H7 p Hi). auto. }
      split; [exact Op|]. intros k. rewrite Oo, Rg, !last_said_snoc, str_eqb_refl.
      assert (G : dget k (dict_at p o) =
         if str_eqb k (lit "mute") then or_old (last_said "mute" p rs) (dget k (dict_at p overs))
         else if str_eqb k (lit "solo") then or_old (last_said "solo" p rs) (dget k (dict_at p overs))
         else dget k (dict_at p overs)).
      { destruct (in_dec pystr_eq_dec p (map fst rs)) as [Hi|Hi]; [now apply H8|].
        assert (L : forall f, last_said f p rs = None).
        { intros f. clear -Hi. induction rs as [|[q r] rs IH] using rev_ind; auto.
          rewrite last_said_snoc. rewrite map_app, in_app_iff in Hi. cbn in Hi.
          destruct (str_eqb_spec q p) as [->|]; [exfalso; tauto|]. apply IH. tauto. }
        rewrite !L. unfold dict_at at 1. rewrite (H7 p Hi). fold (dict_at p overs). cbn [or_old].
        destruct (str_eqb k (lit "mute")), (str_eqb k (lit "solo")); auto. }
      rewrite G. destruct (str_eqb k (lit "mute")) eqn:E1; [destruct (told "mute" r); reflexivity|].
      destruct (str_eqb k (lit "solo")) eqn:E2; [destruct (told "solo" r); reflexivity|reflexivity].
    + destruct Hq as [Hq|[Hq|[]]]; [|congruence]. destruct (H8 q Hq) as (G1 & G2 & G3).
      split; auto. rewrite (Ox q) by auto. split; auto. intros k. rewrite !last_said_snoc.
      rewrite (proj2 (str_eqb_neq p q)) by auto. unfold dict_at at 1. rewrite (Ox q) by auto. apply G3.
Qed.

Lemma refs_fold_ok overs aliases colors l : forall rs st st',
  refs_inv overs aliases colors rs st -> Forall proper l -> fold_res ref_step l st = Ok st' ->
  refs_inv overs aliases colors (rs ++ flat_map ref_of l) st'.
Proof.
  induction l as [|r l IH]; intros rs st st' Hi Hp H; cbn [fold_res] in H.
  - injection H as <-. cbn. now rewrite app_nil_r.
  - inversion Hp; subst. destruct (ref_step st r) as [st1|] eqn:E; [|discriminate]. cbn [bind] in H.
    cbn [flat_map]. rewrite app_assoc. eapply IH; eauto. eapply ref_step_ok; eauto.
Qed.

Lemma proper_nil : proper (VDict []).
Proof. apply proper_dict. split; constructor. Qed.
Lemma dict_at_proper k d : proper (VDict d) -> proper (VDict (dict_at k d)).
Proof.
  intros H. unfold dict_at. destruct (dget k d) as [v|] eqn:E; [|apply proper_nil].
  pose proof (proper_get _ _ _ H E). destruct v; auto using proper_nil.
Qed.
Lemma same_at k d e : proper (VDict d) -> proper (VDict e) -> same (VDict d) (VDict e) ->
  same (VDict (dict_at k d)) (VDict (dict_at k e)).
Proof.
  intros H1 H2 H. pose proof (same_get d e k (proper_nodup _ H1) (proper_nodup _ H2) H) as G.
  unfold dict_at. destruct (dget k d) as [v|].
  - apply osame_inv in G as (w & -> & G). destruct v, w; try discriminate G; try apply same_refl. exact G.
  - apply osame_none in G as ->. apply same_refl.
Qed.
Lemma same_get_p d e k : proper (VDict d) -> proper (VDict e) -> same (VDict d) (VDict e) ->
  osame (dget k d) (dget k e).
Proof. intros H1 H2. apply same_get; now apply proper_nodup. Qed.

Lemma sub_dict_at k d e : sub_dict k d = Ok e -> e = dict_at (lit k) d.
Proof.
  unfold sub_dict, dict_at. destruct (dget (lit k) d) as [[]|]; intros H; try discriminate; now injection H.
Qed.
Lemma set_nonempty_get k v d k' : k' <> lit k -> dget k' (set_nonempty k v d) = dget k' d.
Proof. intros H. unfold set_nonempty. destruct v; auto. now rewrite dget_dset_other by auto. Qed.
Lemma set_nonempty_at k v d : v <> [] -> dict_at (lit k) (set_nonempty k v d) = v.
Proof. intros H. unfold set_nonempty, dict_at. destruct v; [congruence|]. now rewrite dget_dset_same. Qed.
Lemma set_nonempty_at_other k v d k' : k' <> lit k -> dict_at k' (set_nonempty k v d) = dict_at k' d.
Proof. intros H. unfold dict_at. now rewrite set_nonempty_get. Qed.
Lemma set_nonempty_proper k v d : proper (VDict v) -> proper (VDict d) -> proper (VDict (set_nonempty k v d)).
Proof. intros H1 H2. unfold set_nonempty. destruct v; auto. now apply proper_dset. Qed.
Lemma set_nonempty_nil k v d : set_nonempty k v d = [] -> v = [] /\ d = [].
Proof.
  unfold set_nonempty. destruct v; auto. destruct d as [|[k0 v0] d]; cbn; [discriminate|].
  destruct (str_eqb k0 (lit k)); discriminate.
Qed.
Lemma dget_all_none {V} (d : dict V) : (forall k, dget k d = None) -> d = [].
Proof. destruct d as [|[k v] d]; auto. intros H. specialize (H k). cbn in H. now rewrite str_eqb_refl in H. Qed.

(** What the references become. *)
Definition refs_done (d d' : dict pyval) : Prop :=
  let rs := old_refs d in
  let overs k := dict_at k (dict_at (lit "comp_overrides") d) in
  let overs' k := dict_at k (dict_at (lit "comp_overrides") d') in
  let meta := dict_at (lit "meta_data") d in
  let meta' := dict_at (lit "meta_data") d' in
  (forall p, dget p (dict_at (lit "aliases") meta')
             = or_old (last_said "alias" p rs) (dget p (dict_at (lit "aliases") meta))) /\
  (forall p, dget p (dict_at (lit "colors") meta')
             = or_old (last_said "color" p rs) (dget p (dict_at (lit "colors") meta))) /\
  (forall k, k <> lit "aliases" -> k <> lit "colors" -> dget k meta' = dget k meta) /\
  (forall p, ~ In p (map fst rs) ->
     dget p (dict_at (lit "comp_overrides") d') = dget p (dict_at (lit "comp_overrides") d)) /\
  (forall p k, In p (map fst rs) -> dget k (overs' p) =
       if str_eqb k (lit "mute") then or_old (last_said "mute" p rs) (dget k (overs p))
       else if str_eqb k (lit "solo") then or_old (last_said "solo" p rs) (dget k (overs p))
       else dget k (overs p)) /\
  (forall k, k <> lit "references" -> k <> lit "comp_overrides" -> k <> lit "meta_data" ->
     dget k d' = dget k d) /\
  (match dget (lit "references") d with
   | Some v => if truthy v then dget (lit "references") d' =
                 match map fst rs with [] => None | ps => Some (VList (map VStr ps)) end
               else dget (lit "references") d' = Some v
   | None => dget (lit "references") d' = None
   end).

Lemma update_refs_ok d d' : proper (VDict d) -> update_refs d = Ok d' ->
  proper (VDict d') /\ refs_done d d'.
Proof.
  intros Hp. unfold update_refs.
  assert (Id : old_refs d = [] ->
     match dget (lit "references") d with Some v => truthy v = false | None => True end -> refs_done d d).
  { intros Ho Hf. unfold refs_done. cbn zeta. rewrite Ho. cbn [map In].
    repeat (split; [intros; cbn; try tauto; reflexivity|]).
    destruct (dget (lit "references") d) as [v|]; auto. now rewrite Hf. }
  destruct (dget (lit "references") d) as [v|] eqn:E.
  2:{ intros H. injection H as <-. split; auto. apply Id; auto. unfold old_refs. now rewrite E. }
  destruct (truthy v) eqn:T; cbn [negb].
  2:{ intros H. injection H as <-. split; auto. apply Id; auto. unfold old_refs. rewrite E.
      destruct v as [| | | |[]| | |]; auto. discriminate. }
  destruct v as [| | | |l| | |]; try discriminate.
  set (d1 := ddel (lit "references") d).
  assert (P1 : proper (VDict d1)) by now apply proper_ddel.
  assert (G1 : forall k, k <> lit "references" -> dget k d1 = dget k d)
    by (intros k Hk; unfold d1; apply dget_ddel_other; auto).
  assert (A1 : forall k, k <> lit "references" -> dict_at k d1 = dict_at k d)
    by (intros k Hk; unfold dict_at; now rewrite G1).
  assert (R1 : dget (lit "references") d1 = None).
  { unfold d1. rewrite dget_ddel by now apply proper_nodup. now rewrite str_eqb_refl. }
  destruct (sub_dict "meta_data" d1) as [meta|] eqn:Em; [|discriminate]. cbn [bind].
  destruct (sub_dict "comp_overrides" d1) as [overs|] eqn:Eo; [|discriminate]. cbn [bind].
  destruct (sub_dict "aliases" meta) as [al|] eqn:Ea; [|discriminate]. cbn [bind].
  destruct (sub_dict "colors" meta) as [co|] eqn:Ec; [|discriminate]. cbn [bind].
  apply sub_dict_at in Em, Eo, Ea, Ec. rewrite A1 in Em, Eo by discriminate.
  assert (Pm : proper (VDict meta)) by (subst meta; now apply dict_at_proper).
  assert (Po : proper (VDict overs)) by (subst overs; now apply dict_at_proper).
  assert (Pa : proper (VDict al)) by (subst al; now apply dict_at_proper).
  assert (Pc : proper (VDict co)) by (subst co; now apply dict_at_proper).
  destruct (fold_res ref_step l ([], overs, al, co)) as [[[[refs o] a] c]|] eqn:F; [|discriminate]. cbn [bind].
  assert (I : refs_inv overs al co (flat_map ref_of l) (refs, o, a, c)).
  { change (flat_map ref_of l) with ([] ++ flat_map ref_of l). eapply refs_fold_ok; [|apply proper_list; exact (proper_get _ _ _ Hp E)|exact F].
    unfold refs_inv. split; [reflexivity|]. do 3 (split; [assumption|]). do 3 (split; [reflexivity|]). intros p []. }
  assert (Or : old_refs d = flat_map ref_of l) by (unfold old_refs; now rewrite E).
  set (rs := flat_map ref_of l) in *. destruct I as (I1 & I2 & I3 & I4 & I5 & I6 & I7 & I8).
  destruct refs as [|r0 refs0] eqn:Er.
  - intros H. injection H as <-. split; auto. unfold refs_done. cbn zeta. rewrite Or.
    destruct rs as [|x rs0]; [|discriminate]. cbn [map In].
    rewrite !A1 by discriminate.
    repeat (split; [intros; cbn; try tauto; reflexivity|]).
    split; [intros; now apply G1|]. rewrite E. now rewrite T.
  - assert (Hne : refs <> []) by (rewrite Er; discriminate). rewrite <- Er in *. clear Er r0 refs0. intros H.
    set (d2 := set_nonempty "comp_overrides" o (dset (lit "references") (VList (map VStr refs)) d1)) in *.
    set (m2 := set_nonempty "colors" c (set_nonempty "aliases" a meta)) in *.
    injection H as <-.
    assert (Pv : proper (VList (map VStr refs))).
    { apply proper_list. clear. induction refs; cbn; constructor; cbn; auto. }
    assert (P2 : proper (VDict d2)) by (apply set_nonempty_proper; auto; now apply proper_dset).
    assert (Pm2 : proper (VDict m2)) by (apply set_nonempty_proper; auto; now apply set_nonempty_proper).
    split; [now apply set_nonempty_proper|].
    assert (Mm : dict_at (lit "meta_data") (set_nonempty "meta_data" m2 d2) = m2).
    { destruct m2 as [|x m0] eqn:Em2; [|now rewrite set_nonempty_at].
      unfold m2 in Em2. apply set_nonempty_nil in Em2 as [_ Em2]. apply set_nonempty_nil in Em2 as [_ Em2].
      cbn [set_nonempty]. unfold d2. rewrite set_nonempty_at_other by discriminate.
      unfold dict_at. rewrite dget_dset_other by discriminate. fold (dict_at (lit "meta_data") d1).
      rewrite A1 by discriminate. now rewrite <- Em, Em2. }
    assert (Oo : forall p, dget p (dict_at (lit "comp_overrides") (set_nonempty "meta_data" m2 d2)) =
                 match o with [] => dget p overs | _ => dget p o end).
    { intros p. rewrite set_nonempty_at_other by discriminate. unfold d2. destruct o as [|x o0].
      - cbn [set_nonempty]. unfold dict_at at 1. rewrite dget_dset_other by discriminate.
        fold (dict_at (lit "comp_overrides") d1). rewrite A1 by discriminate. now rewrite <- Eo.
      - now rewrite set_nonempty_at. }
    unfold refs_done. cbn zeta. rewrite Mm, Or, <- Em, <- Eo, <- Ea, <- Ec.
    split; [|split; [|split; [|split; [|split; [|split]]]]].
    + intros p. rewrite <- I5. unfold m2. rewrite set_nonempty_at_other by discriminate.
      destruct a as [|x a0]; [|now rewrite set_nonempty_at]. cbn [set_nonempty dget].
      rewrite <- Ea. specialize (I5 p). cbn [dget] in I5. unfold or_old in I5.
      destruct (last_said "alias" p rs); [discriminate|auto].
    + intros p. rewrite <- I6. unfold m2. destruct c as [|x c0]; [|now rewrite set_nonempty_at].
      cbn [set_nonempty dget]. rewrite set_nonempty_at_other by discriminate.
      rewrite <- Ec. specialize (I6 p). cbn [dget] in I6. unfold or_old in I6.
      destruct (last_said "color" p rs); [discriminate|auto].
    + intros k H1 H2. unfold m2. now rewrite !set_nonempty_get by auto.
    + intros p Hpn. rewrite Oo. destruct o as [|x o0]; auto.
    + intros p k Hin. destruct (I8 p Hin) as (_ & _ & I9). rewrite <- I9. unfold dict_at at 1. rewrite Oo.
      destruct o as [|x o0]; [|reflexivity]. fold (dict_at p overs). specialize (I9 k).
      change (dict_at p []) with (@nil (pystr * pyval)) in *. cbn [dget] in *. unfold or_old in I9.
      destruct (str_eqb k (lit "mute")); [destruct (last_said "mute" p rs); [discriminate|auto]|].
      destruct (str_eqb k (lit "solo")); [destruct (last_said "solo" p rs); [discriminate|auto]|auto].
    + intros k H1 H2 H3. rewrite set_nonempty_get by auto. unfold d2. rewrite set_nonempty_get by auto.
      rewrite dget_dset_other by auto. now apply G1.
    + rewrite E, T. rewrite set_nonempty_get by discriminate. unfold d2. rewrite set_nonempty_get by discriminate.
      rewrite dget_dset_same, <- I1. destruct refs; [congruence|reflexivity].
Qed.

Lemma rename_key_get old new m k : NoDup (dkeys m) ->
  dget k (rename_key old new m) = renamed old new m k.
Proof.
  intros H. unfold rename_key, renamed. destruct (dget (lit old) m) as [v|]; auto. destruct (truthy v); auto.
  rewrite dget_dset, (str_eqb_sym k). destruct (str_eqb (lit new) k); auto.
  rewrite dget_ddel by auto. now rewrite (str_eqb_sym k).
Qed.
Lemma rename_key_proper old new m : proper (VDict m) -> proper (VDict (rename_key old new m)).
Proof.
  intros H. unfold rename_key. destruct (dget (lit old) m) as [v|] eqn:E; auto. destruct (truthy v); auto.
  apply proper_dset; [now apply proper_ddel|]. eapply proper_get; eauto.
Qed.
Lemma renamed_other old new m k : k <> lit old -> k <> lit new -> renamed old new m k = dget k m.
Proof.
  intros H1 H2. unfold renamed. rewrite (proj2 (str_eqb_neq k (lit old))), (proj2 (str_eqb_neq k (lit new))) by auto.
  destruct (dget (lit old) m) as [v|]; auto. destruct (truthy v); auto.
Qed.

Lemma update_meta_ok d d' : proper (VDict d) -> update_meta_data d = Ok d' ->
  proper (VDict d') /\
  (forall k, k <> lit "meta_data" -> dget k d' = dget k d) /\
  (forall k, dget k (dict_at (lit "meta_data") d') =
     renamed "collapse_data" "collapse"
       (rename_key "position_data" "positions" (dict_at (lit "meta_data") d)) k).
Proof.
  intros Hp. unfold update_meta_data.
  assert (Id : dict_at (lit "meta_data") d = [] -> proper (VDict d) /\
     (forall k, k <> lit "meta_data" -> dget k d = dget k d) /\
     (forall k, dget k (dict_at (lit "meta_data") d) =
       renamed "collapse_data" "collapse"
         (rename_key "position_data" "positions" (dict_at (lit "meta_data") d)) k)).
  { intros ->. split; auto. }
  destruct (dget (lit "meta_data") d) as [v|] eqn:E.
  2:{ intros H. injection H as <-. apply Id. unfold dict_at. now rewrite E. }
  destruct (truthy v) eqn:T; cbn [negb].
  2:{ intros H. injection H as <-. apply Id. unfold dict_at. rewrite E. destruct v; auto. destruct d0; auto. discriminate. }
  destruct v as [| | | | | |m|]; try discriminate. intros H. injection H as <-.
  pose proof (proper_get _ _ _ Hp E) as Pm.
  split; [apply proper_dset; auto; now apply rename_key_proper, rename_key_proper|].
  split; [intros k Hk; now rewrite dget_dset_other by auto|].
  intros k. unfold dict_at. rewrite dget_dset_same, E. apply rename_key_get.
  now apply proper_nodup, rename_key_proper.
Qed.

Lemma v109_ok d d' : proper (VDict d) -> rooted_file d -> v109 d = Ok d' ->
  proper (VDict d') /\ rooted_file d' /\ upgraded_1_9 d d'.
Proof.
  intros Hp Hr. unfold v109.
  destruct (update_refs d) as [d1|] eqn:E1; [|discriminate]. cbn [bind].
  destruct (update_meta_data d1) as [d2|] eqn:E2; [|discriminate]. cbn [bind].
  destruct (arrange_node_data d2) as [d3|] eqn:E3; [|discriminate]. cbn [bind]. intros H. injection H as <-.
  destruct (update_refs_ok _ _ Hp E1) as [P1 (A1 & A2 & A3 & A4 & A5 & A6 & A7)].
  destruct (update_meta_ok _ _ P1 E2) as (P2 & B1 & B2).
  assert (Nn : dget (lit "nodes") d2 = dget (lit "nodes") d) by (rewrite B1, A6 by discriminate; reflexivity).
  assert (R2 : rooted_file d2) by (intros n; rewrite Nn; apply Hr).
  destruct (arrange_same _ _ P2 R2 E3) as [P3 S3].
  destruct (deep_order_same V109_KEYS d3 P3) as [P4 S4].
  pose proof (same_trans _ _ _ S3 S4) as S. set (d4 := deep_order_data V109_KEYS d3) in *. clearbody d4.
  split; auto. split; [apply (rooted_same d2); auto; now apply same_get_p|].
  assert (SM : same (VDict (dict_at (lit "meta_data") d2)) (VDict (dict_at (lit "meta_data") d4))) by now apply same_at.
  assert (PM2 : proper (VDict (dict_at (lit "meta_data") d2))) by now apply dict_at_proper.
  assert (PM4 : proper (VDict (dict_at (lit "meta_data") d4))) by now apply dict_at_proper.
  assert (SO : same (VDict (dict_at (lit "comp_overrides") d2)) (VDict (dict_at (lit "comp_overrides") d4))) by now apply same_at.
  assert (PO2 : proper (VDict (dict_at (lit "comp_overrides") d2))) by now apply dict_at_proper.
  assert (PO4 : proper (VDict (dict_at (lit "comp_overrides") d4))) by now apply dict_at_proper.
  assert (PM1 : proper (VDict (dict_at (lit "meta_data") d1))) by now apply dict_at_proper.
  assert (O21 : dict_at (lit "comp_overrides") d2 = dict_at (lit "comp_overrides") d1)
    by (unfold dict_at; now rewrite B1 by discriminate).
  assert (M2 : forall k, k <> lit "collapse_data" -> k <> lit "collapse" ->
     dget k (dict_at (lit "meta_data") d2) = renamed "position_data" "positions" (dict_at (lit "meta_data") d1) k).
  { intros k H1 H2. rewrite B2, renamed_other by auto. apply rename_key_get. now apply proper_nodup. }
  assert (M2c : forall k, In k [lit "collapse_data"; lit "collapse"] ->
     dget k (dict_at (lit "meta_data") d2) = renamed "collapse_data" "collapse" (dict_at (lit "meta_data") d1) k).
  { intros k Hk. rewrite B2. unfold renamed.
    rewrite !rename_key_get by now apply proper_nodup. rewrite (renamed_other "position_data" "positions" _ (lit "collapse_data")) by discriminate.
    rewrite (renamed_other "position_data" "positions" _ k) by (destruct Hk as [<-|[<-|[]]]; discriminate). reflexivity. }
  assert (Al : forall p k, In k [lit "aliases"; lit "colors"] ->
      osame (dget p (dict_at k (dict_at (lit "meta_data") d1))) (dget p (dict_at k (dict_at (lit "meta_data") d4)))).
  { intros p k Hk. replace (dict_at k (dict_at (lit "meta_data") d1)) with (dict_at k (dict_at (lit "meta_data") d2)).
    - apply same_get_p; auto using dict_at_proper, same_at.
    - unfold dict_at at 1 3. rewrite M2, renamed_other; auto; destruct Hk as [<-|[<-|[]]]; discriminate. }
  unfold upgraded_1_9. cbn zeta. split; [|split; [|split; [|split; [|split; [|split; [|split; [|split]]]]]]].
  - assert (Q : osame (dget (lit "references") d1) (dget (lit "references") d4)).
    { rewrite <- (B1 (lit "references")) by discriminate. now apply same_get_p. }
    destruct (dget (lit "references") d) as [v|].
    + destruct (truthy v); rewrite A7 in Q; exact Q.
    + rewrite A7 in Q. now apply osame_none in Q.
  - intros p. rewrite <- A1. apply Al. cbn. auto.
  - intros p. rewrite <- A2. apply Al. cbn. auto.
  - intros p Hn. rewrite <- A4 by auto. rewrite <- O21. now apply same_get_p.
  - intros p Hi.
    assert (Q : forall k, osame (dget k (dict_at p (dict_at (lit "comp_overrides") d1)))
                                (dget k (dict_at p (dict_at (lit "comp_overrides") d4)))).
    { intros k. rewrite <- O21. apply same_get_p; auto using dict_at_proper, same_at. }
    pose proof (fun k => A5 p k Hi) as A. split; [|split].
    + specialize (A (lit "mute")). rewrite str_eqb_refl in A. rewrite <- A. apply Q.
    + specialize (A (lit "solo")). rewrite str_eqb_refl in A.
      change (str_eqb (lit "solo") (lit "mute")) with false in A. cbn iota in A. rewrite <- A. apply Q.
    + intros k H1 H2. specialize (A k). rewrite (proj2 (str_eqb_neq k (lit "mute"))), (proj2 (str_eqb_neq k (lit "solo"))) in A by auto.
      rewrite <- A. apply Q.
  - intros k Hk. assert (Hx : k <> lit "aliases" /\ k <> lit "colors" /\ k <> lit "collapse_data" /\ k <> lit "collapse")
      by (destruct Hk as [<-|[<-|[]]]; repeat split; discriminate). destruct Hx as (X1 & X2 & X3 & X4).
    replace (renamed "position_data" "positions" (dict_at (lit "meta_data") d) k)
      with (renamed "position_data" "positions" (dict_at (lit "meta_data") d1) k)
      by (unfold renamed; rewrite !A3 by (auto; discriminate); reflexivity).
    rewrite <- M2 by auto. now apply same_get_p.
  - intros k Hk. assert (Hx : k <> lit "aliases" /\ k <> lit "colors")
      by (destruct Hk as [<-|[<-|[]]]; repeat split; discriminate). destruct Hx as (X1 & X2).
    replace (renamed "collapse_data" "collapse" (dict_at (lit "meta_data") d) k)
      with (renamed "collapse_data" "collapse" (dict_at (lit "meta_data") d1) k)
      by (unfold renamed; rewrite !A3 by (auto; discriminate); reflexivity).
    rewrite <- M2c by auto. now apply same_get_p.
  - intros k Hk. cbn [map In] in Hk. rewrite <- A3 by (intros ->; apply Hk; tauto).
    rewrite <- (renamed_other "position_data" "positions" (dict_at (lit "meta_data") d1) k)
      by (intros ->; apply Hk; tauto).
    rewrite <- M2 by (intros ->; apply Hk; tauto). now apply same_get_p.
  - intros k Hk. cbn [map In] in Hk. rewrite <- A6 by (intros ->; apply Hk; tauto).
    rewrite <- B1 by (intros ->; apply Hk; tauto). now apply same_get_p.
Qed.
