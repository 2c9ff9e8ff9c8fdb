(** C71: the results of an execution, saved to a file and loaded again. *)

From Coq Require Import String List NArith ZArith Bool Lia.
From Verif Require Import PyStr PyStrFacts NxtPath PathSpec Dict DictFacts PyVal PyValFacts NodeIO NodeIOSpec NodeIOProofs.
From Verif Require Import CacheFile CacheFileSpec CacheFileProofs.
Import ListNotations.

Section Props.
(** Python's own names; the version written in files. *)
Variables (bi : list pystr) (version : pystr).

(** A node that is cached when it is about to run its code. *)
Theorem C71_cached :
  forall c p code attrs, NoDup (map fst attrs) -> (forall u, In u (map fst attrs) -> user_name bi u) ->
  exists n, add_node c p (frame_node p code attrs) = Ok (dset p n c) /\ run_result code n /\
    forall u, user_name bi u -> dget u n = dget u attrs.
Proof.
  intros c p code attrs Hd Hu. unfold add_node.
  assert (F : forall l (n0 : node), NoDup (map fst l) -> (forall u, In u (map fst l) -> ~ In u (dkeys n0)) ->
     fold_left (fun n kv => dset (fst kv) (snd kv) n) l n0 = n0 ++ l).
  { induction l as [|(u, v) l IH]; intros n0 H1 H2; cbn [fold_left fst snd]; [now rewrite app_nil_r|].
    inversion H1 as [|? ? A B]; subst. cbn [map fst] in H2.
    assert (E : dset u v n0 = n0 ++ [(u, v)]).
    { assert (Hp : ~ In u (dkeys n0)) by (apply H2; now left). clear -Hp. induction n0 as [|(a, b) n0 IH]; [reflexivity|]. cbn in *.
      destruct (str_eqb_spec a u) as [->|]; [exfalso; apply Hp; now left|]. f_equal. apply IH. tauto. }
    rewrite E, IH; [now rewrite <- app_assoc|exact B|]. intros w Hw. unfold dkeys. rewrite map_app, in_app_iff. intros [Z|[Z|[]]].
    - apply (H2 w); [now right|exact Z].
    - cbn in Z. subst w. contradiction. }
  assert (UI : forall u, In u (map fst attrs) -> ~ In u internal_names) by (intros u Iu; apply Hu; exact Iu).
  unfold frame_node. rewrite F; [|exact Hd|].
  2:{ intros u Iu Z. apply (UI u Iu). destruct Z as [<-|[<-|[]]]; vm_compute; tauto. }
  assert (D : forall k, dget k (([(NODE_PATH, VStr p); (CACHED_CODE, VStr code)] ++ attrs : node)) =
     if str_eqb NODE_PATH k then Some (VStr p) else if str_eqb CACHED_CODE k then Some (VStr code) else dget k attrs) by reflexivity.
  rewrite D. change (str_eqb NODE_PATH CACHED_CODE) with false. rewrite str_eqb_refl. cbv iota.
  eexists. split; [reflexivity|].
  assert (AN : forall a, In a internal_names -> dget a attrs = None).
  { intros a Ia. apply dget_none. intros Z. exact (UI a Z Ia). }
  assert (G : forall k, k <> COMPUTE -> dget k (dset COMPUTE (VStrs (split NEWLINE code)) ([(NODE_PATH, VStr p); (CACHED_CODE, VStr code)] ++ attrs)) =
     if str_eqb NODE_PATH k then Some (VStr p) else if str_eqb CACHED_CODE k then Some (VStr code) else dget k attrs).
  { intros k Hk. rewrite dget_dset. destruct (str_eqb_spec COMPUTE k) as [E|_]; [now destruct Hk|]. apply D. }
  split; [split; [|split; [|split; [|split]]]|].
  - apply NoDup_dset. cbn [app dkeys map fst]. constructor; [|constructor].
    + intros [Z|Z]; [discriminate|]. apply (UI NODE_PATH Z). vm_compute. tauto.
    + intros Z. apply (UI CACHED_CODE Z). vm_compute. tauto.
    + exact Hd.
  - rewrite G by discriminate. reflexivity.
  - exists (split NEWLINE code). split; [rewrite dget_dset; now rewrite str_eqb_refl|]. split; [apply split_nonempty|]. split.
    + intros l Hl. exact (proj1 (Forall_forall _ _) (split_forall_no_sep NEWLINE code) l Hl).
    + symmetry. apply join_split.
  - intros a Ia A1 A2 A3. rewrite G by exact A2. destruct (str_eqb_spec NODE_PATH a) as [<-|_]; [now destruct A3|].
    destruct (str_eqb_spec CACHED_CODE a) as [<-|_]; [now destruct A1|]. now apply AN.
  - intros u m Hm. assert (Hk : forall x, In x internal_names -> u ++ lit m <> x).
    { intros x Ix E. assert (endswith (lit "nxt") x = true) as Z.
      { rewrite <- E. destruct Hm as [<-|[<-|[]]]; unfold endswith; rewrite rev_app_distr; reflexivity. }
      revert Z. clear -Ix. cbn [internal_names map In] in Ix. repeat (destruct Ix as [<-|Ix]; [vm_compute; discriminate|]). destruct Ix. }
    rewrite G by (apply Hk; vm_compute; tauto).
    destruct (str_eqb_spec NODE_PATH (u ++ lit m)) as [E|_]; [exfalso; symmetry in E; revert E; apply Hk; vm_compute; tauto|].
    destruct (str_eqb_spec CACHED_CODE (u ++ lit m)) as [E|_]; [exfalso; symmetry in E; revert E; apply Hk; vm_compute; tauto|].
    apply dget_none. intros Z. destruct (Hu _ Z) as (_ & _ & H). apply (H m) with (a := u); [|reflexivity]. destruct Hm as [<-|[<-|[]]]; cbn; tauto.
  - intros u (_ & Hi & _). assert (Hk : forall x, In x internal_names -> x <> u) by (intros x Ix ->; contradiction).
    rewrite G by (apply not_eq_sym, Hk; vm_compute; tauto).
    destruct (str_eqb_spec NODE_PATH u) as [E|_]; [exfalso; revert E; apply Hk; vm_compute; tauto|].
    destruct (str_eqb_spec CACHED_CODE u) as [E|_]; [exfalso; revert E; apply Hk; vm_compute; tauto|]. reflexivity.
Qed.

(** Code that sets or deletes attributes leaves such a node. *)
Theorem C71_changed :
  forall code n u v, user_name bi u -> run_result code n -> run_result code (dset u v n) /\ run_result code (ddel u n).
Proof.
  intros code n u v (_ & Hi & Hm) (H1 & H2 & (lines & H3 & H4) & H5 & H6).
  assert (Hk : forall x, In x internal_names -> u <> x) by (intros x Ix ->; contradiction).
  assert (G : forall k, u <> k -> dget k (dset u v n) = dget k n /\ dget k (ddel u n) = dget k n).
  { intros k Hne. rewrite dget_dset, dget_ddel by assumption. destruct (str_eqb_spec u k); [contradiction|now split]. }
  assert (M : forall w m, In m ["_comment__nxt"; "_type__nxt"]%string -> u <> w ++ lit m).
  { intros w m Im. apply Hm. destruct Im as [<-|[<-|[]]]; cbn; tauto. }
  assert (U1 : u <> lit "_cached_code") by (apply Hk; vm_compute; tauto).
  assert (U2 : u <> lit "_code") by (apply Hk; vm_compute; tauto).
  split; (split; [auto using NoDup_dset, NoDup_ddel|split; [|split; [|split]]]).
  - now rewrite (proj1 (G _ U1)).
  - exists lines. now rewrite (proj1 (G _ U2)).
  - intros a Ia A1 A2 A3. rewrite (proj1 (G a (Hk a Ia))). now apply H5.
  - intros w m Im. rewrite (proj1 (G _ (M w m Im))). now apply H6.
  - now rewrite (proj2 (G _ U1)).
  - exists lines. now rewrite (proj2 (G _ U2)).
  - intros a Ia A1 A2 A3. rewrite (proj2 (G a (Hk a Ia))). now apply H5.
  - intros w m Im. rewrite (proj2 (G _ (M w m Im))). now apply H6.
Qed.

(** Results of runs can always be saved, whatever values they hold, and the
    loaded file has the same nodes in the same order, each with the same code
    and the same attributes; a value is what JSON makes of it, or None when it
    cannot be written or is falsy.  Saving what was loaded writes the same data. *)
Theorem C71_round_trip :
  forall c, NoDup (dkeys c) ->
  (forall p n, In (p, n) c -> (exists code, run_result code n) /\ exists ns nm, p = abs_path (ns ++ [nm]) /\ Forall component (ns ++ [nm])) ->
  exists data c', save bi version c = Some data /\ load data = Ok c' /\
    dkeys c' = dkeys c /\ save bi version c' = Some data /\
    forall p n, dget p c = Some n -> exists n', dget p c' = Some n' /\
      dget (lit "_cached_code") n' = dget (lit "_cached_code") n /\ dget (lit "_code") n' = dget (lit "_code") n /\
      (forall u, user_name bi u -> (In u (dkeys n') <-> In u (dkeys n))) /\
      (forall u v, user_name bi u -> dget u n = Some v -> dget u n' = Some (json_norm (kept v))).
Proof.
  intros c Hd Hg. destruct (round_trip bi version c Hd Hg) as (data & c' & Es & El & F & Ed).
  exists data, c'. split; [exact Es|]. split; [exact El|].
  assert (Ek : dkeys c' = dkeys c). { clear -F. induction F as [|a b l l' (H & _) F IH]; [reflexivity|]. unfold dkeys in *. cbn [map]. f_equal; [now symmetry|exact IH]. }
  split; [exact Ek|]. split.
  - unfold save in *. destruct (json_ok (VDict (get_save_data bi version c))) eqn:Ej; [|discriminate].
    rewrite <- Es. assert (json_ok (VDict (get_save_data bi version c')) = true) as ->.
    { rewrite Ed. change (json_ok (json_norm (VDict (get_save_data bi version c))) = true). now rewrite json_norm_ok. }
    rewrite Ed. apply (f_equal Some). rewrite map_map. apply map_ext. intros (k, v). cbn. f_equal. apply json_norm_idem.
  - clear -F. induction F as [|(p0, n0) (p1, n1) l l' (H & B) F IH]; intros p n E; cbn in E; [discriminate|]. cbn in H, B. subst p1. cbn [dget].
    destruct (str_eqb p0 p); [|now apply IH]. injection E as <-. exists n1. split; [reflexivity|].
    destruct B as (B1 & B2 & B3 & B4 & _). split; [exact B3|]. split; [exact B4|]. split; [exact B1|].
    intros u v Hu E. rewrite (B2 u Hu).
    + unfold attr. now rewrite E.
    + destruct (in_dec (list_eq_dec N.eq_dec) u (dkeys n0)) as [|Z]; [assumption|]. apply dget_none in Z. congruence.
Qed.

(** A value that is not falsy and made of JSON's kinds comes back as it was. *)
Lemma plain_same v : plain v = true -> json_ok v = true /\ json_norm v = v.
Proof.
  induction v as [| | | |i|l IH|l IH|d IH] using pyval_ind2; cbn [plain json_ok json_norm]; intros H; try discriminate; try (split; reflexivity).
  - assert (E : forallb json_ok l = true /\ map json_norm l = l) by
      (clear -H IH; induction l as [|x l IHl]; [split; reflexivity|]; cbn in *; apply andb_true_iff in H as (H1 & H2); inversion IH; subst;
       destruct (H3 H1) as (-> & ->); destruct (IHl H4 H2) as (-> & ->); split; reflexivity).
    now destruct E as (-> & ->).
  - assert (E : forallb (fun kv : pystr * pyval => json_ok (snd kv)) d = true /\ map (fun kv => (fst kv, json_norm (snd kv))) d = d).
    { clear -H IH; induction d as [|(k, x) d IHl]; [split; reflexivity|]. cbn in *. apply andb_true_iff in H as (H1 & H2). inversion IH; subst.
      cbn in *. destruct (H3 H1) as (-> & ->). destruct (IHl H4 H2) as (-> & ->). split; reflexivity. }
    now destruct E as (-> & ->).
Qed.
Theorem C71_exact :
  forall c p n u v data c', NoDup (dkeys c) ->
  (forall p n, In (p, n) c -> (exists code, run_result code n) /\ exists ns nm, p = abs_path (ns ++ [nm]) /\ Forall component (ns ++ [nm])) ->
  save bi version c = Some data -> load data = Ok c' ->
  dget p c = Some n -> user_name bi u -> dget u n = Some v -> plain v = true -> truthy v = true ->
  exists n', dget p c' = Some n' /\ dget u n' = Some v.
Proof.
  intros c p n u v data c' Hd Hg Es El Ep Hu Ev Hp Ht.
  destruct (C71_round_trip c Hd Hg) as (data0 & c0 & Es0 & El0 & _ & _ & H).
  rewrite Es in Es0. injection Es0 as <-. rewrite El in El0. injection El0 as <-.
  destruct (H p n Ep) as (n' & E & _ & _ & _ & V). exists n'. split; [exact E|]. rewrite (V u v Hu Ev).
  destruct (plain_same v Hp) as (J & N). unfold kept. rewrite Ht, J. cbn [andb]. now rewrite N.
Qed.
End Props.
Print Assumptions C71_cached.
Print Assumptions C71_changed.
Print Assumptions C71_round_trip.
Print Assumptions C71_exact.

(** ** Results of two nodes *)
Definition ex_attrs : list (pystr * pyval) :=
  [(lit "total", VInt 7); (lit "names", VList [VStr (lit "a"); VStr (lit "b")]); (lit "count", VInt 0);
   (lit "pair", VTuple [VInt 1; VBool true]); (lit "handle", VObj 3)].
Definition ex_code := lit "self.total = 7" ++ [10%N] ++ lit "self.count = 0".
Definition ex_cache : cache :=
  match bind (add_node [] (lit "/a") (frame_node (lit "/a") ex_code ex_attrs))
             (fun c => add_node c (lit "/a/b") (frame_node (lit "/a/b") [] [])) with
  | Ok c => c | Raise _ => [] end.
Definition ex_names := map lit ["__doc__"; "__module__"]%string.
Lemma ex_user : forall u, In u (map fst ex_attrs) -> user_name ex_names u.
Proof. intros u H. apply is_user_iff. cbn [map fst ex_attrs In] in H. repeat (destruct H as [<-|H]; [vm_compute; reflexivity|]). destruct H. Qed.

Example C71_sample :
  NoDup (dkeys ex_cache) /\
  (forall p n, In (p, n) ex_cache -> (exists code, run_result code n) /\ exists ns nm, p = abs_path (ns ++ [nm]) /\ Forall component (ns ++ [nm])) /\
  exists data n', save ex_names (lit "1.17") ex_cache = Some data /\ bind (load data) (fun c => Ok (dget (lit "/a") c)) = Ok (Some n') /\
    dget (lit "total") n' = Some (VInt 7) /\ dget (lit "names") n' = Some (VList [VStr (lit "a"); VStr (lit "b")]) /\
    dget (lit "_cached_code") n' = Some (VStr ex_code) /\ dget (lit "_parent_path") n' = Some (VStr (lit "/")).
Proof.
  destruct (C71_cached ex_names [] (lit "/a") ex_code ex_attrs) as (na & Ea & Ra & _).
  { vm_compute. repeat constructor; cbn; intuition discriminate. } { exact ex_user. }
  destruct (C71_cached ex_names (dset (lit "/a") na []) (lit "/a/b") [] []) as (nb & Eb & Rb & _).
  { constructor. } { intros u []. }
  split; [|split].
  - vm_compute. repeat constructor; cbn; intuition discriminate.
  - unfold ex_cache. rewrite Ea. cbn [bind]. rewrite Eb. cbn [dset]. change (str_eqb (lit "/a") (lit "/a/b")) with false. cbv iota.
    intros p n [H|[H|[]]]; injection H as <- <-.
    + split; [eauto|]. exists [], (lit "a"). split; [reflexivity|]. repeat constructor; cbn; intuition discriminate.
    + split; [eauto|]. exists [lit "a"], (lit "b"). split; [reflexivity|]. repeat constructor; cbn; intuition discriminate.
  - eexists. eexists. split; [vm_compute; reflexivity|]. split; [vm_compute; reflexivity|]. repeat split; reflexivity.
Qed.

(** ** What a user may not expect *)

(** A result that is 0, False or empty is None in the loaded file; so is one
    that cannot be written; a tuple is a list. *)
Theorem C71_falsy_refuted :
  exists data n', save ex_names (lit "1.17") ex_cache = Some data /\ bind (load data) (fun c => Ok (dget (lit "/a") c)) = Ok (Some n') /\
    dget (lit "count") n' = Some VNone /\ dget (lit "handle") n' = Some VNone /\
    dget (lit "pair") n' = Some (VList [VInt 1; VBool true]).
Proof. eexists. eexists. split; [vm_compute; reflexivity|]. split; [vm_compute; reflexivity|]. repeat split; reflexivity. Qed.
Print Assumptions C71_falsy_refuted.
