(** Proofs about nodes read from files being tidy, and about copying a node's
    data onto another node. *)

From Coq Require Import String List NArith ZArith Bool Lia.
From Verif Require Import PyStr PyStrFacts NxtPath Dict DictFacts PyVal NodeIO NodeIOProofs
  Names NamesSpec NamesProofs NodeEdit NodeEditSpec NodeEditProofs.
Import ListNotations.

(** *** Nodes read from files *)

Lemma load_sub_confined u n kv k : k <> u -> (forall m, In m METAS -> k <> u ++ m) ->
  dget k (load_sub u n kv) = dget k n.
Proof.
  intros X1 X2. destruct kv as [s v]. unfold load_sub.
  destruct (str_eqb s META_VALUE); [rewrite dget_dset_other; congruence|].
  destruct (str_in (lit "_" ++ s ++ META_SUFFIX) META_ALL) eqn:E; [|reflexivity].
  apply str_in_In in E. rewrite dget_dset_other; [reflexivity|]. intros <-. now apply (X2 _ E).
Qed.

Lemma load_subs_confined u data : forall n k, k <> u -> (forall m, In m METAS -> k <> u ++ m) ->
  dget k (fold_left (load_sub u) data n) = dget k n.
Proof.
  induction data as [|kv data IH]; intros n k X1 X2; [reflexivity|]. cbn [fold_left].
  rewrite IH by auto. now apply load_sub_confined.
Qed.

Lemma load_subs_present u data : forall n, dget u n <> None -> dget u (fold_left (load_sub u) data n) <> None.
Proof.
  induction data as [|[s v] data IH]; intros n Hn; [exact Hn|]. cbn [fold_left]. apply IH.
  unfold load_sub. destruct (str_eqb s META_VALUE); [rewrite dget_dset_same; discriminate|].
  destruct (str_in _ _); [|exact Hn]. rewrite dget_dset. destruct (str_eqb _ u); [discriminate|exact Hn].
Qed.

Lemma load_user_tidy src n u data n' :
  ~ hidden u -> tidy n -> load_user src n (u, data) = Ok n' -> tidy n'.
Proof.
  intros Hu T. unfold load_user. destruct data as [| | | | | |d|]; try discriminate.
  intros E. assert (E' := f_equal (fun r => match r with Ok x => x | Raise _ => n end) E). cbn in E'.
  clear E. subst n'.
  eapply (confined_tidy u n); [exact Hu|exact T| |left].
  - intros k X1 X2. rewrite load_subs_confined by auto.
    rewrite dget_dset_other by (intros <-; apply (X2 META_SOURCE); cbn; auto). rewrite dget_dset_other; congruence.
  - apply load_subs_present. rewrite dget_dset. destruct (str_eqb _ u); [discriminate|].
    rewrite dget_dset_same. discriminate.
Qed.

Lemma load_users_tidy src us : forall n n',
  (forall u, In u (dkeys us) -> ~ hidden u) -> tidy n -> fold_res (load_user src) us n = Ok n' -> tidy n'.
Proof.
  induction us as [|[u d] us IH]; intros n n' Hu T; cbn [fold_res].
  - now intros [= <-].
  - destruct (load_user src n (u, d)) as [n1|] eqn:E; [|discriminate]. cbn [bind]. intros E2.
    apply (IH n1 n'); [intros x Hx; apply Hu; now right| |exact E2].
    apply (load_user_tidy src n u d n1); auto. apply Hu. now left.
Qed.

Lemma tidy_nil : tidy [].
Proof. intros a m _ _ H. now destruct H. Qed.

(** Setting an entry whose name is not hidden. *)
Lemma tidy_dset n k v : ~ hidden k -> tidy n -> tidy (dset k v n).
Proof.
  intros Hk T b m Hm Hb. change (In m METAS) in Hm. rewrite !dget_dset.
  destruct (str_eqb_spec k (b ++ m)) as [->|X]; [exfalso; apply Hk; now apply hidden_meta|].
  intros H. destruct (str_eqb k b); [discriminate|]. now apply (T b m).
Qed.

Lemma tidy_meta n a m v : In m METAS -> dget a n <> None -> tidy n -> tidy (dset (a ++ m) v n).
Proof.
  intros Hm Ha T b m' Hm' Hb. change (In m' METAS) in Hm'. rewrite !dget_dset.
  assert (E : str_eqb (a ++ m) b = false).
  { destruct (str_eqb_spec (a ++ m) b) as [<-|]; [|reflexivity]. exfalso. apply Hb. now apply hidden_meta. }
  rewrite E. destruct (str_eqb_spec (a ++ m) (b ++ m')) as [E2|X].
  - apply meta_apart in E2 as [-> _]; auto.
  - now apply (T b m').
Qed.

Lemma internal_not_hidden a : In a ALL_INTERNAL -> ~ hidden a.
Proof.
  intros H Hh. apply (endswith_iff (lit "__nxt")) in Hh. revert Hh.
  unfold ALL_INTERNAL in H. cbn [TRACKED UNTRACKED app In] in H.
  repeat (destruct H as [<-|H]; [vm_compute; discriminate|]). destruct H.
Qed.

Lemma created_tidy data rp parent proxy n :
  (forall us u, dget K_ATTRS data = Some (VDict us) -> In u (dkeys us) -> ~ hidden u) ->
  create_node data rp parent proxy = Ok n -> tidy n /\ NoDup (dkeys n).
Proof.
  intros Hu. unfold create_node. destruct (dget (lit "name") data) as [[| | |nm| | | |]|]; try discriminate.
  set (src := VTuple _).
  set (ua := match dget K_ATTRS data with None => Ok [] | Some (VDict us) => fold_res (load_user src) us [] | Some _ => Raise AttributeError end).
  destruct ua as [attrs|] eqn:Eu; [|discriminate]. cbn [bind].
  destruct (load_child_order data) as [co|]; [|discriminate]. cbn [bind].
  set (pp := if proxy then _ else _). clearbody pp.
  assert (T0 : tidy attrs /\ NoDup (dkeys attrs)).
  { unfold ua in Eu. destruct (dget K_ATTRS data) as [[| | | | | |us|]|]; try discriminate.
    - split; [eapply load_users_tidy; [|exact tidy_nil|exact Eu]; intros u; now apply Hu|].
      refine (load_users_nodup _ _ _ _ _ Eu). constructor.
    - injection Eu as <-. split; [exact tidy_nil|constructor]. }
  clear Eu ua.
  assert (T1 : forall l (n : node), incl l ALL_INTERNAL -> tidy n /\ NoDup (dkeys n) ->
     let n' := fold_left (load_internal data) l n in
     (tidy n' /\ NoDup (dkeys n')) /\ forall a, In a l \/ dget a n <> None -> dget a n' <> None).
  { induction l as [|a l IH]; intros n0 Hl [T Hn]; cbn [fold_left].
    - split; [auto|]. intros a [[]|H]. exact H.
    - destruct (IH (load_internal data n0 a)) as [IH1 IH2].
      { intros x Hx. apply Hl. now right. }
      { unfold load_internal. split; [apply tidy_dset; [apply internal_not_hidden; apply Hl; now left|exact T]|].
        now apply NoDup_dset. }
      split; [exact IH1|]. intros b Hb. apply IH2.
      destruct Hb as [[<-|Hb]|Hb]; [right|now left|right]; unfold load_internal; rewrite dget_dset.
      + rewrite str_eqb_refl. discriminate.
      + destruct (str_eqb a b); [discriminate|exact Hb]. }
  destruct (T1 ALL_INTERNAL attrs (incl_refl _) T0) as [[T Hn] Hp]. cbv zeta in T, Hn, Hp. clear T1.
  set (n1 := fold_left (load_internal data) ALL_INTERNAL attrs) in *. clearbody n1. clear T0.
  assert (S : forall l (n : node), (forall a, In a l -> dget a n <> None) -> tidy n /\ NoDup (dkeys n) ->
     let n' := fold_left (fun n attr => dset (attr ++ META_SOURCE) src n) l n in tidy n' /\ NoDup (dkeys n')).
  { induction l as [|a l IH]; intros n0 Hl [T' Hn']; cbn [fold_left]; [auto|]. apply IH.
    - intros b Hb. rewrite dget_dset. destruct (str_eqb _ b); [discriminate|]. apply Hl. now right.
    - split; [|now apply NoDup_dset]. apply tidy_meta; [cbn; auto| |exact T']. apply Hl. now left. }
  intros E. assert (E' := f_equal (fun r => match r with Ok x => x | Raise _ => n1 end) E).
  cbv beta iota in E'. clear E. subst n. apply S.
  - intros a Ha. rewrite !dget_dset. repeat (destruct (str_eqb _ a); [discriminate|]). apply Hp. left.
    unfold ALL_INTERNAL. apply in_app_iff. now left.
  - split; [|repeat apply NoDup_dset; exact Hn].
    repeat (apply tidy_dset; [apply internal_not_hidden; cbn; tauto|]). exact T.
Qed.

(** *** Copying *)

Section Copy.
Variables ud uw : N -> bool.
Variable bi : list pystr.
Variable le : pystr -> literal.
Variable ts : pyval -> pystr.
Hypothesis dunder : forall a, In a bi -> exists s, a = lit "__" ++ s.
Notation digit ud := (isdigit ud).
Notation word uw := (is_word uw).
Notation local_names := (local_names bi).

Definition takes (n : node) (a : pystr) : bool := has_opinion (internal_value n a) || str_eqb a ENABLED.

Lemma internal_not_builtin a : In a (TRACKED ++ UNTRACKED ++ NO_COMP) -> str_in a bi = false.
Proof.
  intros H. apply str_in_not_In. intros Hb. apply dunder in Hb as (s & ->).
  cbn [TRACKED UNTRACKED NO_COMP app In] in H.
  repeat (destruct H as [H|H]; [discriminate H|]). destruct H.
Qed.

Lemma allow_enabled a : str_in a ALLOW_NO_OPINION = str_eqb a ENABLED.
Proof. unfold ALLOW_NO_OPINION, str_in. cbn [existsb]. now rewrite orb_false_r. Qed.

Definition int_step (n : node) (d : dict pyval) (a : pystr) : dict pyval :=
  if str_in a bi then d
  else let val := internal_value n a in
       if has_opinion val || str_in a ALLOW_NO_OPINION then dset (as_save_key a) val d else d.

Lemma ints_get n l : NoDup (map as_save_key l) -> (forall a, In a l -> str_in a bi = false) ->
  forall d k, dget k (fold_left (int_step n) l d) =
    match find (fun a => str_eqb (as_save_key a) k) l with
    | Some a => if takes n a then Some (internal_value n a) else dget k d
    | None => dget k d
    end.
Proof.
  intros Hn Hb. induction l as [|a l IH]; intros d k; [reflexivity|]. cbn [fold_left find].
  cbn [map] in Hn. inversion Hn as [|x y Ha Hl]; subst.
  rewrite IH by (auto; intros b Hi; apply Hb; now right).
  unfold int_step. rewrite (Hb a) by now left. cbv zeta. rewrite allow_enabled. fold (takes n a).
  destruct (str_eqb_spec (as_save_key a) k) as [<-|X].
  - assert (F : find (fun b => str_eqb (as_save_key b) (as_save_key a)) l = None).
    { destruct (find _ l) as [b|] eqn:E; [|reflexivity]. exfalso. apply find_some in E as [Hi E].
      apply str_eqb_eq in E. apply Ha. rewrite <- E. now apply in_map. }
    rewrite F. destruct (takes n a); [now rewrite dget_dset_same|reflexivity].
  - destruct (find _ l) as [b|] eqn:E.
    + destruct (takes n b); [reflexivity|]. destruct (takes n a); [now rewrite dget_dset_other|reflexivity].
    + destruct (takes n a); [now rewrite dget_dset_other|reflexivity].
Qed.

Lemma internals_keys : NoDup (map as_save_key (TRACKED ++ UNTRACKED ++ NO_COMP)).
Proof. vm_compute. repeat constructor; cbn; intuition discriminate. Qed.

Lemma get_internals_get n a : In a ALL_INTERNAL ->
  dget (as_save_key a) (get_internals bi n) = if takes n a then Some (internal_value n a) else None.
Proof.
  intros Hi. unfold get_internals. fold (int_step n). unfold PROTECTED. rewrite fold_left_app.
  assert (B : forall l, incl l bi -> fold_left (int_step n) l [] = []).
  { induction l as [|b l IH]; intros Hl; [reflexivity|]. cbn [fold_left].
    unfold int_step at 2. rewrite (proj2 (str_in_In b bi)) by (apply Hl; now left).
    apply IH. intros x Hx. apply Hl. now right. }
  rewrite (B bi (incl_refl _)). rewrite ints_get; [|exact internals_keys|exact internal_not_builtin].
  assert (F : find (fun b => str_eqb (as_save_key b) (as_save_key a)) (TRACKED ++ UNTRACKED ++ NO_COMP) = Some a).
  { unfold ALL_INTERNAL in Hi. cbn [TRACKED UNTRACKED app In] in Hi.
    repeat (destruct Hi as [<-|Hi]; [reflexivity|]). destruct Hi. }
  rewrite F. reflexivity.
Qed.

Lemma data_internal pl n a : In a ALL_INTERNAL ->
  dget (as_save_key a) (get_node_data bi ts pl n) = if takes n a then Some (internal_value n a) else None.
Proof.
  intros Hi. unfold get_node_data. rewrite dget_dset_other; [now apply get_internals_get|].
  unfold ALL_INTERNAL in Hi. cbn [TRACKED UNTRACKED app In] in Hi.
  repeat (destruct Hi as [<-|Hi]; [vm_compute; discriminate|]). destruct Hi.
Qed.

(** What is entered for an internal attribute. *)
Lemma set_internal_copy pl from sn tracked n a : In a ALL_INTERNAL ->
  set_internal pl (get_node_data bi ts from sn) tracked n a =
  if takes sn a
  then let n := dset a (internal_value sn a) n in
       if tracked then dset (a ++ META_SOURCE) (here pl) n else n
  else n.
Proof.
  intros Hi. unfold set_internal. rewrite data_internal by exact Hi. rewrite allow_enabled.
  destruct (takes sn a) eqn:E.
  - unfold takes in E. rewrite E. reflexivity.
  - unfold takes in E. apply orb_false_iff in E as [_ E]. rewrite E. reflexivity.
Qed.

Lemma internal_userk a : In a ALL_INTERNAL -> userk bi a = false.
Proof.
  intros H. unfold userk. replace (str_in a (PROTECTED bi)) with true; [reflexivity|]. symmetry.
  apply str_in_In. unfold PROTECTED. rewrite in_app_iff. right. unfold ALL_INTERNAL in H.
  rewrite app_assoc. apply in_app_iff. now left.
Qed.

(** The effect of a pass over internal attributes. *)
Lemma pass_ok pl from sn tracked l : incl l ALL_INTERNAL -> NoDup l -> forall n,
  tidy n -> NoDup (dkeys n) ->
  let n' := fold_left (set_internal pl (get_node_data bi ts from sn) tracked) l n in
  (forall a, ~ hidden a -> dget a n' = if str_in a l && takes sn a then Some (internal_value sn a) else dget a n) /\
  (forall a m, In m METAS -> ~ In a l -> dget (a ++ m) n' = dget (a ++ m) n) /\
  tidy n' /\ NoDup (dkeys n') /\ names bi n' = names bi n.
Proof.
  induction l as [|b l IH]; intros Hl Hnd n T Hn; cbn [fold_left]; [repeat split; auto|].
  inversion Hnd as [|x y Hb Hnd']; subst.
  assert (Hi : In b ALL_INTERNAL) by (apply Hl; now left).
  assert (Hh : ~ hidden b) by now apply internal_not_hidden.
  cbv zeta. set (n1 := if takes sn b then (let n := dset b (internal_value sn b) n in
       if tracked then dset (b ++ META_SOURCE) (here pl) n else n) else n).
  assert (En1 : set_internal pl (get_node_data bi ts from sn) tracked n b = n1) by now apply set_internal_copy.
  rewrite En1.
  assert (K : tidy n1 /\ NoDup (dkeys n1) /\ names bi n1 = names bi n /\
    (forall a, ~ hidden a -> dget a n1 = if str_eqb b a && takes sn b then Some (internal_value sn b) else dget a n) /\
    (forall a m, In m METAS -> a <> b -> dget (a ++ m) n1 = dget (a ++ m) n)).
  { unfold n1. destruct (takes sn b); [|rewrite ?andb_false_r; repeat split; auto; intros; now rewrite andb_false_r].
    cbv zeta.
    assert (T' : tidy (dset b (internal_value sn b) n)) by now apply tidy_dset.
    assert (N' : names bi (dset b (internal_value sn b) n) = names bi n).
    { rewrite names_dset, internal_userk, andb_false_r by exact Hi. apply app_nil_r. }
    destruct tracked.
    - split; [apply tidy_meta; [cbn; auto|rewrite dget_dset_same; discriminate|exact T']|].
      split; [repeat apply NoDup_dset; exact Hn|]. split; [rewrite names_dset_meta by (cbn; auto); exact N'|].
      split.
      + intros a Ha. rewrite dget_dset_other by (intros <-; apply Ha; apply hidden_meta; cbn; auto).
        rewrite dget_dset. now rewrite andb_true_r.
      + intros a m Hm X. rewrite dget_dset_other.
        * apply dget_dset_other. intros ->. apply Hh. now apply hidden_meta.
        * intros E. apply meta_apart in E as [E _]; [congruence|cbn; auto|exact Hm].
    - split; [exact T'|]. split; [now apply NoDup_dset|]. split; [exact N'|]. split.
      + intros a Ha. rewrite dget_dset. now rewrite andb_true_r.
      + intros a m Hm X. apply dget_dset_other. intros ->. apply Hh. now apply hidden_meta. }
  destruct K as (T1 & Hn1 & NM1 & G1 & G2).
  destruct (IH (fun x Hx => Hl x (or_intror Hx)) Hnd' n1 T1 Hn1) as (A1 & A2 & A3 & A4 & A5).
  cbv zeta in *. split; [|split; [|split; [exact A3|split; [exact A4|congruence]]]].
  - intros a Ha. rewrite A1, G1 by exact Ha. unfold str_in at 2. cbn [existsb]. fold (str_in a l).
    destruct (str_eqb_spec a b) as [->|X].
    + apply str_in_not_In in Hb. rewrite Hb, str_eqb_refl. reflexivity.
    + destruct (str_eqb_spec b a); [congruence|]. reflexivity.
  - intros a m Hm Ha. rewrite A2 by (auto; intros H; apply Ha; now right). apply G2; [exact Hm|].
    intros ->. apply Ha. now left.
Qed.

(** The user attributes one after another. *)
Definition copied (pl : place) (sn : node) (a : pystr) (x : attribute) : Prop :=
  emptied (value x) = emptied (raw_value ts sn a) /\
  given (comment x) = Some (emptied (attr_or_none sn (a ++ META_COMMENT))) /\
  source x = Some (here pl).

Lemma emptied_twice v : emptied (emptied v) = emptied v.
Proof. destruct v as [| | |[|]| | | |]; reflexivity. Qed.

Lemma set_users_ok pl sn l : active pl = true -> NoDup l ->
  (forall a, In a l -> legal (digit ud) (word uw) a /\ ~ hidden a /\ ~ In a (PROTECTED bi) /\
             readable le (Some (raw_value ts sn a))) ->
  forall n, tidy n -> NoDup (dkeys n) ->
  exists n', set_users ud uw bi le pl (map (fun a => (a, attr_entry ts sn a)) l) n = Some (n', Ok tt) /\
    (forall a, In a l -> exists x, read n' a = Some x /\ copied pl sn a x) /\
    (forall a, ~ hidden a -> ~ In a l -> read n' a = read n a) /\
    (forall a, In a ALL_INTERNAL -> dget a n' = dget a n) /\
    tidy n' /\ NoDup (dkeys n').
Proof.
  intros Hact Hnd Hl. induction l as [|a l IH]; intros n T Hn; cbn [map set_users].
  { exists n. repeat split; auto. intros a []. }
  inversion Hnd as [|x y Ha Hnd']; subst.
  destruct (Hl a (or_introl eq_refl)) as (Hleg & Hh & Hp & Hr).
  assert (Hi : ~ In a ALL_INTERNAL).
  { intros H. apply internal_userk in H. unfold userk in H.
    rewrite (proj2 (str_in_not_In _ _) Hp) in H. cbn [negb andb] in H.
    apply negb_false_iff in H. apply endswith_iff in H. now apply Hh. }
  assert (Hho : ~ In a HANDED_OVER) by (intros H; apply Hi; revert H; cbn; tauto).
  unfold attr_entry at 1.
  set (vals := [(META_VALUE, raw_value ts sn a); (lit "comment", attr_or_none sn (a ++ META_COMMENT))]).
  assert (V1 : NoDup (dkeys vals)).
  { unfold vals. cbn. repeat constructor; cbn; intuition discriminate. }
  assert (V2 : ~ In (lit "type") (dkeys vals)) by (unfold vals; cbn; intuition discriminate).
  assert (V3 : ~ In (lit "source") (dkeys vals)) by (unfold vals; cbn; intuition discriminate).
  assert (Step : exists n1 x, node_setattr_data ud uw bi le pl n a true vals = Some (n1, Ok tt) /\
     becomes a (Some x) n n1 /\ copied pl sn a x /\ tidy n1 /\ NoDup (dkeys n1)).
  { destruct (read n a) as [old|] eqn:Er.
    - destruct (set_ok ud uw bi le pl n a true vals old) as (n1 & E & B & _ & T1 & N1); auto.
      exists n1. eexists. split; [exact E|]. split; [exact B|].
      change (dget (lit "value") vals) with (Some (raw_value ts sn a)).
      change (dget (lit "comment") vals) with (Some (attr_or_none sn (a ++ META_COMMENT))).
      cbv beta iota.
      replace (tracked_attr bi a) with true.
      2:{ unfold tracked_attr. now rewrite (proj2 (str_in_not_In _ _) Hp). }
      split; [|split; assumption]. unfold copied. cbn [value comment source given option_map or_else].
      now rewrite !emptied_twice.
    - destruct (create_ok ud uw bi le pl n a vals (raw_value ts sn a)) as (n1 & x & E & B & X1 & X2 & _ & X4 & _ & T1 & N1); auto.
      exists n1, x. split; [exact E|]. split; [exact B|]. split; [|split; assumption].
      unfold copied. split; [destruct X1 as [-> | ->]; [reflexivity|apply emptied_twice]|]. split; [|exact X4].
      rewrite X2. reflexivity. }
  destruct Step as (n1 & x & E & B & Cx & T1 & N1). rewrite E.
  destruct (IH Hnd' (fun b Hb => Hl b (or_intror Hb)) n1 T1 N1) as (n' & E' & A1 & A2 & A3 & A4 & A5).
  exists n'. split; [exact E'|]. split; [|split; [|split; [|split; assumption]]].
  - intros b [<-|Hb]; [|now apply A1]. exists x. split; [|exact Cx].
    rewrite A2 by assumption. rewrite (B a Hh). now rewrite str_eqb_refl.
  - intros b Hb Hnb. rewrite A2 by (auto; intros H; apply Hnb; now right). rewrite (B b Hb).
    destruct (str_eqb_spec b a) as [->|]; [exfalso; apply Hnb; now left|reflexivity].
  - intros b Hb. rewrite A3 by exact Hb. pose proof (B b (internal_not_hidden b Hb)) as K.
    destruct (str_eqb_spec b a) as [->|X]; [contradiction|]. unfold read in K.
    destruct (dget b n1), (dget b n); congruence.
Qed.

Lemma copy_ok pl tn from sn :
  active pl = true -> active from = true -> tidy tn -> NoDup (dkeys tn) -> NoDup (dkeys sn) ->
  (forall a, user_attr (PROTECTED bi) sn a ->
             legal (digit ud) (word uw) a /\ readable le (Some (raw_value ts sn a))) ->
  exists n', transfer_node_data ud uw bi le ts pl tn from sn = Some (n', Ok tt) /\
    (forall a, In a ALL_INTERNAL ->
       dget a n' = if takes sn a then Some (internal_value sn a) else dget a tn) /\
    (forall a, user_attr (PROTECTED bi) sn a -> exists x, read n' a = Some x /\ copied pl sn a x) /\
    (forall a, ~ hidden a -> ~ In a ALL_INTERNAL -> ~ user_attr (PROTECTED bi) sn a ->
       read n' a = read tn a) /\
    tidy n' /\ NoDup (dkeys n').
Proof.
  intros Hact Hfr T Hn Hsn Hu. unfold transfer_node_data, set_node_data.
  assert (ND : NoDup TRACKED /\ NoDup UNTRACKED) by (split; repeat constructor; cbn; intuition discriminate).
  destruct (pass_ok pl from sn true TRACKED) with (n := tn) as (A1 & A2 & A3 & A4 & A5);
    [intros x Hx; unfold ALL_INTERNAL; apply in_app_iff; now left|apply ND|exact T|exact Hn|].
  set (n1 := fold_left (set_internal pl (get_node_data bi ts from sn) true) TRACKED tn) in *. cbv zeta in *.
  destruct (pass_ok pl from sn false UNTRACKED) with (n := n1) as (B1 & B2 & B3 & B4 & B5);
    [intros x Hx; unfold ALL_INTERNAL; apply in_app_iff; now right|apply ND|exact A3|exact A4|].
  set (n2 := fold_left (set_internal pl (get_node_data bi ts from sn) false) UNTRACKED n1) in *. cbv zeta in *.
  assert (Ed : dget (lit "attributes") (get_node_data bi ts from sn)
               = Some (VDict (map (fun a => (a, attr_entry ts sn a)) (local_names from sn)))).
  { unfold get_node_data. rewrite dget_dset_same. do 2 f_equal.
    assert (Nl : NoDup (local_names from sn)).
    { rewrite local_names_eq by exact Hfr. unfold names. now apply NoDup_filter. }
    revert Nl. generalize (local_names from sn). intros l Nl.
    assert (G : forall l d, NoDup l -> (forall x, In x l -> ~ In x (dkeys d)) ->
       fold_left (fun d a => dset a (attr_entry ts sn a) d) l d = d ++ map (fun a => (a, attr_entry ts sn a)) l).
    { clear. induction l as [|a l IH]; intros d Hl Hd; cbn [fold_left map]; [now rewrite app_nil_r|].
      inversion Hl; subst. rewrite dset_new by (apply Hd; now left). rewrite IH; [now rewrite <- app_assoc|assumption|].
      intros x Hx. unfold dkeys. rewrite map_app, in_app_iff. cbn [map fst In]. intros [H|[<-|[]]]; [|contradiction].
      apply (Hd x); [now right|exact H]. }
    apply (G l []); [exact Nl|]. intros x _ []. }
  rewrite Ed.
  destruct (set_users_ok pl sn (local_names from sn)) with (n := n2) as (n' & E & C1 & C2 & C3 & C4 & C5).
  - exact Hact.
  - rewrite local_names_eq by exact Hfr. unfold names. now apply NoDup_filter.
  - intros a Ha. apply local_names_iff in Ha; [|exact Hfr]. destruct (Hu a Ha) as [H1 H2].
    destruct Ha as (_ & H3 & H4). auto.
  - exact B3.
  - exact B4.
  - exists n'. split; [exact E|]. split; [|split; [|split; [|split; assumption]]].
    + intros a Ha. rewrite C3 by exact Ha. assert (Hh := internal_not_hidden a Ha).
      rewrite B1, A1 by exact Hh. unfold ALL_INTERNAL in Ha. apply in_app_iff in Ha.
      destruct (takes sn a) eqn:Et; rewrite ?andb_true_r, ?andb_false_r; [|reflexivity].
      destruct (str_in a UNTRACKED) eqn:E1; [reflexivity|]. destruct (str_in a TRACKED) eqn:E2; [reflexivity|].
      apply str_in_not_In in E1. apply str_in_not_In in E2. tauto.
    + intros a Ha. apply C1. now apply local_names_iff.
    + intros a Hh Hi Ha. rewrite C2; [|exact Hh|].
      2:{ intros H. apply Ha. now apply local_names_iff in H. }
      assert (I1 : ~ In a TRACKED) by (intros H; apply Hi; unfold ALL_INTERNAL; apply in_app_iff; now left).
      assert (I2 : ~ In a UNTRACKED) by (intros H; apply Hi; unfold ALL_INTERNAL; apply in_app_iff; now right).
      apply read_ext.
      * rewrite B1, A1 by exact Hh. apply str_in_not_In in I1. apply str_in_not_In in I2. now rewrite I1, I2.
      * intros m Hm. rewrite B2, A2; auto.
Qed.

End Copy.
