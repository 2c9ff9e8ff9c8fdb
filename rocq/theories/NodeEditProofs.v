(** Proofs about editing a node's attributes. *)

From Coq Require Import String List NArith ZArith Bool Lia.
From Verif Require Import PyStr PyStrFacts NxtPath Dict DictFacts PyVal NodeIO NodeIOProofs
  Names NamesSpec NamesProofs NodeEdit NodeEditSpec.
Import ListNotations.

Definition METAS : list pystr := [META_COMMENT; META_TYPE; META_SOURCE].

Lemma hidden_meta a m : In m METAS -> hidden (a ++ m).
Proof.
  intros [<-|[<-|[<-|[]]]]; [exists (a ++ lit "_comment")|exists (a ++ lit "_type")|exists (a ++ lit "_source")];
    rewrite <- app_assoc; reflexivity.
Qed.

Lemma meta_apart a b m m' : In m METAS -> In m' METAS -> a ++ m = b ++ m' -> a = b /\ m = m'.
Proof.
  intros H H' E.
  assert (K : forall (x y : pystr) p q, length p = length q -> x ++ p = y ++ q -> p = q).
  { intros x y p q Hl Hx. pose proof (app_inj_len x y p q Hl Hx) as ->. now apply app_inv_head in Hx. }
  destruct H as [<-|[<-|[<-|[]]]], H' as [<-|[<-|[<-|[]]]];
    try (split; [eapply app_inj_len; [|exact E]; reflexivity|reflexivity]); exfalso;
    change META_COMMENT with (lit "_com" ++ lit "ment__nxt") in E;
    change META_SOURCE with (lit "_so" ++ lit "urce__nxt") in E;
    change META_TYPE with (lit "_" ++ lit "type__nxt") in E;
    rewrite !app_assoc in E; now apply K in E.
Qed.

(** A node's table depends on four entries of the dict per name. *)
Lemma read_ext n n' b :
  (dget b n' = dget b n) ->
  (forall m, In m METAS -> dget (b ++ m) n' = dget (b ++ m) n) -> read n' b = read n b.
Proof.
  intros H1 H2. unfold read. rewrite H1. destruct (dget b n); [|reflexivity].
  f_equal. f_equal; apply H2; unfold METAS; cbn; auto.
Qed.

Lemma not_hidden_eq b a m : In m METAS -> ~ hidden b -> str_eqb b (a ++ m) = false.
Proof.
  intros Hm Hb. destruct (str_eqb_spec b (a ++ m)) as [->|]; [|reflexivity].
  exfalso. apply Hb. now apply hidden_meta.
Qed.

Lemma user_key bi a :
  negb (str_in a (PROTECTED bi)) && negb (endswith META_SUFFIX a) = true <->
  ~ In a (PROTECTED bi) /\ ~ hidden a.
Proof.
  rewrite andb_true_iff, !negb_true_iff, str_in_not_In. split; intros [H1 H2]; split; auto.
  - intros H. apply endswith_iff in H. unfold META_SUFFIX in H2. congruence.
  - destruct (endswith META_SUFFIX a) eqn:E; [|reflexivity]. apply endswith_iff in E. contradiction.
Qed.

Section Proofs.
Variables ud uw : N -> bool.
Variable bi : list pystr.
Variable le : pystr -> literal.
Notation local_names := (local_names bi).
Notation unique_attr := (unique_attr ud uw bi).
Notation digit ud := (isdigit ud).
Notation word uw := (is_word uw).

Lemma local_names_iff pl n a : active pl = true ->
  (In a (local_names pl n) <-> user_attr (PROTECTED bi) n a).
Proof.
  intros Ha. unfold NodeEdit.local_names, user_attr. rewrite Ha, filter_In, user_key.
  rewrite <- dget_some_key. unfold read. split.
  - intros ((v & ->) & H1 & H2). repeat split; auto. discriminate.
  - intros (H & H2 & H1). split; [|auto]. destruct (dget a n); [eauto|congruence].
Qed.

Lemma ends_in_digit s d k : numeral d k -> ~ hidden (s ++ d).
Proof.
  intros (F & Hn & _) [b E]. destruct d as [|c d _] using rev_ind; [congruence|].
  rewrite app_assoc in E. change (lit "__nxt") with (lit "__nx" ++ [116%N]) in E.
  rewrite app_assoc in E. apply app_inj_tail in E as [_ ->].
  apply Forall_app in F as [_ F]. inversion F. lia.
Qed.

(** The name an attribute gets. *)
Lemma unique_attr_ok pl n attr :
  attr <> [] -> active pl = true -> ~ hidden (legal_form (digit ud) (word uw) attr) ->
  exists a, unique_attr pl n attr = Some (Ok a) /\ legal (digit ud) (word uw) a /\
    ~ hidden a /\ ~ In a (PROTECTED bi) /\ read n a = None /\ dget a n = None /\
    (read n (legal_form (digit ud) (word uw) attr) = None ->
     ~ In (legal_form (digit ud) (word uw) attr) (PROTECTED bi) ->
     a = legal_form (digit ud) (word uw) attr).
Proof.
  intros Hne Hact Hh. unfold NodeEdit.unique_attr.
  destruct (unique_attr_name_spec ud uw (local_names pl n) (PROTECTED bi)
              (S (length (local_names pl n ++ PROTECTED bi))) (Some attr)) as
    (a & E & Hl & H1 & H2 & H3 & H4); [congruence|lia|].
  cbn [preferred_attr] in H3, H4.
  exists a. split; [exact E|]. split; [exact Hl|].
  assert (Ha : ~ hidden a).
  { destruct (in_dec (list_eq_dec N.eq_dec) (legal_form (digit ud) (word uw) attr)
               (local_names pl n ++ PROTECTED bi)) as [Hi|Hi].
    - destruct (H4 Hi) as (stem & d & _ & _ & _ & (k & d' & _ & Hd & -> & _)).
      now apply ends_in_digit with k.
    - rewrite (H3 Hi). exact Hh. }
  split; [exact Ha|]. split; [exact H2|].
  assert (Hr : read n a = None).
  { destruct (read n a) eqn:Er; [|reflexivity]. exfalso. apply H1. apply local_names_iff; auto.
    split; [congruence|auto]. }
  split; [exact Hr|]. split.
  { unfold read in Hr. destruct (dget a n); [discriminate|reflexivity]. }
  intros Hf Hp. apply H3. rewrite in_app_iff. intros [Hi|Hi]; [|contradiction].
  apply local_names_iff in Hi; auto. now destruct Hi as [? _].
Qed.

(** *** Adding *)

Lemma sub_cases (s : pystr) :
  str_in (lit "_" ++ s ++ META_SUFFIX) META_ALL = true ->
  s = lit "comment" \/ s = lit "type" \/ s = lit "source".
Proof.
  intros H. apply str_in_In in H.
  assert (K : forall x : pystr, lit "_" ++ s ++ META_SUFFIX = lit "_" ++ x ++ META_SUFFIX -> s = x).
  { intros x E. apply app_inv_head in E. eapply app_inj_len; [|exact E]. reflexivity. }
  destruct H as [E|[E|[E|[]]]]; symmetry in E.
  - left. apply (K (lit "comment")). exact E.
  - right. left. apply (K (lit "type")). exact E.
  - right. right. apply (K (lit "source")). exact E.
Qed.

Lemma add_subs_get a data : forall n k, NoDup (dkeys data) ->
  dget k (fold_left (add_sub a) data n) =
  if str_eqb k a then or_else (dget META_VALUE data) (dget k n)
  else if str_eqb k (a ++ META_COMMENT) then or_else (dget (lit "comment") data) (dget k n)
  else if str_eqb k (a ++ META_TYPE) then or_else (dget (lit "type") data) (dget k n)
  else dget k n.
Proof.
  assert (N1 : forall m, In m METAS -> str_eqb (a ++ m) a = false).
  { intros m Hm. destruct (str_eqb_spec (a ++ m) a) as [E|]; [|reflexivity].
    exfalso. revert E. apply app_no_suffix. intros ->. cbn in Hm. intuition discriminate. }
  assert (N2 : str_eqb (a ++ META_TYPE) (a ++ META_COMMENT) = false).
  { destruct (str_eqb_spec (a ++ META_TYPE) (a ++ META_COMMENT)) as [E|]; [|reflexivity].
    apply app_inv_head in E. discriminate. }
  induction data as [|[s v] data IH]; intros n k Hn.
  - cbn [fold_left dget or_else]. destruct (str_eqb k a), (str_eqb k (a ++ META_COMMENT)), (str_eqb k (a ++ META_TYPE)); reflexivity.
  - cbn [fold_left]. etransitivity; [apply IH; inversion Hn; auto|].
    inversion Hn as [|x l Hs Hd]; subst. cbn [dkeys map fst] in Hs.
    assert (D : dget s data = None) by (apply dget_none; exact Hs).
    cbn [add_sub dget].
    destruct (str_eqb_spec s (lit "source")) as [->|Xs]; [reflexivity|].
    destruct (str_eqb_spec s META_VALUE) as [->|Xv].
    { rewrite D. rewrite dget_dset.
      change (str_eqb META_VALUE (lit "comment")) with false.
      change (str_eqb META_VALUE (lit "type")) with false. cbn [or_else].
      destruct (str_eqb_spec k a) as [->|X].
      - now rewrite str_eqb_refl.
      - destruct (str_eqb_spec a k); [congruence|reflexivity]. }
    destruct (str_in (lit "_" ++ s ++ META_SUFFIX) META_ALL) eqn:Em.
    + apply sub_cases in Em as [->|[->| ->]]; [| |congruence].
      * change (lit "_" ++ lit "comment" ++ META_SUFFIX) with META_COMMENT.
        rewrite D, str_eqb_refl. change (str_eqb (lit "comment") (lit "type")) with false.
        cbn [or_else]. rewrite dget_dset.
        destruct (str_eqb_spec k a) as [->|X].
        { rewrite (N1 META_COMMENT) by (cbn; auto). reflexivity. }
        destruct (str_eqb_spec k (a ++ META_COMMENT)) as [->|X2].
        { now rewrite str_eqb_refl. }
        destruct (str_eqb_spec (a ++ META_COMMENT) k); [congruence|reflexivity].
      * change (lit "_" ++ lit "type" ++ META_SUFFIX) with META_TYPE.
        rewrite D, str_eqb_refl. change (str_eqb (lit "type") (lit "comment")) with false.
        cbn [or_else]. rewrite dget_dset.
        destruct (str_eqb_spec (a ++ META_TYPE) k) as [<-|X3].
        { rewrite (N1 META_TYPE), N2, str_eqb_refl by (cbn; auto). reflexivity. }
        destruct (str_eqb_spec k a) as [->|X]; [reflexivity|].
        destruct (str_eqb_spec k (a ++ META_COMMENT)) as [->|X2]; [reflexivity|].
        destruct (str_eqb_spec k (a ++ META_TYPE)); [congruence|reflexivity].
    + destruct (str_eqb_spec s (lit "comment")) as [->|Xc]; [discriminate Em|].
      destruct (str_eqb_spec s (lit "type")) as [->|Xt]; [discriminate Em|]. reflexivity.
Qed.

Lemma add_sub_nodup a data : forall n, NoDup (dkeys n) -> NoDup (dkeys (fold_left (add_sub a) data n)).
Proof.
  apply fold_dset_nodup. intros n [s v] H. unfold add_sub.
  destruct (str_eqb _ _); [exact H|]. destruct (str_eqb _ _); [now apply NoDup_dset|].
  destruct (str_in _ _); [now apply NoDup_dset|exact H].
Qed.

Lemma meta_neq a m m' : In m METAS -> In m' METAS -> m <> m' -> str_eqb (a ++ m) (a ++ m') = false.
Proof.
  intros H H' X. destruct (str_eqb_spec (a ++ m) (a ++ m')) as [E|]; [|reflexivity].
  apply app_inv_head in E. congruence.
Qed.

Lemma meta_name_neq a m : In m METAS -> str_eqb (a ++ m) a = false.
Proof.
  intros Hm. destruct (str_eqb_spec (a ++ m) a) as [E|]; [|reflexivity].
  exfalso. revert E. apply app_no_suffix. intros ->. cbn in Hm. intuition discriminate.
Qed.

Lemma or_else_none x : or_else x None = x.
Proof. now destruct x. Qed.

(** A change confined to the four entries of [a] is a change of [a] only. *)
Lemma confined a n n' :
  ~ hidden a ->
  (forall k, k <> a -> (forall m, In m METAS -> k <> a ++ m) -> dget k n' = dget k n) ->
  becomes a (read n' a) n n'.
Proof.
  intros Ha H b Hb. destruct (str_eqb_spec b a) as [->|X]; [reflexivity|].
  apply read_ext.
  - apply H; [exact X|]. intros m Hm ->. apply Hb. now apply hidden_meta.
  - intros m Hm. apply H.
    + intros E. apply Ha. rewrite <- E. now apply hidden_meta.
    + intros m' Hm' E. apply meta_apart in E as [E _]; auto.
Qed.

(** Tidiness survives such a change if [a] is there afterwards, or all its
    entries are gone. *)
Lemma confined_tidy a n n' :
  ~ hidden a -> tidy n ->
  (forall k, k <> a -> (forall m, In m METAS -> k <> a ++ m) -> dget k n' = dget k n) ->
  (dget a n' <> None \/ forall m, In m METAS -> dget (a ++ m) n' = None) -> tidy n'.
Proof.
  intros Ha T H Hd b m Hm Hb Hx. change (In m METAS) in Hm.
  destruct (str_eqb_spec b a) as [->|X].
  - destruct Hd as [Hd|Hd]; [exact Hd|]. now rewrite Hd in Hx.
  - assert (E1 : dget b n' = dget b n).
    { apply H; [exact X|]. intros m' Hm' ->. apply Hb. now apply hidden_meta. }
    rewrite E1. apply (T b m); auto. rewrite H in Hx; [exact Hx| |].
    + intros E. apply Ha. rewrite <- E. now apply hidden_meta.
    + intros m' Hm' E. apply meta_apart in E as [E _]; auto.
Qed.

Definition here (pl : place) : pyval := VTuple [real pl; VStr (at_path pl)].

(** What add_node_attr leaves behind once the name is chosen. *)
Lemma added pl n a data (n' := dset (a ++ META_SOURCE) (source_here pl) (fold_left (add_sub a) data n)) v :
  ~ hidden a -> tidy n -> NoDup (dkeys n) -> NoDup (dkeys data) -> dget a n = None ->
  dget META_VALUE data = Some v ->
  becomes a (Some (Attribute v (dget (lit "comment") data) (dget (lit "type") data) (Some (here pl)))) n n' /\
  tidy n' /\ NoDup (dkeys n') /\
  (forall k, k <> a -> (forall m, In m METAS -> k <> a ++ m) -> dget k n' = dget k n).
Proof.
  intros Ha T Hn Hd Hnone Hv.
  assert (M : forall m, In m METAS -> dget (a ++ m) n = None).
  { intros m Hm. destruct (dget (a ++ m) n) eqn:E; [|reflexivity]. exfalso.
    apply (T a m); auto. congruence. }
  assert (C : forall k, k <> a -> (forall m, In m METAS -> k <> a ++ m) -> dget k n' = dget k n).
  { intros k X1 X2. unfold n'. rewrite dget_dset_other by (intros E; apply (X2 META_SOURCE); [cbn; auto|congruence]).
    rewrite add_subs_get by exact Hd.
    destruct (str_eqb_spec k a); [congruence|].
    destruct (str_eqb_spec k (a ++ META_COMMENT)) as [E|]; [exfalso; apply (X2 META_COMMENT); cbn; auto|].
    destruct (str_eqb_spec k (a ++ META_TYPE)) as [E|]; [exfalso; apply (X2 META_TYPE); cbn; auto|reflexivity]. }
  assert (R : read n' a = Some (Attribute v (dget (lit "comment") data) (dget (lit "type") data) (Some (here pl)))).
  { unfold read, n'.
    rewrite !dget_dset, !add_subs_get by exact Hd.
    rewrite (meta_name_neq a META_SOURCE) by (cbn; auto). rewrite str_eqb_refl, Hv, Hnone. cbn [or_else].
    change (lit "_comment__nxt") with META_COMMENT. change (lit "_type__nxt") with META_TYPE.
    change (lit "_source__nxt") with META_SOURCE.
    rewrite (meta_name_neq a META_COMMENT), (meta_name_neq a META_TYPE), !str_eqb_refl by (cbn; auto).
    rewrite !(meta_neq a META_SOURCE), (meta_neq a META_TYPE META_COMMENT) by (cbn; auto; discriminate).
    rewrite !M by (cbn; auto). now rewrite !or_else_none. }
  split; [rewrite <- R; now apply confined|]. split; [|split; [|exact C]].
  - apply (confined_tidy a n n'); auto. left. unfold read in R. destruct (dget a n'); [discriminate|discriminate].
  - unfold n'. apply NoDup_dset. now apply add_sub_nodup.
Qed.

Definition userk (a : pystr) : bool := negb (str_in a (PROTECTED bi)) && negb (endswith META_SUFFIX a).
Definition names (n : node) : list pystr := filter userk (dkeys n).

Lemma names_dset n k v :
  names (dset k v n) = names n ++ (if negb (dmem k n) && userk k then [k] else []).
Proof.
  unfold names. destruct (dmem k n) eqn:E; cbn [negb andb].
  - rewrite dkeys_dset_in by now apply dmem_In. now rewrite app_nil_r.
  - rewrite dkeys_dset_new by now apply dmem_false. rewrite filter_app. cbn [filter].
    now destruct (userk k).
Qed.

Lemma userk_meta a m : In m METAS -> userk (a ++ m) = false.
Proof.
  intros Hm. destruct (userk (a ++ m)) eqn:E; [|reflexivity]. apply user_key in E as [_ E].
  exfalso. apply E. now apply hidden_meta.
Qed.

Lemma names_dset_meta n a m v : In m METAS -> names (dset (a ++ m) v n) = names n.
Proof. intros Hm. now rewrite names_dset, userk_meta, andb_false_r, app_nil_r. Qed.

Lemma dmem_dset k (v : pyval) d k' : dmem k' (dset k v d) = str_eqb k k' || dmem k' d.
Proof. unfold dmem. rewrite dget_dset. now destruct (str_eqb k k'). Qed.

Lemma dmem_cons k s (v : pyval) d : dmem k ((s, v) :: d) = str_eqb s k || dmem k d.
Proof. unfold dmem. cbn [dget]. now destruct (str_eqb s k). Qed.

Lemma names_add_subs a data : userk a = true -> forall n,
  names (fold_left (add_sub a) data n)
  = names n ++ (if negb (dmem a n) && dmem META_VALUE data then [a] else []).
Proof.
  intros Hu. induction data as [|[s v] data IH]; intros n; cbn [fold_left].
  { now rewrite andb_false_r, app_nil_r. }
  rewrite IH, dmem_cons. unfold add_sub.
  destruct (str_eqb_spec s (lit "source")) as [->|Xs]; [reflexivity|].
  destruct (str_eqb_spec s META_VALUE) as [->|Xv].
  - rewrite names_dset, Hu, andb_true_r, <- app_assoc. f_equal.
    rewrite dmem_dset, str_eqb_refl. cbn [orb negb andb]. now destruct (dmem a n).
  - cbn [orb].
    destruct (str_in (lit "_" ++ s ++ META_SUFFIX) META_ALL) eqn:Em; [|reflexivity].
    apply str_in_In in Em. rewrite (names_dset_meta _ _ _ _ Em), dmem_dset, (meta_name_neq _ _ Em). reflexivity.
Qed.

Lemma names_ddel n k : NoDup (dkeys n) ->
  names (ddel k n) = filter (fun x => negb (str_eqb x k)) (names n).
Proof.
  intros Hn. unfold names. rewrite dkeys_ddel by exact Hn. clear Hn.
  induction (dkeys n) as [|x l IH]; [reflexivity|]. cbn [filter].
  destruct (str_eqb x k) eqn:E; cbn [negb].
  - rewrite IH. destruct (userk x); [cbn [filter]; now rewrite E|reflexivity].
  - cbn [filter]. destruct (userk x); [cbn [filter]; rewrite E; cbn [negb]; now rewrite IH|exact IH].
Qed.

Lemma local_names_eq pl n : active pl = true -> local_names pl n = names n.
Proof. intros H. unfold NodeEdit.local_names. now rewrite H. Qed.

Lemma userk_iff a : userk a = true <-> ~ In a (PROTECTED bi) /\ ~ hidden a.
Proof. apply user_key. Qed.

Lemma add_ok pl n attr data v :
  active pl = true -> attr <> [] -> ~ hidden (legal_form (digit ud) (word uw) attr) ->
  tidy n -> NoDup (dkeys n) -> NoDup (dkeys data) -> dget (lit "value") data = Some v ->
  exists a n',
    add_node_attr ud uw bi pl n attr data true = Some (n', Ok a) /\
    legal (digit ud) (word uw) a /\ ~ In a (PROTECTED bi) /\ ~ hidden a /\ read n a = None /\
    (read n (legal_form (digit ud) (word uw) attr) = None ->
     ~ In (legal_form (digit ud) (word uw) attr) (PROTECTED bi) ->
     a = legal_form (digit ud) (word uw) attr) /\
    becomes a (Some (Attribute v (dget (lit "comment") data) (dget (lit "type") data) (Some (here pl)))) n n' /\
    local_names pl n' = local_names pl n ++ [a] /\ tidy n' /\ NoDup (dkeys n').
Proof.
  intros Hact Hne Hh T Hn Hd Hv.
  destruct (unique_attr_ok pl n attr Hne Hact Hh) as (a & E & H1 & H2 & H3 & H4 & H5 & H6).
  destruct (added pl n a data v H2 T Hn Hd H5 Hv) as (B & T' & N' & _).
  eexists. eexists. split; [unfold add_node_attr; rewrite E; reflexivity|].
  repeat (split; [assumption|]). split; [|split; assumption].
  rewrite !local_names_eq by exact Hact. rewrite names_dset_meta by (cbn; auto).
  rewrite names_add_subs by (apply userk_iff; auto). f_equal.
  unfold dmem. rewrite H5. change META_VALUE with (lit "value"). rewrite Hv. reflexivity.
Qed.

(** *** Deleting *)

Lemma drop_metas_get a n k : NoDup (dkeys n) ->
  dget k (drop_metas a n) =
  if existsb (fun m => str_eqb k (a ++ m)) METAS then None else dget k n.
Proof.
  intros Hn. unfold drop_metas.
  assert (G : forall l (n : node), NoDup (dkeys n) ->
     dget k (fold_left (fun n m => if dmem (a ++ m) n then ddel (a ++ m) n else n) l n)
     = if existsb (fun m => str_eqb k (a ++ m)) l then None else dget k n).
  { clear n Hn. induction l as [|m l IH]; intros n Hn; [reflexivity|]. cbn [fold_left existsb].
    rewrite IH by (destruct (dmem _ n); [now apply NoDup_ddel|exact Hn]).
    destruct (existsb _ l); [now rewrite orb_true_r|]. rewrite orb_false_r.
    destruct (dmem (a ++ m) n) eqn:E.
    - rewrite dget_ddel by exact Hn.
      destruct (str_eqb_spec (a ++ m) k) as [<-|X]; [now rewrite str_eqb_refl|].
      destruct (str_eqb_spec k (a ++ m)); [congruence|reflexivity].
    - destruct (str_eqb_spec k (a ++ m)) as [->|]; [|reflexivity].
      unfold dmem in E. destruct (dget (a ++ m) n); [discriminate|reflexivity]. }
  now apply G.
Qed.

Lemma drop_metas_nodup a n : NoDup (dkeys n) -> NoDup (dkeys (drop_metas a n)).
Proof.
  unfold drop_metas. apply fold_dset_nodup. intros d m H. destruct (dmem _ d); [now apply NoDup_ddel|exact H].
Qed.

Lemma drop_metas_names a n : NoDup (dkeys n) -> names (drop_metas a n) = names n.
Proof.
  unfold drop_metas. assert (G : forall l (n : node), incl l METAS -> NoDup (dkeys n) ->
     names (fold_left (fun n m => if dmem (a ++ m) n then ddel (a ++ m) n else n) l n) = names n).
  { clear n. induction l as [|m l IH]; intros n Hl Hn; [reflexivity|]. cbn [fold_left].
    assert (Hl' : incl l METAS) by (intros x Hx; apply Hl; now right).
    destruct (dmem (a ++ m) n); [|now apply IH]. etransitivity; [apply IH; [exact Hl'|now apply NoDup_ddel]|].
    rewrite names_ddel by exact Hn. unfold names. clear IH Hl' Hn.
    assert (U : userk (a ++ m) = false) by (apply userk_meta; apply Hl; now left).
    induction (dkeys n) as [|x ks IH]; [reflexivity|]. cbn [filter].
    destruct (userk x) eqn:E; [|exact IH]. cbn [filter].
    destruct (str_eqb_spec x (a ++ m)) as [->|]; [congruence|]. cbn [negb]. now rewrite IH. }
  apply G. apply incl_refl.
Qed.

Lemma existsb_metas k a : existsb (fun m => str_eqb k (a ++ m)) METAS = false <->
  forall m, In m METAS -> k <> a ++ m.
Proof.
  rewrite <- not_true_iff_false, existsb_exists. split.
  - intros H m Hm ->. apply H. exists m. now rewrite str_eqb_refl.
  - intros H (m & Hm & E). apply str_eqb_eq in E. now apply (H m).
Qed.

Lemma delete_ok pl n a :
  ~ hidden a -> tidy n -> NoDup (dkeys n) -> read n a <> None ->
  exists n', delete_node_attr bi n a = (n', Ok true) /\ becomes a None n n' /\
    (active pl = true ->
     local_names pl n' = filter (fun x => negb (str_eqb x a)) (local_names pl n)) /\
    tidy n' /\ NoDup (dkeys n').
Proof.
  intros Ha T Hn Hr.
  assert (Hm : dmem a n = true).
  { unfold read in Hr. unfold dmem. destruct (dget a n); [reflexivity|congruence]. }
  assert (Hx : forall m, In m METAS -> a <> a ++ m).
  { intros m Hi E. apply Ha. rewrite E. now apply hidden_meta. }
  assert (Hm' : dmem a (drop_metas a n) = true).
  { unfold dmem. rewrite drop_metas_get by exact Hn.
    rewrite (proj2 (existsb_metas a a) Hx). exact Hm. }
  set (n' := ddel a (drop_metas a n)).
  assert (Hn1 := drop_metas_nodup a n Hn).
  assert (C : forall k, k <> a -> (forall m, In m METAS -> k <> a ++ m) -> dget k n' = dget k n).
  { intros k X1 X2. unfold n'. rewrite dget_ddel by exact Hn1.
    destruct (str_eqb_spec a k); [congruence|]. rewrite drop_metas_get by exact Hn.
    apply existsb_metas in X2. now rewrite X2. }
  assert (Z : dget a n' = None).
  { unfold n'. rewrite dget_ddel by exact Hn1. now rewrite str_eqb_refl. }
  exists n'. split.
  { unfold delete_node_attr. rewrite Hm. cbn [orb negb]. rewrite Hm'. reflexivity. }
  split.
  { replace (@None attribute) with (read n' a) by (unfold read; now rewrite Z). now apply confined. }
  split.
  { intros Hact. rewrite !local_names_eq by exact Hact. unfold n'. rewrite names_ddel by exact Hn1.
    now rewrite drop_metas_names. }
  split; [|now apply NoDup_ddel].
  apply (confined_tidy a n n'); auto. right. intros m Hi. unfold n'. rewrite dget_ddel by exact Hn1.
  destruct (str_eqb a (a ++ m)); [reflexivity|]. rewrite drop_metas_get by exact Hn.
  rewrite (proj2 (existsb_exists (fun m' => str_eqb (a ++ m) (a ++ m')) METAS)); [reflexivity|].
  exists m. split; [exact Hi|apply str_eqb_refl].
Qed.

Lemma delete_missing n a : read n a = None -> ~ of_every_node bi a -> delete_node_attr bi n a = (n, Ok false).
Proof.
  intros Hr Hb. unfold delete_node_attr.
  assert (Hb' : ~ In a (BASE bi)). { intros F. apply Hb. apply in_app_or in F. exact F. }
  apply str_in_not_In in Hb'. rewrite Hb'. unfold read in Hr. unfold dmem. destruct (dget a n); [discriminate|reflexivity].
Qed.

(** *** Renaming *)

Lemma move_meta_get a x n m k : NoDup (dkeys n) ->
  dget k (move_meta a x n m) =
  if str_eqb k (a ++ m) then None
  else if str_eqb k (x ++ m) then or_else (dget (a ++ m) n) (dget k n) else dget k n.
Proof.
  intros Hn. unfold move_meta. destruct (dget (a ++ m) n) as [v|] eqn:E.
  - rewrite dget_ddel by now apply NoDup_dset.
    destruct (str_eqb_spec (a ++ m) k) as [<-|X]; [now rewrite str_eqb_refl|].
    destruct (str_eqb_spec k (a ++ m)); [congruence|]. rewrite dget_dset.
    destruct (str_eqb_spec (x ++ m) k) as [<-|Y]; [now rewrite str_eqb_refl|].
    destruct (str_eqb_spec k (x ++ m)); [congruence|reflexivity].
  - destruct (str_eqb_spec k (a ++ m)) as [->|]; [exact E|].
    now destruct (str_eqb k (x ++ m)).
Qed.

Lemma move_meta_nodup a x n m : NoDup (dkeys n) -> NoDup (dkeys (move_meta a x n m)).
Proof.
  intros H. unfold move_meta. destruct (dget (a ++ m) n); [|exact H]. apply NoDup_ddel. now apply NoDup_dset.
Qed.

Lemma names_ddel_meta n a m : In m METAS -> NoDup (dkeys n) -> names (ddel (a ++ m) n) = names n.
Proof.
  intros Hm Hn. rewrite names_ddel by exact Hn. unfold names.
  assert (U : userk (a ++ m) = false) by now apply userk_meta. clear Hn.
  induction (dkeys n) as [|y ks IH]; [reflexivity|]. cbn [filter].
  destruct (userk y) eqn:E; [|exact IH]. cbn [filter].
  destruct (str_eqb_spec y (a ++ m)) as [->|]; [congruence|]. cbn [negb]. now rewrite IH.
Qed.

Lemma move_meta_names a x n m : In m METAS -> NoDup (dkeys n) -> names (move_meta a x n m) = names n.
Proof.
  intros Hm Hn. unfold move_meta. destruct (dget (a ++ m) n) as [v|]; [|reflexivity].
  rewrite names_ddel_meta by (auto; now apply NoDup_dset). now apply names_dset_meta.
Qed.

Lemma meta_eqb b b' m m' : In m METAS -> In m' METAS ->
  str_eqb (b ++ m) (b' ++ m') = str_eqb b b' && str_eqb m m'.
Proof.
  intros H H'. destruct (str_eqb_spec (b ++ m) (b' ++ m')) as [E|X].
  - apply meta_apart in E as [-> ->]; auto. now rewrite !str_eqb_refl.
  - destruct (str_eqb_spec b b') as [->|]; [|reflexivity].
    destruct (str_eqb_spec m m') as [->|]; [congruence|reflexivity].
Qed.

Lemma moved_get a x n (n' := fold_left (move_meta a x) META_ALL n) : a <> x -> NoDup (dkeys n) ->
  (forall b, ~ hidden b -> dget b n' = dget b n) /\
  (forall b m, In m METAS -> dget (b ++ m) n' =
     if str_eqb b a then None
     else if str_eqb b x then or_else (dget (a ++ m) n) (dget (b ++ m) n) else dget (b ++ m) n) /\
  NoDup (dkeys n') /\ names n' = names n.
Proof.
  intros Hax Hn. unfold n'. cbn [fold_left META_ALL].
  set (n1 := move_meta a x n META_COMMENT). set (n2 := move_meta a x n1 META_TYPE).
  assert (N1 : NoDup (dkeys n1)) by now apply move_meta_nodup.
  assert (N2 : NoDup (dkeys n2)) by now apply move_meta_nodup.
  assert (I1 : In META_COMMENT METAS) by (cbn; auto).
  assert (I2 : In META_TYPE METAS) by (cbn; auto).
  assert (I3 : In META_SOURCE METAS) by (cbn; auto).
  split; [|split; [|split]].
  - intros b Hb. unfold n2, n1. rewrite !move_meta_get by (repeat apply move_meta_nodup; exact Hn).
    now rewrite !not_hidden_eq.
  - intros b m Hm. unfold n2, n1. rewrite !move_meta_get by (repeat apply move_meta_nodup; exact Hn).
    rewrite !meta_eqb by auto.
    assert (Hax' : str_eqb a x = false) by now apply str_eqb_neq.
    destruct Hm as [<-|[<-|[<-|[]]]]; rewrite ?str_eqb_refl, ?Hax';
      repeat match goal with |- context [str_eqb ?p ?q] =>
        let r := eval vm_compute in (str_eqb p q) in
        match r with true => change (str_eqb p q) with true | false => change (str_eqb p q) with false end end;
      rewrite ?andb_true_r, ?andb_false_r; reflexivity.
  - now apply move_meta_nodup.
  - rewrite (move_meta_names a x n2) by auto. unfold n2. rewrite (move_meta_names a x n1) by auto.
    unfold n1. now apply move_meta_names.
Qed.

Lemma rename_ok pl n a attr :
  active pl = true -> attr <> [] -> ~ hidden (legal_form (digit ud) (word uw) attr) ->
  tidy n -> NoDup (dkeys n) -> user_attr (PROTECTED bi) n a ->
  exists x n', rename_node_attr ud uw bi pl n a attr = Some (n', Ok tt) /\
    legal (digit ud) (word uw) x /\ ~ In x (PROTECTED bi) /\ ~ hidden x /\ read n x = None /\
    (read n (legal_form (digit ud) (word uw) attr) = None ->
     ~ In (legal_form (digit ud) (word uw) attr) (PROTECTED bi) ->
     x = legal_form (digit ud) (word uw) attr) /\
    (forall b, ~ hidden b -> read n' b = if str_eqb b x then read n a
                                        else if str_eqb b a then None else read n b) /\
    local_names pl n' = filter (fun b => negb (str_eqb b a)) (local_names pl n) ++ [x] /\
    tidy n' /\ NoDup (dkeys n').
Proof.
  intros Hact Hne Hh T Hn Hu.
  destruct (unique_attr_ok pl n attr Hne Hact Hh) as (x & E & H1 & H2 & H3 & H4 & H5 & H6).
  pose proof (proj2 (local_names_iff pl n a Hact) Hu) as Hi.
  destruct Hu as (Hr & Ha & Hp).
  assert (Hv : exists v, dget a n = Some v).
  { unfold read in Hr. destruct (dget a n); [eauto|congruence]. }
  destruct Hv as [v Hv].
  assert (Hax : a <> x) by (intros ->; congruence).
  assert (M : forall m, In m METAS -> dget (x ++ m) n = None).
  { intros m Hm. destruct (dget (x ++ m) n) eqn:Em; [|reflexivity]. exfalso. apply (T x m); auto. congruence. }
  set (n1 := ddel a (dset x (attr_or_none n a) n)).
  assert (Hn1 : NoDup (dkeys n1)) by (apply NoDup_ddel; now apply NoDup_dset).
  assert (G1 : forall k, dget k n1 = if str_eqb a k then None else if str_eqb x k then Some v else dget k n).
  { intros k. unfold n1. rewrite dget_ddel by now apply NoDup_dset. rewrite dget_dset.
    unfold attr_or_none. now rewrite Hv. }
  destruct (moved_get a x n1 Hax Hn1) as (GA & GB & GC & GD).
  assert (Q : forall b m k, In m METAS -> ~ hidden k -> str_eqb k (b ++ m) = false)
    by (intros; now apply not_hidden_eq).
  assert (RA : forall b, ~ hidden b -> dget b (fold_left (move_meta a x) META_ALL n1)
      = if str_eqb b a then None else if str_eqb b x then Some v else dget b n).
  { intros b Hb. rewrite GA, G1 by exact Hb.
    destruct (str_eqb_spec a b) as [<-|X]; [now rewrite str_eqb_refl|].
    destruct (str_eqb_spec b a); [congruence|].
    destruct (str_eqb_spec x b) as [<-|Y]; [now rewrite str_eqb_refl|].
    destruct (str_eqb_spec b x); [congruence|reflexivity]. }
  assert (RB : forall b m, In m METAS -> dget (b ++ m) (fold_left (move_meta a x) META_ALL n1)
      = if str_eqb b a then None else if str_eqb b x then dget (a ++ m) n else dget (b ++ m) n).
  { intros b m Hm. rewrite GB by exact Hm. rewrite !G1, !Q by auto.
    destruct (str_eqb b a); [reflexivity|]. destruct (str_eqb_spec b x) as [->|]; [|reflexivity].
    rewrite M by exact Hm. now rewrite or_else_none. }
  exists x. eexists. split.
  { unfold rename_node_attr. rewrite E. apply str_in_In in Hi. rewrite Hi. reflexivity. }
  fold n1. repeat (split; [assumption|]). split; [|split; [|split; [|exact GC]]].
  - intros b Hb. unfold read. rewrite RA by exact Hb.
    change (lit "_comment__nxt") with META_COMMENT. change (lit "_type__nxt") with META_TYPE.
    change (lit "_source__nxt") with META_SOURCE.
    rewrite (RB b META_COMMENT), (RB b META_TYPE), (RB b META_SOURCE) by (cbn; auto).
    destruct (str_eqb_spec b x) as [->|X].
    + destruct (str_eqb_spec x a); [congruence|]. now rewrite Hv.
    + destruct (str_eqb_spec b a) as [->|Y]; [reflexivity|]. reflexivity.
  - rewrite !local_names_eq by exact Hact. rewrite GD. unfold n1.
    rewrite names_ddel by now apply NoDup_dset. rewrite names_dset. unfold dmem. rewrite H5. cbn [negb andb].
    rewrite (proj2 (userk_iff x)) by auto. rewrite filter_app. cbn [filter].
    destruct (str_eqb_spec x a); [congruence|reflexivity].
  - intros b m Hm Hb. change (In m METAS) in Hm. rewrite RB, RA by auto.
    destruct (str_eqb b a); [congruence|]. destruct (str_eqb b x); [congruence|]. now apply T.
Qed.

Lemma rename_missing pl n a attr :
  active pl = true -> attr <> [] -> ~ hidden (legal_form (digit ud) (word uw) attr) ->
  ~ user_attr (PROTECTED bi) n a -> rename_node_attr ud uw bi pl n a attr = Some (n, Ok tt).
Proof.
  intros Hact Hne Hh Hu. destruct (unique_attr_ok pl n attr Hne Hact Hh) as (x & E & _).
  unfold rename_node_attr. rewrite E. destruct (str_in a (local_names pl n)) eqn:Ei; [|reflexivity].
  apply str_in_In in Ei. apply local_names_iff in Ei; [contradiction|exact Hact].
Qed.

(** *** Setting *)

Definition literal_type (s : pystr) : option pystr :=
  match le s with Literal t => Some t | _ => None end.

Definition readable (v : option pyval) : Prop := forall s e, v = Some (VStr s) -> le s <> Breaks e.

Lemma type_ok v : readable (Some v) ->
  determine_nxt_type le (clean_value v) = Ok (type_of literal_type (emptied v)).
Proof.
  intros H. destruct v as [| | |s| | | |]; try reflexivity. destruct s as [|c s]; [reflexivity|].
  cbn [clean_value emptied determine_nxt_type type_of]. unfold literal_type.
  specialize (H (c :: s)). destruct (le (c :: s)); [reflexivity|reflexivity|]. exfalso. now apply (H e).
Qed.

Definition tracked_attr (a : pystr) : bool := negb (str_in a (PROTECTED bi)) || str_in a TRACKED.

Definition given (v : option pyval) : option pyval := option_map emptied v.

Lemma set_subs_ok pl attr create all local values : forall n,
  str_in attr (local ++ ALL_INTERNAL) = true -> NoDup (dkeys n) -> NoDup (dkeys values) ->
  ~ In (lit "type") (dkeys values) -> ~ In (lit "source") (dkeys values) ->
  (tracked_attr attr = true -> readable (dget (lit "value") values)) ->
  exists n', set_subs ud uw bi le pl attr create all local values n = Some (n', Ok tt) /\
  NoDup (dkeys n') /\
  (forall k, dget k n' =
    if str_eqb k attr then or_else (given (dget (lit "value") values)) (dget k n)
    else if str_eqb k (attr ++ META_COMMENT) then or_else (given (dget (lit "comment") values)) (dget k n)
    else match dget (lit "value") values with
         | Some v =>
             if tracked_attr attr then
               if str_eqb k (attr ++ META_TYPE) then Some (VStr (type_of literal_type (emptied v)))
               else if str_eqb k (attr ++ META_SOURCE) then Some (here pl)
               else dget k n
             else dget k n
         | None => dget k n
         end) /\
  (dmem attr n = true -> names n' = names n).
Proof.
  induction values as [|[s v] values IH]; intros n Hl Hn Hd H1 H2 Hr.
  { exists n. split; [reflexivity|]. split; [exact Hn|]. split; [|reflexivity]. intros k. cbn [dget given option_map or_else].
    now destruct (str_eqb k attr), (str_eqb k (attr ++ META_COMMENT)). }
  inversion Hd as [|x l Hs Hd']; subst. cbn [dkeys map fst] in Hs, H1, H2.
  change (map fst values) with (dkeys values) in *.
  assert (D : dget s values = None) by now apply dget_none.
  assert (H1' : ~ In (lit "type") (dkeys values)) by (intros H; apply H1; now right).
  assert (H2' : ~ In (lit "source") (dkeys values)) by (intros H; apply H2; now right).
  cbn [set_subs]. cbn [dget]. cbn [dget] in Hr.
  change META_VALUE with (lit "value").
  destruct (str_eqb_spec s (lit "value")) as [->|Xv].
  - (* the value *)
    cbn [negb andb]. rewrite Hl. change (str_eqb (lit "value") (lit "comment")) with false. cbn [given option_map or_else].
    destruct (tracked_attr attr) eqn:Et; unfold tracked_attr in Et; rewrite Et.
    + rewrite (type_ok v (Hr eq_refl)).
      edestruct IH as (n' & E & N' & G & NM); [exact Hl| |exact Hd'|exact H1'|exact H2'| |].
      2:{ intros _. rewrite D. intros ? ? [=]. }
      2:{ exists n'. split; [exact E|]. split; [exact N'|]. split.
          - intros k. rewrite G, D. cbn [given option_map or_else].
            rewrite !dget_dset.
            destruct (str_eqb_spec k attr) as [->|Xk].
            { rewrite (meta_name_neq attr META_SOURCE), (meta_name_neq attr META_TYPE), str_eqb_refl by (cbn; auto). reflexivity. }
            destruct (str_eqb_spec k (attr ++ META_COMMENT)) as [->|Xc].
            { rewrite !(meta_neq attr _ META_COMMENT) by (cbn; auto; discriminate).
              destruct (str_eqb_spec attr (attr ++ META_COMMENT)) as [E'|]; [congruence|reflexivity]. }
            destruct (str_eqb_spec (attr ++ META_SOURCE) k) as [<-|Xs].
            { rewrite (meta_neq attr META_SOURCE META_TYPE), str_eqb_refl by (cbn; auto; discriminate). reflexivity. }
            destruct (str_eqb_spec (attr ++ META_TYPE) k) as [<-|Xt]; [now rewrite str_eqb_refl|].
            destruct (str_eqb_spec attr k); [congruence|].
            destruct (str_eqb_spec k (attr ++ META_TYPE)); [congruence|].
            destruct (str_eqb_spec k (attr ++ META_SOURCE)); [congruence|reflexivity].
          - intros Hm. rewrite NM by (rewrite !dmem_dset, str_eqb_refl; now rewrite !orb_true_r).
            rewrite !names_dset_meta by (cbn; auto). rewrite names_dset, Hm. cbn [negb andb]. apply app_nil_r. }
      repeat apply NoDup_dset. exact Hn.
    + edestruct IH as (n' & E & N' & G & NM); [exact Hl| |exact Hd'|exact H1'|exact H2'| |].
      2:{ discriminate. }
      2:{ exists n'. split; [exact E|]. split; [exact N'|]. split.
          - intros k. rewrite G, D. cbn [given option_map or_else]. rewrite !dget_dset.
            destruct (str_eqb_spec k attr) as [->|Xk]; [now rewrite str_eqb_refl|].
            destruct (str_eqb_spec attr k); [congruence|reflexivity].
          - intros Hm. rewrite NM by (rewrite !dmem_dset, str_eqb_refl; reflexivity).
            rewrite names_dset, Hm. cbn [negb andb]. apply app_nil_r. }
      apply NoDup_dset. exact Hn.
  - cbn [negb andb].
    destruct (str_in (lit "_" ++ s ++ META_SUFFIX) META_ALL) eqn:Em; cbn [negb].
    + (* a comment *)
      assert (s = lit "comment") as ->.
      { apply sub_cases in Em as [->|[->| ->]]; [reflexivity| |].
        - exfalso. apply H1. now left.
        - exfalso. apply H2. now left. }
      change (lit "_" ++ lit "comment" ++ META_SUFFIX) with META_COMMENT. rewrite Hl, str_eqb_refl.
      edestruct IH as (n' & E & N' & G & NM); [exact Hl| |exact Hd'|exact H1'|exact H2'|exact Hr|].
      2:{ exists n'. split; [exact E|]. split; [exact N'|]. split.
          - intros k. rewrite G, D. cbn [given option_map or_else]. rewrite !dget_dset.
            destruct (str_eqb_spec k attr) as [->|Xk].
            { now rewrite (meta_name_neq attr META_COMMENT) by (cbn; auto). }
            destruct (str_eqb_spec k (attr ++ META_COMMENT)) as [->|Xc]; [now rewrite str_eqb_refl|].
            destruct (str_eqb_spec (attr ++ META_COMMENT) k); [congruence|reflexivity].
          - intros Hm. rewrite NM by (rewrite dmem_dset; rewrite Hm; apply orb_true_r).
            apply names_dset_meta. cbn; auto. }
      apply NoDup_dset. exact Hn.
    + destruct (str_eqb_spec s (lit "comment")) as [->|Xc]; [discriminate Em|].
      destruct (IH n Hl Hn Hd' H1' H2' Hr) as (n' & E & N' & G & NM). exists n'. auto.
Qed.

Lemma set_ok pl n a create values old :
  ~ In a HANDED_OVER -> ~ hidden a ->
  active pl = true \/ In a ALL_INTERNAL ->
  (~ In a (PROTECTED bi) \/ In a ALL_INTERNAL) -> read n a = Some old ->
  tidy n -> NoDup (dkeys n) -> NoDup (dkeys values) ->
  ~ In (lit "type") (dkeys values) -> ~ In (lit "source") (dkeys values) ->
  (tracked_attr a = true -> readable (dget (lit "value") values)) ->
  exists n', node_setattr_data ud uw bi le pl n a create values = Some (n', Ok tt) /\
  becomes a (Some
    match dget (lit "value") values with
    | None => Attribute (value old) (or_else (given (dget (lit "comment") values)) (comment old)) (type old) (source old)
    | Some v =>
        if tracked_attr a then
          Attribute (emptied v) (or_else (given (dget (lit "comment") values)) (comment old))
            (Some (VStr (type_of literal_type (emptied v)))) (Some (here pl))
        else Attribute (emptied v) (or_else (given (dget (lit "comment") values)) (comment old)) (type old) (source old)
    end) n n' /\
  (active pl = true -> local_names pl n' = local_names pl n) /\ tidy n' /\ NoDup (dkeys n').
Proof.
  intros Hh Ha Hact Hp Ho T Hn Hd H1 H2 Hr.
  assert (Hmem : dmem a n = true).
  { unfold read in Ho. unfold dmem. destruct (dget a n); [reflexivity|discriminate]. }
  assert (Hl : str_in a (local_names pl n ++ ALL_INTERNAL) = true).
  { apply str_in_In. apply in_app_iff.
    destruct Hp as [Hp|Hp]; [|now right]. destruct Hact as [Hact|Hi]; [left|now right].
    apply local_names_iff; [exact Hact|]. split; [congruence|]. split; assumption. }
  destruct (set_subs_ok pl a create values (local_names pl n) values n Hl Hn Hd H1 H2 Hr)
    as (n' & E & N' & G & NM).
  exists n'. split.
  { unfold node_setattr_data. apply str_in_not_In in Hh. now rewrite Hh. }
  assert (C : forall k, k <> a -> (forall m, In m METAS -> k <> a ++ m) -> dget k n' = dget k n).
  { intros k X1 X2. rewrite G. destruct (str_eqb_spec k a); [congruence|].
    destruct (str_eqb_spec k (a ++ META_COMMENT)) as [K|]; [exfalso; apply (X2 META_COMMENT); cbn; auto|].
    destruct (str_eqb_spec k (a ++ META_TYPE)) as [K|]; [exfalso; apply (X2 META_TYPE); cbn; auto|].
    destruct (str_eqb_spec k (a ++ META_SOURCE)) as [K|]; [exfalso; apply (X2 META_SOURCE); cbn; auto|].
    now destruct (dget (lit "value") values), (tracked_attr a). }
  assert (GA : dget a n' = or_else (given (dget (lit "value") values)) (dget a n)).
  { rewrite G. now rewrite str_eqb_refl. }
  split; [|split; [|split; [|exact N']]].
  - assert (R : read n' a = Some
      match dget (lit "value") values with
      | None => Attribute (value old) (or_else (given (dget (lit "comment") values)) (comment old)) (type old) (source old)
      | Some v =>
          if tracked_attr a then
            Attribute (emptied v) (or_else (given (dget (lit "comment") values)) (comment old))
              (Some (VStr (type_of literal_type (emptied v)))) (Some (here pl))
          else Attribute (emptied v) (or_else (given (dget (lit "comment") values)) (comment old)) (type old) (source old)
      end).
    { unfold read. rewrite GA. unfold read in Ho. destruct (dget a n) as [w|] eqn:Ew; [|discriminate].
      injection Ho as <-. cbn [value comment type source].
      change (lit "_comment__nxt") with META_COMMENT. change (lit "_type__nxt") with META_TYPE.
      change (lit "_source__nxt") with META_SOURCE.
      rewrite !G, !str_eqb_refl.
      rewrite (meta_name_neq a META_COMMENT), (meta_name_neq a META_TYPE), (meta_name_neq a META_SOURCE) by (cbn; auto).
      rewrite !(meta_neq a _ META_COMMENT), (meta_neq a META_SOURCE META_TYPE) by (cbn; auto; discriminate).
      destruct (dget (lit "value") values) as [v|]; cbn [given option_map or_else]; [|reflexivity].
      now destruct (tracked_attr a). }
    rewrite <- R. now apply confined.
  - intros Hac. rewrite !local_names_eq by exact Hac. now apply NM.
  - apply (confined_tidy a n n'); auto. left. rewrite GA. unfold dmem in Hmem.
    destruct (dget a n); [|discriminate]. now destruct (given _).
Qed.

(** Nothing happens to an attribute the node does not have, unless it is to be
    created. *)
Lemma set_missing pl n a values :
  ~ In a HANDED_OVER -> ~ In a ALL_INTERNAL -> ~ user_attr (PROTECTED bi) n a -> active pl = true ->
  node_setattr_data ud uw bi le pl n a false values = Some (n, Ok tt).
Proof.
  intros H1 H2 H3 Hact. unfold node_setattr_data. apply str_in_not_In in H1. rewrite H1.
  assert (Hl : str_in a (local_names pl n ++ ALL_INTERNAL) = false).
  { apply str_in_not_In. rewrite in_app_iff. intros [H|H]; [|contradiction].
    apply local_names_iff in H; [contradiction|exact Hact]. }
  generalize values at 1. revert Hl. generalize (local_names pl n). intros local Hl all.
  induction values as [|[s v] values IH]; [reflexivity|]. cbn [set_subs]. rewrite Hl.
  destruct (negb (str_eqb s META_VALUE) && _); exact IH.
Qed.

Lemma create_ok pl n a values v :
  active pl = true -> legal (digit ud) (word uw) a -> ~ hidden a -> ~ In a (PROTECTED bi) -> read n a = None ->
  tidy n -> NoDup (dkeys n) -> NoDup (dkeys values) ->
  ~ In (lit "type") (dkeys values) -> ~ In (lit "source") (dkeys values) ->
  dget (lit "value") values = Some v -> readable (Some v) ->
  exists n' x, node_setattr_data ud uw bi le pl n a true values = Some (n', Ok tt) /\
    becomes a (Some x) n n' /\
    (value x = v \/ value x = emptied v) /\ given (comment x) = given (dget (lit "comment") values) /\
    (type x = None \/ type x = Some (VStr (type_of literal_type (emptied v)))) /\
    source x = Some (here pl) /\
    local_names pl n' = local_names pl n ++ [a] /\ tidy n' /\ NoDup (dkeys n').
Proof.
  intros Hact Hleg Ha Hp Hnone T Hn Hd H1 H2 Hv Hr.
  assert (Hne : a <> []) by (destruct Hleg as (c & t & -> & _); discriminate).
  assert (Hlf : legal_form (digit ud) (word uw) a = a) by now apply legal_form_id.
  destruct (add_ok pl n a values v Hact Hne) as (a' & n1 & E1 & _ & _ & _ & _ & Ew & B & L1 & T1 & N1);
    rewrite ?Hlf; auto.
  rewrite Hlf in Ew. specialize (Ew Hnone Hp). subst a'.
  assert (Hi : ~ In a ALL_INTERNAL).
  { intros H. apply Hp. unfold PROTECTED. apply in_app_iff. right.
    unfold ALL_INTERNAL in H. rewrite app_assoc. apply in_app_iff. now left. }
  assert (Hh : ~ In a HANDED_OVER).
  { intros H. apply Hi. revert H. cbn. tauto. }
  assert (Hl : str_in a (local_names pl n ++ ALL_INTERNAL) = false).
  { apply str_in_not_In. rewrite in_app_iff. intros [H|H]; [|contradiction].
    apply local_names_iff in H; [now destruct H|exact Hact]. }
  (* the keywords up to the first known one *)
  assert (S : forall rest pre, values = pre ++ rest -> (exists w, dget (lit "value") rest = Some w) ->
    exists rest', (exists pre', values = pre' ++ rest') /\
      set_subs ud uw bi le pl a true values (local_names pl n) rest n
      = set_subs ud uw bi le pl a true values (local_names pl n ++ [a]) rest' n1 /\
      (dget (lit "value") rest' = None \/ dget (lit "value") rest' = Some v)).
  { assert (Sub : forall pre rest w, values = pre ++ rest -> dget (lit "value") rest = Some w -> w = v).
    { intros pre rest w -> Hw. apply dget_In in Hw. apply dget_In in Hv.
      assert (K : dget (lit "value") (pre ++ rest) = Some w) by (apply In_dget; [exact Hd|apply in_app_iff; now right]).
      apply In_dget in Hv; [congruence|exact Hd]. }
    induction rest as [|[s w] rest IH]; intros pre Ep (u & Hu); [discriminate|].
    cbn [set_subs]. rewrite Hl.
    destruct (str_eqb_spec s META_VALUE) as [->|Xv].
    - cbn [negb andb]. rewrite E1. exists rest. split; [exists (pre ++ [(META_VALUE, w)]); now rewrite <- app_assoc|].
      split; [reflexivity|]. destruct (dget (lit "value") rest) as [z|] eqn:Ez; [right|now left].
      f_equal. apply (Sub (pre ++ [(META_VALUE, w)]) rest); [now rewrite <- app_assoc|exact Ez].
    - cbn [negb andb]. cbn [dget] in Hu.
      destruct (str_eqb_spec s (lit "value")) as [E|]; [contradiction|].
      destruct (str_in (lit "_" ++ s ++ META_SUFFIX) META_ALL); cbn [negb].
      + rewrite E1. exists rest. split; [exists (pre ++ [(s, w)]); now rewrite <- app_assoc|].
        split; [reflexivity|]. right. rewrite Hu. f_equal.
        apply (Sub (pre ++ [(s, w)]) rest); [now rewrite <- app_assoc|exact Hu].
      + apply (IH (pre ++ [(s, w)])); [now rewrite <- app_assoc|eauto]. }
  destruct (S values [] eq_refl (ex_intro _ v Hv)) as (rest & (pre & Epre) & Eset & Hrest).
  assert (Hdr : NoDup (dkeys rest)).
  { rewrite Epre in Hd. unfold dkeys in Hd. rewrite map_app in Hd.
    revert Hd. generalize (map fst pre). induction l as [|y l IHl]; [auto|].
    intros Hd. apply IHl. now inversion Hd. }
  assert (Hsub : forall k w, dget k rest = Some w -> dget k values = Some w).
  { intros k w Hw. apply In_dget; [exact Hd|]. rewrite Epre. apply in_app_iff. right. now apply dget_In. }
  assert (Ra : read n1 a = Some (Attribute v (dget (lit "comment") values) (dget (lit "type") values) (Some (here pl)))).
  { rewrite (B a Ha). now rewrite str_eqb_refl. }
  assert (Hl1 : str_in a ((local_names pl n ++ [a]) ++ ALL_INTERNAL) = true).
  { apply str_in_In. rewrite !in_app_iff. left. right. now left. }
  assert (Hk : forall k, In k (dkeys rest) -> In k (dkeys values)).
  { intros k. rewrite Epre. unfold dkeys. rewrite map_app, in_app_iff. now right. }
  destruct (set_subs_ok pl a true values (local_names pl n ++ [a]) rest n1 Hl1 N1 Hdr)
    as (n' & E & N' & G & NM).
  { intros H. now apply H1, Hk. }
  { intros H. now apply H2, Hk. }
  { intros _. destruct Hrest as [-> | ->]; [intros ? ? [=]|exact Hr]. }
  assert (Hty : dget (lit "type") values = None) by now apply dget_none.
  assert (C1 : forall k, k <> a -> (forall m, In m METAS -> k <> a ++ m) -> dget k n' = dget k n1).
  { intros k X1 X2. rewrite G. destruct (str_eqb_spec k a); [congruence|].
    destruct (str_eqb_spec k (a ++ META_COMMENT)) as [K|]; [exfalso; apply (X2 META_COMMENT); cbn; auto|].
    destruct (str_eqb_spec k (a ++ META_TYPE)) as [K|]; [exfalso; apply (X2 META_TYPE); cbn; auto|].
    destruct (str_eqb_spec k (a ++ META_SOURCE)) as [K|]; [exfalso; apply (X2 META_SOURCE); cbn; auto|].
    now destruct (dget (lit "value") rest), (tracked_attr a). }
  assert (Htr : tracked_attr a = true).
  { unfold tracked_attr. apply str_in_not_In in Hp. now rewrite Hp. }
  assert (Hm1 : dmem a n1 = true).
  { unfold read in Ra. unfold dmem. destruct (dget a n1); [reflexivity|discriminate]. }
  assert (GA : dget a n' = or_else (given (dget (lit "value") rest)) (dget a n1)).
  { rewrite G. now rewrite str_eqb_refl. }
  set (x := Attribute (match dget (lit "value") rest with Some _ => emptied v | None => v end)
              (or_else (given (dget (lit "comment") rest)) (dget (lit "comment") values))
              (match dget (lit "value") rest with Some _ => Some (VStr (type_of literal_type (emptied v))) | None => None end)
              (Some (here pl))).
  assert (R : read n' a = Some x).
  { unfold read. rewrite GA. unfold read in Ra. destruct (dget a n1) as [w|] eqn:Ew; [|discriminate].
    injection Ra as -> Rc Rt Rs. rewrite Hty in Rt.
    change (lit "_comment__nxt") with META_COMMENT in *. change (lit "_type__nxt") with META_TYPE in *.
    change (lit "_source__nxt") with META_SOURCE in *.
    rewrite !G, !str_eqb_refl, Htr.
    rewrite (meta_name_neq a META_COMMENT), (meta_name_neq a META_TYPE), (meta_name_neq a META_SOURCE) by (cbn; auto).
    rewrite !(meta_neq a _ META_COMMENT), (meta_neq a META_SOURCE META_TYPE) by (cbn; auto; discriminate).
    rewrite Rc, Rt, Rs. unfold x.
    destruct Hrest as [-> | ->]; reflexivity. }
  exists n', x. split.
  { unfold node_setattr_data. apply str_in_not_In in Hh. rewrite Hh. rewrite Eset. exact E. }
  split.
  { intros b Hb. destruct (str_eqb_spec b a) as [->|X]; [exact R|].
    etransitivity; [|etransitivity; [exact (B b Hb)|]].
    - pose proof (confined a n1 n' Ha C1 b Hb) as K. destruct (str_eqb_spec b a); [congruence|exact K].
    - destruct (str_eqb_spec b a); [congruence|reflexivity]. }
  split; [unfold x; cbn [value]; destruct (dget (lit "value") rest); auto|].
  split.
  { unfold x. cbn [comment]. destruct (dget (lit "comment") rest) as [c|] eqn:Ec; [|reflexivity].
    rewrite (Hsub _ _ Ec). cbn [given option_map or_else]. f_equal. destruct c as [| | |[|]| | | |]; reflexivity. }
  split; [unfold x; cbn [type]; destruct (dget (lit "value") rest); auto|].
  split; [reflexivity|]. split.
  { rewrite <- L1. rewrite !local_names_eq by exact Hact. now apply NM. }
  split; [|exact N'].
  apply (confined_tidy a n1 n'); auto. left. rewrite GA. unfold dmem in Hm1.
  destruct (dget a n1); [|discriminate]. now destruct (given _).
Qed.

End Proofs.
