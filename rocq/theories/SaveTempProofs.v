(** Proofs for C69. *)

From Coq Require Import String List NArith Bool Arith Lia.
From Verif Require Import PyStr PyStrFacts Dict DictFacts NxtPath PyVal NodeIO NodeIOSpec StageLoad StageLoadSpec StageLoadProofs LayerIO LayerIOProofs SaveTemp SaveTempSpec.
Import ListNotations.

(** *** Names of files *)
Lemma foldered_b p : folderedb p = true <-> foldered p.
Proof. unfold folderedb, foldered. rewrite existsb_exists. split; [intros (x & Hx & E); apply N.eqb_eq in E; now subst|]. intros H. exists slash. split; [exact H|apply N.eqb_refl]. Qed.
Lemma foldered_b_not p : folderedb p = false <-> ~ foldered p.
Proof. rewrite <- foldered_b. destruct (folderedb p); split; intros H; congruence. Qed.
Lemma basename_plain p : ~ foldered p -> basename p = p.
Proof. intros N. unfold basename. change NODE_SEP with [slash]. now rewrite rpartition_char_none. Qed.
Lemma basename_no_slash p : ~ foldered (basename p).
Proof.
  unfold foldered, basename. change NODE_SEP with [slash]. unfold rpartition. destruct (rpartition_opt [slash] p) as [[b a]|] eqn:E.
  - apply rpartition_opt_some in E as (_ & H). apply contains_char_false. apply H. discriminate.
  - apply rpartition_opt_none in E. now apply contains_char_false.
Qed.
Lemma basename_eqb p : str_eqb (basename p) p = negb (folderedb p).
Proof.
  destruct (folderedb p) eqn:E.
  - apply str_eqb_neq. intros Q. apply (basename_no_slash p). rewrite Q. now apply foldered_b.
  - rewrite basename_plain by now apply foldered_b_not. apply str_eqb_refl.
Qed.

(** *** References *)
Lemma set_item_mid {A} (a : list A) x b v : set_item (a ++ x :: b) (length a) v = a ++ v :: b.
Proof. induction a; cbn; [reflexivity|]. now rewrite IHa. Qed.
Lemma skipn_cons {A} n (l : list A) : n < length l -> exists x, skipn n l = x :: skipn (S n) l.
Proof. revert n. induction l as [|y l IH]; intros n H; [cbn in H; lia|]. destruct n; [eexists; reflexivity|]. cbn in H. apply IH. lia. Qed.

Lemma filter_le {A} (f : A -> bool) l : length (filter f l) <= length l.
Proof. induction l as [|x l IH]; [apply le_n|]. cbn. destruct (f x); cbn; lia. Qed.

Lemma rename_refs_refs todo : forall pre overs,
  fst (rename_refs todo (map basename (filter folderedb pre) ++ skipn (length (filter folderedb pre)) (pre ++ todo)) overs (length (filter folderedb pre)))
  = map basename (filter folderedb (pre ++ todo)) ++ skipn (length (filter folderedb (pre ++ todo))) (pre ++ todo).
Proof.
  induction todo as [|r todo IH]; intros pre overs; cbn [rename_refs]; [now rewrite app_nil_r|].
  rewrite basename_eqb. specialize (IH (pre ++ [r])). rewrite <- app_assoc in IH. cbn [app] in IH. rewrite filter_app in IH. cbn [filter] in IH. destruct (folderedb r) eqn:E; cbn [negb].
  - set (k := length (filter folderedb pre)) in *.
    assert (Lk : k < length (pre ++ r :: todo)). { rewrite app_length. cbn. unfold k. pose proof (filter_le folderedb pre). lia. }
    destruct (skipn_cons k (pre ++ r :: todo) Lk) as (x & Ex). rewrite Ex.
    replace k with (length (map basename (filter folderedb pre))) at 2 by (rewrite map_length; reflexivity). rewrite set_item_mid.
    rewrite map_app, app_length in IH. cbn [map length] in IH. fold k in IH. rewrite Nat.add_1_r, <- app_assoc in IH. exact (IH _).
  - rewrite app_nil_r in IH. apply IH.
Qed.
Lemma rename_refs_all refs overs :
  fst (rename_refs refs refs overs 0) = map basename (filter folderedb refs) ++ skipn (length (filter folderedb refs)) refs.
Proof. exact (rename_refs_refs refs [] overs). Qed.
Lemma folders_first_all refs overs : folders_first refs -> fst (rename_refs refs refs overs 0) = map basename refs.
Proof.
  intros (a & b & -> & Ha & Hb). rewrite rename_refs_all, filter_app.
  assert (Fa : filter folderedb a = a). { clear -Ha. induction Ha as [|x a Hx _ IH]; [reflexivity|]. cbn. apply foldered_b in Hx. now rewrite Hx, IH. }
  assert (Fb : filter folderedb b = []). { clear -Hb. induction Hb as [|x b Hx _ IH]; [reflexivity|]. cbn. apply foldered_b_not in Hx. now rewrite Hx, IH. }
  rewrite Fa, Fb, app_nil_r. rewrite skipn_app, skipn_all, Nat.sub_diag. cbn [skipn app]. rewrite map_app. f_equal.
  clear -Hb. induction Hb as [|x b Hx _ IH]; [reflexivity|]. cbn. rewrite basename_plain by exact Hx. now rewrite <- IH.
Qed.

(** *** Overrides *)
Lemma rename_overs_frame k todo : forall refs overs idx,
  (forall r, In r todo -> foldered r -> k <> r /\ k <> basename r) -> dget k (snd (rename_refs todo refs overs idx)) = dget k overs.
Proof.
  induction todo as [|r todo IH]; intros refs overs idx H; [reflexivity|]. cbn [rename_refs]. rewrite basename_eqb. destruct (folderedb r) eqn:E; cbn [negb].
  - destruct (H r (or_introl eq_refl)) as (N1 & N2); [now apply foldered_b|]. rewrite IH by (intros r' Hr'; apply H; now right). destruct (dget r overs); [|reflexivity]. rewrite dget_dset_other by congruence. apply dget_ddel_other. congruence.
  - apply IH. intros r' Hr'. apply H. now right.
Qed.
Lemma rename_overs todo : forall refs overs idx, NoDup (map basename todo) -> (forall r, In r todo -> foldered r -> ~ In (basename r) (dkeys overs)) ->
  forall r, In r todo -> dget (basename r) (snd (rename_refs todo refs overs idx)) = dget r overs.
Proof.
  induction todo as [|r0 todo IH]; intros refs overs idx Nd H r Hr; [destruct Hr|]. cbn [map] in Nd. inversion Nd as [|? ? N0 Nd']; subst. cbn [rename_refs]. rewrite basename_eqb. destruct (folderedb r0) eqn:E; cbn [negb].
  - pose proof (proj1 (foldered_b _) E) as F0. set (overs' := match dget r0 overs with Some over => dset (basename r0) over (ddel r0 overs) | None => overs end).
    assert (Fr : forall k, k <> r0 -> k <> basename r0 -> dget k overs' = dget k overs). { intros k N1 N2. unfold overs'. destruct (dget r0 overs); [|reflexivity]. rewrite dget_dset_other by congruence. apply dget_ddel_other. congruence. }
    assert (Br : dget (basename r0) overs' = dget r0 overs). { unfold overs'. destruct (dget r0 overs) eqn:Eo; [apply dget_dset_same|]. apply dget_none. apply H; [now left|exact F0]. }
    destruct Hr as [<-|Hr].
    + rewrite rename_overs_frame; [exact Br|]. intros r' Hr' Fr'. split; [intros Q; apply (basename_no_slash r0); now rewrite Q|]. intros Q. apply N0. rewrite Q. now apply in_map.
    + rewrite IH; [| exact Nd' | | exact Hr].
      * assert (Nb : basename r <> basename r0) by (intros Q; apply N0; rewrite <- Q; now apply in_map).
        apply Fr; [intros ->; now apply Nb|]. intros Q. apply Nb. rewrite Q at 1. rewrite basename_plain; [reflexivity|]. apply basename_no_slash.
      * intros r' Hr' F'. rewrite <- dget_none. assert (Nb : basename r' <> basename r0) by (intros Q; apply N0; rewrite <- Q; now apply in_map).
        rewrite Fr; [|intros Q; apply (basename_no_slash r'); now rewrite Q|exact Nb]. apply dget_none. apply H; [now right|exact F'].
  - assert (P0 : ~ foldered r0) by now apply foldered_b_not. destruct Hr as [<-|Hr].
    + rewrite basename_plain in * by exact P0. apply rename_overs_frame. intros r' Hr' F'. split; [intros ->; contradiction|]. intros Q. apply N0. rewrite Q. now apply in_map.
    + apply IH; [exact Nd'| |exact Hr]. intros r' Hr'. apply H. now right.
Qed.

(** *** The data of one file *)
Lemma temp_data_get bi dirname l k : dget k (temp_data bi dirname l) =
  if str_eqb k K_CWD then Some (VStr (get_cwd dirname l))
  else match dget k (get_save_data bi (t_layer l)) with
       | None => None
       | Some v => Some (let r := rename_refs (l_refs (t_layer l)) (l_refs (t_layer l)) (sort_items (l_overrides (t_layer l))) 0 in
                         if str_eqb k K_REFERENCES then VStrs (fst r) else if str_eqb k K_OVERRIDES then VDict (snd r) else v)
       end.
Proof.
  unfold temp_data. destruct (rename_refs _ _ _ _) as [refs overs] eqn:Er. cbn [fst snd]. set (data := get_save_data bi (t_layer l)).
  assert (M : forall q, q <> K_CWD -> dmem q (dset K_CWD (VStr (get_cwd dirname l)) data) = match dget q data with Some _ => true | None => false end).
  { intros q Hq. unfold dmem. rewrite dget_dset_other by congruence. reflexivity. }
  assert (C1 : K_REFERENCES <> K_CWD) by discriminate. assert (C2 : K_OVERRIDES <> K_CWD) by discriminate. assert (C3 : K_OVERRIDES <> K_REFERENCES) by discriminate.
  rewrite (M _ C1). set (d0 := dset K_CWD (VStr (get_cwd dirname l)) data).
  set (d1 := if match dget K_REFERENCES data with Some _ => true | None => false end then dset K_REFERENCES (VStrs refs) d0 else d0).
  assert (M2 : dmem K_OVERRIDES d1 = match dget K_OVERRIDES data with Some _ => true | None => false end).
  { unfold d1. destruct (dget K_REFERENCES data); [|apply M; exact C2]. unfold dmem. rewrite dget_dset_other by congruence. unfold d0. rewrite dget_dset_other by congruence. reflexivity. }
  rewrite M2. clear M M2.
  assert (G1 : forall q, dget q d1 = if str_eqb q K_CWD then Some (VStr (get_cwd dirname l)) else match dget q data with None => None | Some v => Some (if str_eqb q K_REFERENCES then VStrs refs else v) end).
  { intros q. unfold d1. destruct (str_eqb q K_CWD) eqn:Q1.
    - apply str_eqb_eq in Q1 as ->. assert (D0 : dget K_CWD d0 = Some (VStr (get_cwd dirname l))) by apply dget_dset_same. destruct (dget K_REFERENCES data); [rewrite dget_dset_other by congruence|]; exact D0.
    - apply str_eqb_neq in Q1. assert (D0 : dget q d0 = dget q data) by (apply dget_dset_other; congruence). destruct (str_eqb q K_REFERENCES) eqn:Q2.
      + apply str_eqb_eq in Q2 as ->. destruct (dget K_REFERENCES data) eqn:Q; [apply dget_dset_same|now rewrite D0].
      + apply str_eqb_neq in Q2. assert (D1 : dget q (if match dget K_REFERENCES data with Some _ => true | None => false end then dset K_REFERENCES (VStrs refs) d0 else d0) = dget q data).
        { destruct (dget K_REFERENCES data); [rewrite dget_dset_other by congruence|]; exact D0. }
        rewrite D1. now destruct (dget q data). }
  destruct (str_eqb k K_OVERRIDES) eqn:Q3.
  - apply str_eqb_eq in Q3 as ->. assert (F1 : str_eqb K_OVERRIDES K_CWD = false) by reflexivity. assert (F2 : str_eqb K_OVERRIDES K_REFERENCES = false) by reflexivity. rewrite F1, F2. destruct (dget K_OVERRIDES data) eqn:Q; [apply dget_dset_same|]. rewrite G1, F1, Q. reflexivity.
  - apply str_eqb_neq in Q3. assert (E : dget k (if match dget K_OVERRIDES data with Some _ => true | None => false end then dset K_OVERRIDES (VDict overs) d1 else d1) = dget k d1). { destruct (dget K_OVERRIDES data); [apply dget_dset_other; congruence|reflexivity]. }
    rewrite E. apply G1.
Qed.

(** *** The folder *)
Section Folder.
Variables (known : pystr -> bool) (bi : list pystr) (dirname : pystr -> pystr).
Notation name := (fun l => basename (t_real l)).
Notation data := (temp_data bi dirname).
Notation step := (fun (acc : dict (dict pyval) * option pystr) l =>
          let file_name := basename (t_real l) in
          let data := temp_data bi dirname l in
          if negb (known file_name) then Raise TypeError
          else if negb (json_ok (VDict data)) then Raise TypeError
          else Ok (dset file_name data (fst acc), Some file_name)).

Lemma fold_app {A B} (f : A -> B -> res A) (l1 l2 : list B) (a : A) :
  fold_res f (l1 ++ l2) a = bind (fold_res f l1 a) (fold_res f l2).
Proof. revert a. induction l1 as [|x l1 IH]; intros a; [reflexivity|]. cbn. destruct (f a x); cbn; [apply IH|reflexivity]. Qed.

Lemma fold_saved ls : forall files top, fold_res step (rev ls) ([], None) = Ok (files, top) ->
  top = option_map name (hd_error ls) /\
  (forall k, In k (dkeys files) <-> exists l, In l ls /\ k = name l) /\
  (forall k v, dget k files = Some v -> exists before l after, ls = before ++ l :: after /\ k = name l /\ v = data l /\ ~ In k (map name before)).
Proof.
  induction ls as [|l ls IH]; intros files top E; cbn [rev fold_res] in E.
  - injection E as <- <-. split; [reflexivity|]. split; [|discriminate]. intros k. split; [intros []|]. intros (x & [] & _).
  - rewrite fold_app in E. cbn [hd_error option_map]. destruct (fold_res step (rev ls) ([], None)) as [[files0 top0]|e] eqn:E0; cbn [bind fold_res] in E; [|discriminate]. cbn [fst] in E. cbv zeta in E. destruct (negb (known (name l))); [discriminate|]. destruct (negb (json_ok (VDict (data l)))); [discriminate|].
    cbn in E. injection E as <- <-. destruct (IH files0 top0 eq_refl) as (_ & K & V). split; [reflexivity|]. split.
    + intros k. rewrite in_dkeys_dset, K. split.
      * intros [->|(x & Hx & ->)]; [exists l; split; [now left|reflexivity]|exists x; split; [now right|reflexivity]].
      * intros (x & [<-|Hx] & ->); [now left|right; now exists x].
    + intros k v G. destruct (str_eqb k (name l)) eqn:Q.
      * apply str_eqb_eq in Q. subst k. rewrite dget_dset_same in G. injection G as <-. exists [], l, ls. repeat split. intros [].
      * apply str_eqb_neq in Q. rewrite dget_dset_other in G by congruence. destruct (V k v G) as (b & x & a & -> & -> & -> & N). exists (l :: b), x, a. repeat split. cbn [map]. intros [E1|I]; [congruence|contradiction].
Qed.

Lemma saved ls files top : save_to_temp known bi dirname ls = Ok (files, top) ->
  (exists l rest, ls = l :: rest /\ top = name l) /\
  (forall k, In k (dkeys files) <-> exists l, In l ls /\ k = name l) /\
  (forall k v, dget k files = Some v -> exists before l after, ls = before ++ l :: after /\ k = name l /\ v = data l /\ ~ In k (map name before)).
Proof.
  unfold save_to_temp. intros E. destruct (fold_res step (rev ls) ([], None)) as [[f t]|e] eqn:E0; cbn [bind] in E; [|discriminate]. cbn [fst snd] in E. destruct t as [t|]; [|discriminate]. injection E as <- <-.
  destruct (fold_saved ls f (Some t) E0) as (T & K & V). split; [|split; assumption]. destruct ls as [|l ls]; [discriminate|]. cbn in T. injection T as ->. now exists l, ls.
Qed.
Lemma save_ok ls : ls <> [] -> (forall l, In l ls -> known (name l) = true /\ json_ok (VDict (data l)) = true) -> exists files top, save_to_temp known bi dirname ls = Ok (files, top).
Proof.
  intros Ne H. unfold save_to_temp. assert (G : exists files, fold_res step (rev ls) ([], None) = Ok (files, option_map name (hd_error ls))).
  { clear Ne. induction ls as [|l ls IH]; [now exists []|]. destruct IH as (files & E); [intros x Hx; apply H; now right|]. cbn [rev]. eexists. etransitivity; [apply fold_app|]. etransitivity; [apply (f_equal (fun r => bind r _) E)|]. cbn [bind fold_res]. destruct (H l (or_introl eq_refl)) as (H1 & H2). cbv zeta. cbn beta. rewrite H1, H2. cbn. reflexivity. }
  destruct G as (files & G). destruct ls as [|l ls]; [congruence|]. exists files, (name l). etransitivity; [apply (f_equal (fun r => bind r _) G)|]. reflexivity.
Qed.
End Folder.

(** *** The tree of files in the folder *)
Fixpoint tgo (refs : list found) : Prop :=
  match refs with
  | [] => True
  | Opened p t :: rest => basename p <> [] /\ basename p = basename (f_real (root_of t)) /\ tidy t /\ tgo rest
  | Unopenable _ :: rest => tgo rest
  | Empty _ :: _ => False
  end.
Lemma tidy_unfold d refs : tidy (File d refs) = (folders_first (map found_path (filter kept refs)) /\ tgo refs).
Proof. reflexivity. Qed.
Section Out.
Variable out : pystr.
Fixpoint mgo (refs : list found) : list found :=
  match refs with [] => [] | Opened p t :: rest => Opened (basename p) (moved out t) :: mgo rest | _ :: rest => mgo rest end.
Definition moved_root (d : fdata) (refs : list found) : fdata :=
  {| f_real := out ++ slash :: basename (f_real d); f_file := basename (f_real d); f_refs := map (fun x => basename (found_path x)) (filter kept refs) |}.
Lemma moved_unfold d refs : moved out (File d refs) = File (moved_root d refs) (mgo refs).
Proof. reflexivity. Qed.

Lemma kept_opened p t : basename p <> [] -> kept (Opened p t) = true.
Proof. intros H. cbn. destruct p; [exfalso; now apply H|reflexivity]. Qed.
Lemma mgo_paths refs : tgo refs -> map found_path (mgo refs) = map (fun x => basename (found_path x)) (filter kept refs).
Proof.
  induction refs as [|x refs IH]; intros H; [reflexivity|]. destruct x as [p t|p|p]; [|exact (IH H)|destruct H].
  destruct H as (Hp & _ & _ & Hr). cbn [mgo map]. pose proof (kept_opened p t Hp) as K. cbn [filter]. rewrite K. cbn [map found_path]. now rewrite IH.
Qed.
Lemma mgo_kept refs : tgo refs -> filter kept (mgo refs) = mgo refs.
Proof.
  induction refs as [|x refs IH]; intros H; [reflexivity|]. destruct x as [p t|p|p]; [|exact (IH H)|destruct H].
  destruct H as (Hp & _ & _ & Hr). cbn [mgo filter]. assert (K : kept (Opened (basename p) (moved out t)) = true) by (cbn; destruct (basename p); [congruence|reflexivity]). rewrite K. now rewrite IH.
Qed.

Lemma moved_size t : size (moved out t) = size t.
Proof.
  induction t as [d refs IH] using ftree_ind'. rewrite moved_unfold. cbn [size]. f_equal. induction IH as [|x refs Hx _ IHr]; [reflexivity|]. destruct x as [p t|p|p]; cbn [mgo map list_sum fold_right]; [|exact IHr|exact IHr]. rewrite Hx. now f_equal.
Qed.
Lemma moved_depth t : depth (moved out t) = depth t.
Proof.
  induction t as [d refs IH] using ftree_ind'. rewrite moved_unfold. cbn [depth]. f_equal. induction IH as [|x refs Hx _ IHr]; [reflexivity|]. destruct x as [p t|p|p]; cbn [mgo map list_max fold_right]; [|exact IHr|exact IHr]. rewrite Hx. now f_equal.
Qed.

Definition told (l : lay) := (l_real l, l_file l, l_parent l, l_paths l).
Definition shifted (l : lay) := (out ++ slash :: basename (l_real l), basename (l_real l), l_parent l, map basename (l_paths l)).
Lemma moved_listing t : tidy t -> forall start parent, map told (listing start parent (moved out t)) = map shifted (listing start parent t).
Proof.
  induction t as [d refs IH] using ftree_ind'. rewrite tidy_unfold. intros (_ & Hg) start parent. rewrite moved_unfold, !listing_unfold. cbn [map]. f_equal.
  - unfold told, shifted. cbn [l_real l_file l_parent l_paths moved_root f_real f_file]. rewrite (mgo_kept _ Hg), (mgo_paths _ Hg), map_map. reflexivity.
  - generalize (S start) as pos. revert Hg. induction IH as [|x refs Hx _ IHr]; intros Hg pos; [reflexivity|]. destruct x as [p t|p|p]; [|exact (IHr Hg pos)|destruct Hg].
    destruct Hg as (_ & _ & Ht & Hr). cbn [mgo below]. rewrite !map_app, (Hx Ht), moved_size. f_equal. now apply IHr.
Qed.

Section Files.
Variable files : dict (dict pyval).
Definition on_disk (real : pystr) (paths : list pystr) : Prop :=
  exists data, dget (basename real) files = Some data /\ refs_in data = map basename paths.

Lemma moved_brings t : tidy t -> forall start parent, (forall l, In l (listing start parent t) -> on_disk (l_real l) (l_paths l)) ->
  brings (load_in out files) (fun _ => out) (moved out t) /\ forall dir, load_in out files dir (basename (f_real (root_of t))) = Loaded (root_of (moved out t)).
Proof.
  induction t as [d refs IH] using ftree_ind'. rewrite tidy_unfold. intros (_ & Hg) start parent H. rewrite moved_unfold. split.
  - constructor; [cbn [moved_root f_refs]; now apply mgo_paths|]. cbn [moved_root f_real].
    assert (H' : forall l, In l (below start (S start) refs) -> on_disk (l_real l) (l_paths l)) by (intros l Hl; apply H; rewrite listing_unfold; now right). clear H. revert H' Hg. generalize (S start) as pos. induction IH as [|x refs Hx _ IHr]; intros pos H' Hg; [constructor|]. destruct x as [p t|p|p]; [|exact (IHr pos H' Hg)|destruct Hg].
    destruct Hg as (Hp & Hb & Ht & Hr). cbn [mgo]. cbn [below] in H'. destruct (Hx Ht pos (Some start)) as (B & L); [intros l Hl; apply H', in_or_app; now left|].
    constructor; [constructor; [|exact B]|apply (IHr (pos + size t)); [intros l Hl; apply H', in_or_app; now right|exact Hr]]. rewrite Hb. apply L.
  - intros dir. destruct (H _ (or_introl eq_refl)) as (data & E & R). cbn [l_real l_paths] in E, R. unfold load_in. cbn [root_of]. rewrite E. f_equal. unfold moved_root. f_equal. rewrite R, map_map. reflexivity.
Qed.
End Files.
End Out.

Lemma refs_in_temp bi dirname l : folders_first (l_refs (t_layer l)) -> refs_in (temp_data bi dirname l) = map basename (l_refs (t_layer l)).
Proof.
  intros F. unfold refs_in. change (lit "references") with K_REFERENCES. rewrite temp_data_get. change (str_eqb K_REFERENCES K_CWD) with false. cbv iota.
  rewrite (save_get9 bi (t_layer l) K_REFERENCES (VStrs (l_refs (t_layer l)))) by reflexivity. destruct (l_refs (t_layer l)) as [|r rs] eqn:E; [reflexivity|].
  change (empty_container (VStrs (r :: rs))) with false. cbv iota. cbv zeta. rewrite str_eqb_refl. rewrite (folders_first_all (r :: rs) _ F). unfold VStrs. rewrite map_map. cbn [str_of]. apply map_id.
Qed.

Lemma listing_tidy t : tidy t -> forall start parent l, In l (listing start parent t) -> folders_first (l_paths l).
Proof.
  induction t as [d refs IH] using ftree_ind'. rewrite tidy_unfold. intros (F & Hg) start parent l. rewrite listing_unfold. intros [<-|Hl]; [exact F|]. clear F. revert Hg Hl. generalize (S start) as pos.
  induction IH as [|x refs Hx _ IHr]; intros pos Hg Hl; [destruct Hl|]. destruct x as [p t|p|p]; [|exact (IHr pos Hg Hl)|destruct Hg]. destruct Hg as (_ & _ & Ht & Hr). cbn [below] in Hl. apply in_app_or in Hl as [Hl|Hl]; [exact (Hx Ht _ _ _ Hl)|exact (IHr _ Hr Hl)].
Qed.

Lemma reload load dirname t : brings load dirname t -> tidy t ->
  forall fuel cwd st, load_from_file load dirname fuel {| lays := []; order := [] |} cwd (root_of t) None = Done (st, cwd) -> depth t <= fuel ->
  forall known bi ls files top,
  Forall2 (fun l y => t_real l = l_real y /\ l_refs (t_layer l) = l_paths y) ls (lays st) ->
  (forall y z, In y (lays st) -> In z (lays st) -> basename (l_real y) = basename (l_real z) -> l_paths y = l_paths z) ->
  save_to_temp known bi dirname ls = Ok (files, top) ->
  forall out dir cwd', exists d st', load_in out files dir top = Loaded d /\
    load_from_file (load_in out files) (fun _ => out) fuel {| lays := []; order := [] |} cwd' d None = Done (st', cwd') /\
    order st' = order st /\ map told (lays st') = map (shifted out) (lays st).
Proof.
  intros B T fuel cwd st E Hf known bi ls files top F2 Cons Sv out dir cwd'. rewrite (load_tree load dirname t B fuel _ cwd None Hf) in E. injection E as <-. cbn [lays order app length] in *.
  destruct (saved known bi dirname ls files top Sv) as ((l0 & rest & -> & ->) & K & V).
  assert (Od : forall y, In y (listing 0 None t) -> on_disk files (l_real y) (l_paths y)).
  { intros y Hy. assert (G : exists l, In l (l0 :: rest) /\ t_real l = l_real y /\ l_refs (t_layer l) = l_paths y).
    { clear -F2 Hy. induction F2 as [|l z ls lz (H1 & H2) _ IH]; [destruct Hy|]. destruct Hy as [->|Hy]; [exists l; split; [now left|now split]|]. destruct (IH Hy) as (m & Hm & Q). exists m. split; [now right|exact Q]. }
    destruct G as (l & Hl & R & P). assert (I : In (basename (l_real y)) (dkeys files)) by (apply K; exists l; split; [exact Hl|now rewrite R]).
    apply dget_some_key in I as (v & Ev). exists v. split; [exact Ev|]. destruct (V _ _ Ev) as (b & m & a & Els & Nm & -> & _).
    assert (G : exists z, In z (listing 0 None t) /\ t_real m = l_real z /\ l_refs (t_layer m) = l_paths z).
    { assert (Hm : In m (l0 :: rest)) by (rewrite Els; apply in_or_app; right; now left). clear -F2 Hm. induction F2 as [|l z ls lz (H1 & H2) _ IH]; [destruct Hm|]. destruct Hm as [->|Hm]; [exists z; split; [now left|now split]|]. destruct (IH Hm) as (w & Hw & Q). exists w. split; [now right|exact Q]. }
    destruct G as (z & Hz & Rz & Pz). rewrite refs_in_temp by (rewrite Pz; exact (listing_tidy t T _ _ z Hz)). rewrite Pz. f_equal. apply Cons; [exact Hz|exact Hy|]. now rewrite <- Rz, <- Nm. }
  destruct (moved_brings out files t T 0 None Od) as (B' & L).
  assert (R0 : t_real l0 = f_real (root_of t)). { inversion F2 as [|? ? ? ? (H1 & _) _ E1 E2]; subst. destruct t as [d refs]. rewrite listing_unfold in E2. injection E2 as E2 _. rewrite E2 in H1. exact H1. }
  exists (root_of (moved out t)). rewrite R0. pose proof (load_tree (load_in out files) (fun _ => out) (moved out t) B' fuel {| lays := []; order := [] |} cwd' None) as LT. rewrite moved_depth, moved_size in LT. specialize (LT Hf). eexists. split; [apply L|]. split; [exact LT|]. cbn [lays order app length]. split; [reflexivity|]. now apply moved_listing.
Qed.
