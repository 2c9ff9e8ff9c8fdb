(** Facts about the heap of classes and the pre proxy composition. *)

From Coq Require Import String List NArith ZArith Bool Arith Lia Permutation.
From Verif Require Import PyStr PyStrFacts NxtPath Dict DictFacts ListMerger SortRows Layer PyVal NodeIO PyClass Comp CompSpec MergeProofs.
From Verif Require DirtyProofs.
Import ListNotations.

(** *** Heaps *)

Lemma ref_eqb_eq a b : ref_eqb a b = true <-> a = b.
Proof.
  destruct a as [i|p], b as [j|q]; cbn; try (split; [discriminate|congruence]).
  - rewrite Nat.eqb_eq. split; congruence.
  - rewrite str_eqb_eq. split; congruence.
Qed.

Lemma dget_change p f d q : dget q (change p f d) = if str_eqb q p then option_map f (dget q d) else dget q d.
Proof.
  induction d as [|[k c] d IH]; cbn [change map dget fst snd].
  - now destruct (str_eqb q p).
  - destruct (str_eqb k p) eqn:E; cbn [dget fst snd].
    + apply str_eqb_eq in E as ->. destruct (str_eqb p q) eqn:E2.
      * apply str_eqb_eq in E2 as ->. now rewrite str_eqb_refl.
      * exact IH.
    + destruct (str_eqb k q) eqn:E2; [|exact IH]. apply str_eqb_eq in E2 as ->. now rewrite E.
Qed.
Lemma dkeys_change p f d : dkeys (change p f d) = dkeys d.
Proof.
  unfold dkeys, change. rewrite map_map. apply map_ext. intros [k c]. cbn. now destruct (str_eqb k p).
Qed.
Lemma change_length p f d : length (change p f d) = length d.
Proof. apply map_length. Qed.

Lemma here_set_attr H p a v q : here (set_attr H p a v) q = here H q.
Proof. unfold here, set_attr, dmem. cbn. rewrite dget_change. destruct (str_eqb q p), (dget q (comps H)); reflexivity. Qed.
Lemma here_In H p : here H p = true <-> In p (dkeys (comps H)).
Proof. apply dmem_In. Qed.
Lemma keys_set_attr H p a v : dkeys (comps (set_attr H p a v)) = dkeys (comps H).
Proof. apply dkeys_change. Qed.
Lemma node_attr_set S c a v b :
  node_attr S {| own := dset a v (own c); cbases := cbases c |} b = if str_eqb a b then v else node_attr S c b.
Proof. unfold node_attr. cbn. rewrite dget_dset. now destruct (str_eqb a b). Qed.
Lemma attr_set_attr H p a v q b :
  attr (set_attr H p a v) q b = if here H p && str_eqb q p && str_eqb a b then v else attr H q b.
Proof.
  unfold attr, set_attr, here, dmem. cbn. rewrite dget_change. destruct (str_eqb q p) eqn:E.
  - apply str_eqb_eq in E as ->. destruct (dget p (comps H)) as [c|]; cbn; [|reflexivity]. apply node_attr_set.
  - now rewrite andb_false_r.
Qed.
Lemma attr_set_same H p a v : here H p = true -> attr (set_attr H p a v) p a = v.
Proof. intros E. now rewrite attr_set_attr, E, !str_eqb_refl. Qed.
Lemma attr_set_other_attr H p a v q b : a <> b -> attr (set_attr H p a v) q b = attr H q b.
Proof. intros E. rewrite attr_set_attr. apply str_eqb_neq in E. now rewrite E, andb_false_r. Qed.
Lemma attr_set_other_node H p a v q b : q <> p -> attr (set_attr H p a v) q b = attr H q b.
Proof. intros E. rewrite attr_set_attr. apply str_eqb_neq in E. now rewrite E, andb_false_r. Qed.

Lemma as_strs_VStrs l : as_strs (VStrs l) = l.
Proof.
  assert (E : strings (map VStr l) = Some l) by (induction l as [|x l IH]; cbn; [reflexivity|now rewrite IH]).
  unfold as_strs, VStrs. now rewrite E.
Qed.

Lemma has_opinion_says v : has_opinion v = true <-> says v.
Proof. unfold says. destruct v as [| | | |[|x l]| | |]; cbn; split; intros; try discriminate; try (split; discriminate); try reflexivity; now destruct H. Qed.
Lemma no_opinion_says v : has_opinion v = false <-> ~ says v.
Proof. rewrite <- has_opinion_says. destruct (has_opinion v); split; congruence. Qed.

(** *** Gathering the spec nodes *)

Definition row_path (r : list pystr * node) : pystr := node_namespace_to_str_path (fst r).
Definition as_placed (r : list pystr * node) : placed := (row_path r, snd r).

(** The numbers of the rows at a path. *)
Fixpoint numbers (n : nat) (p : pystr) (rows : list (list pystr * node)) : list nat :=
  match rows with
  | [] => []
  | r :: t => if str_eqb (row_path r) p then n :: numbers (S n) p t else numbers (S n) p t
  end.

Lemma gather_spec : forall rows n acc,
  let d := gather n rows acc in
  dkeys d = fold_left (fun acc x => if str_in x acc then acc else acc ++ [x]) (map row_path rows) (dkeys acc) /\
  forall p, dget p d = match dget p acc with
    | Some c => Some {| own := own c; cbases := cbases c ++ map Sp (numbers n p rows) |}
    | None => match stack p (map as_placed rows) with
              | [] => None
              | sp :: _ => Some {| own := [(NAME, attr_or_none sp NAME)]; cbases := map Sp (numbers n p rows) |}
              end
    end.
Proof.
  induction rows as [|[ns sp] rows IH]; intros n acc; cbn [gather map fold_left numbers stack filter].
  - split; [reflexivity|]. intros p. destruct (dget p acc) as [c|]; [|reflexivity]. cbn. rewrite app_nil_r. now destruct c.
  - change (row_path (ns, sp)) with (node_namespace_to_str_path ns). set (q := node_namespace_to_str_path ns).
    destruct (dmem q acc) eqn:E.
    + destruct (IH (S n) (change q (fun c => {| own := own c; cbases := cbases c ++ [Sp n] |}) acc)) as (K & G). cbn zeta in *.
      rewrite dkeys_change in K. split.
      * rewrite K. assert (Hq : str_in q (dkeys acc) = true) by (apply str_in_In, dmem_In; exact E). now rewrite Hq.
      * intros p. rewrite G, dget_change. cbn [as_placed fst]. change (row_path (ns, sp)) with q.
        destruct (str_eqb p q) eqn:Ep.
        -- apply str_eqb_eq in Ep as ->. rewrite str_eqb_refl. unfold dmem in E. destruct (dget q acc) as [c|]; [|discriminate].
           cbn. rewrite <- app_assoc. reflexivity.
        -- rewrite str_eqb_sym, Ep. reflexivity.
    + destruct (IH (S n) (acc ++ [(q, {| own := [(NAME, attr_or_none sp NAME)]; cbases := [Sp n] |})])) as (K & G). cbn zeta in *.
      split.
      * rewrite K. unfold dkeys. rewrite map_app. cbn [map fst]. assert (Hq : str_in q (map fst acc) = false) by (apply str_in_false; apply dmem_false in E; exact E).
        now rewrite Hq.
      * intros p. rewrite G, dget_app. cbn [dget]. cbn [as_placed fst]. change (row_path (ns, sp)) with q.
        apply dmem_false in E. apply dget_none in E. destruct (str_eqb q p) eqn:Ep.
        -- apply str_eqb_eq in Ep as <-. rewrite E. cbn. reflexivity.
        -- destruct (dget p acc) as [c|]; reflexivity.
Qed.

Lemma numbers_nth : forall rows n p i, In i (numbers n p rows) <-> exists r, n <= i /\ nth_error rows (i - n) = Some r /\ row_path r = p.
Proof.
  induction rows as [|r rows IH]; intros n p i; cbn [numbers].
  - split; [intros []|]. intros (r & _ & E & _). destruct (i - n); discriminate.
  - assert (Hs : In i (numbers (S n) p rows) <-> exists r', S n <= i /\ nth_error (r :: rows) (i - n) = Some r' /\ row_path r' = p).
    { rewrite IH. split; intros (r' & L & E & P); exists r'; (split; [lia|]).
      - replace (i - n) with (S (i - S n)) by lia. auto.
      - replace (i - n) with (S (i - S n)) in E by lia. auto. }
    destruct (str_eqb (row_path r) p) eqn:E.
    + apply str_eqb_eq in E. cbn [In]. rewrite Hs. split.
      * intros [<-|(r' & L & F)]; [exists r; rewrite Nat.sub_diag; cbn; auto|exists r'; split; [lia|exact F]].
      * intros (r' & L & F & P). destruct (Nat.eq_dec n i) as [|N]; [now left|right]. exists r'. split; [lia|auto].
    + rewrite Hs. split; intros (r' & L & F & P); exists r'; (split; [|auto]); [lia|]. destruct (Nat.eq_dec n i) as [<-|N]; [|lia].
      rewrite Nat.sub_diag in F. cbn in F. injection F as ->. apply str_eqb_neq in E. contradiction.
Qed.
Lemma numbers_nodup : forall rows n p, NoDup (numbers n p rows).
Proof.
  induction rows as [|r rows IH]; intros n p; cbn [numbers]; [constructor|]. destruct (str_eqb (row_path r) p); [|auto]. constructor; [|auto].
  rewrite numbers_nth. intros (r' & L & _). lia.
Qed.
Lemma numbers_nodes : forall rows pre p,
  spec_nodes (pre ++ map snd rows) (map Sp (numbers (length pre) p rows)) = stack p (map as_placed rows).
Proof.
  induction rows as [|[ns sp] rows IH]; intros pre p; [reflexivity|]. cbn [numbers map].
  replace (pre ++ snd (ns, sp) :: map snd rows) with ((pre ++ [sp]) ++ map snd rows) by now rewrite <- app_assoc.
  specialize (IH (pre ++ [sp]) p). rewrite app_length in IH. cbn [length] in IH. rewrite Nat.add_1_r in IH.
  unfold stack in *. cbn [map filter as_placed fst]. destruct (str_eqb (row_path (ns, sp)) p); [|exact IH].
  cbn [map spec_nodes flat_map]. rewrite nth_error_app1 by (rewrite app_length; cbn; lia). rewrite nth_error_app2, Nat.sub_diag by lia. cbn.
  f_equal. exact IH.
Qed.

(** *** Overloading *)

Lemma tracked_nodup : NoDup TRACKED.
Proof. repeat constructor; vm_compute; intuition discriminate. Qed.
(** No tracked attribute is another's source, nor CHILD_ORDER or NAME. *)
Definition plain (a : pystr) : Prop := forall b, In b TRACKED -> b ++ META_SOURCE <> a.
Lemma str_ne (a b : pystr) : str_eqb a b = false -> a <> b.
Proof. apply str_eqb_neq. Qed.
Lemma source_inj a b : a ++ META_SOURCE = b ++ META_SOURCE -> a = b.
Proof. apply app_inv_tail. Qed.
Ltac tracked_cases H := unfold TRACKED in H; cbn [In] in H; repeat match type of H with _ \/ _ => destruct H as [<-|H] end; try (now destruct H).
Lemma plain_internal a : In a ALL_INTERNAL -> plain a.
Proof.
  intros Ha b Hb E. assert (F : forallb (fun a => forallb (fun b => negb (str_eqb (b ++ META_SOURCE) a)) TRACKED) ALL_INTERNAL = true) by (vm_compute; reflexivity).
  rewrite forallb_forall in F. specialize (F _ Ha). rewrite forallb_forall in F. specialize (F _ Hb). rewrite E, str_eqb_refl in F. discriminate.
Qed.

Lemma overload_step_plain p o sp a l : NoDup l -> incl l TRACKED -> plain a ->
  dget a (fold_left (fun o a => let v := attr_or_none sp a in if has_opinion v
     then dset (a ++ META_SOURCE) (VTuple [attr_or_none sp SOURCE_LAYER; VStr p]) (dset a v o) else o) l o) =
  if str_in a l && has_opinion (attr_or_none sp a) then Some (attr_or_none sp a) else dget a o.
Proof.
  revert o. induction l as [|b l IH]; intros o Hnd Hl Hp; [reflexivity|]. cbn [fold_left]. inversion Hnd as [|? ? Hb Hnd']; subst.
  cbn zeta. rewrite IH; [|exact Hnd'|intros x Hx; apply Hl; now right|exact Hp].
  assert (Eb : dget a (if has_opinion (attr_or_none sp b) then dset (b ++ META_SOURCE) (VTuple [attr_or_none sp SOURCE_LAYER; VStr p]) (dset b (attr_or_none sp b) o) else o)
    = if str_eqb b a && has_opinion (attr_or_none sp a) then Some (attr_or_none sp a) else dget a o).
  { destruct (str_eqb b a) eqn:E.
    - apply str_eqb_eq in E as ->. cbn [andb]. destruct (has_opinion (attr_or_none sp a)); [|reflexivity].
      rewrite dget_dset_other by (apply Hp, Hl; now left). apply dget_dset_same.
    - cbn [andb]. destruct (has_opinion (attr_or_none sp b)); [|reflexivity]. rewrite !dget_dset_other; [reflexivity|now apply str_ne|apply Hp, Hl; now left]. }
  rewrite Eb. unfold str_in. cbn [existsb]. fold (str_in a l). rewrite (str_eqb_sym a b). destruct (str_eqb b a) eqn:E; cbn [andb orb].
  - apply str_eqb_eq in E as ->. rewrite (proj2 (str_in_false a l) Hb). cbn [andb]. reflexivity.
  - reflexivity.
Qed.
Lemma overload_plain p o sp a : plain a ->
  dget a (overload p o sp) = if str_in a TRACKED && has_opinion (attr_or_none sp a) then Some (attr_or_none sp a) else dget a o.
Proof. intros H. apply overload_step_plain; [apply tracked_nodup|apply incl_refl|exact H]. Qed.

Lemma overload_step_source p o sp a l : NoDup l -> incl l TRACKED -> In a TRACKED ->
  dget (a ++ META_SOURCE) (fold_left (fun o a => let v := attr_or_none sp a in if has_opinion v
     then dset (a ++ META_SOURCE) (VTuple [attr_or_none sp SOURCE_LAYER; VStr p]) (dset a v o) else o) l o) =
  if str_in a l && has_opinion (attr_or_none sp a) then Some (VTuple [attr_or_none sp SOURCE_LAYER; VStr p]) else dget (a ++ META_SOURCE) o.
Proof.
  revert o. induction l as [|b l IH]; intros o Hnd Hl Ha; [reflexivity|]. cbn [fold_left]. inversion Hnd as [|? ? Hb Hnd']; subst.
  cbn zeta. rewrite IH; [|exact Hnd'|intros x Hx; apply Hl; now right|exact Ha].
  assert (Hbt : In b TRACKED) by (apply Hl; now left).
  assert (Hba : b <> a ++ META_SOURCE). { intros E. apply (plain_internal b) with (b := a); [apply in_or_app; now left|exact Ha|now symmetry]. }
  assert (Eb : dget (a ++ META_SOURCE) (if has_opinion (attr_or_none sp b) then dset (b ++ META_SOURCE) (VTuple [attr_or_none sp SOURCE_LAYER; VStr p]) (dset b (attr_or_none sp b) o) else o)
    = if str_eqb b a && has_opinion (attr_or_none sp a) then Some (VTuple [attr_or_none sp SOURCE_LAYER; VStr p]) else dget (a ++ META_SOURCE) o).
  { destruct (str_eqb b a) eqn:E.
    - apply str_eqb_eq in E as ->. cbn [andb]. destruct (has_opinion (attr_or_none sp a)); [|reflexivity]. apply dget_dset_same.
    - cbn [andb]. destruct (has_opinion (attr_or_none sp b)); [|reflexivity]. rewrite !dget_dset_other; [reflexivity|exact Hba|].
      intros F. apply source_inj in F as ->. now rewrite str_eqb_refl in E. }
  rewrite Eb. unfold str_in. cbn [existsb]. fold (str_in a l). rewrite (str_eqb_sym a b). destruct (str_eqb b a) eqn:E; cbn [andb orb].
  - apply str_eqb_eq in E as ->. rewrite (proj2 (str_in_false a l) Hb). cbn [andb]. reflexivity.
  - reflexivity.
Qed.
Lemma overload_source p o sp a : In a TRACKED ->
  dget (a ++ META_SOURCE) (overload p o sp) =
  if has_opinion (attr_or_none sp a) then Some (VTuple [attr_or_none sp SOURCE_LAYER; VStr p]) else dget (a ++ META_SOURCE) o.
Proof.
  intros H. unfold overload. rewrite overload_step_source; [|apply tracked_nodup|apply incl_refl|exact H].
  apply str_in_In in H. now rewrite H.
Qed.

(** Child order apart, the loop over the bases is a fold of [overload]. *)
Lemma overloads_get p : forall sps first o a, a <> CHILD_ORDER ->
  dget a (overloads p first sps o) = dget a (fold_left (overload p) sps o).
Proof.
  assert (Hc : forall o o' sp a, a <> CHILD_ORDER -> (forall b, b <> CHILD_ORDER -> dget b o = dget b o') -> dget a (overload p o sp) = dget a (overload p o' sp)).
  { intros o o' sp a Ha E. unfold overload. revert o o' E. induction TRACKED as [|b l IH]; intros o o' E; cbn [fold_left]; [now apply E|].
    apply IH. intros c Hc. cbn zeta. destruct (has_opinion (attr_or_none sp b)); [|now apply E]. rewrite !dget_dset. destruct (str_eqb (b ++ META_SOURCE) c); [reflexivity|].
    destruct (str_eqb b c); [reflexivity|now apply E]. }
  assert (Hg : forall sps first o o' a, a <> CHILD_ORDER -> (forall b, b <> CHILD_ORDER -> dget b o = dget b o') ->
             dget a (overloads p first sps o) = dget a (fold_left (overload p) sps o')).
  { induction sps as [|sp sps IH]; intros first o o' a Ha E; cbn [overloads fold_left]; [now apply E|]. apply IH; [exact Ha|].
    intros b Hb. assert (E1 : forall b, b <> CHILD_ORDER -> dget b (if first then dset CHILD_ORDER (attr_or_none sp CHILD_ORDER) o else o) = dget b o').
    { intros c Hc'. destruct first; [|now apply E]. rewrite dget_dset_other by congruence. now apply E. }
    cbn zeta. destruct (str_eqb p WORLD); [now apply Hc|]. rewrite dget_dset_other by congruence. now apply Hc. }
  intros sps first o a Ha. apply Hg; auto.
Qed.

(** The last of the given spec nodes that has an opinion, the strongest, is
    what stays. *)
Lemma overload_fold p a sps : In a TRACKED -> forall o,
  (forall n, speaks_first a (rev sps) n ->
     dget a (fold_left (overload p) sps o) = Some (attr_or_none n a) /\
     dget (a ++ META_SOURCE) (fold_left (overload p) sps o) = Some (VTuple [attr_or_none n SOURCE_LAYER; VStr p])) /\
  (silent a (rev sps) ->
     dget a (fold_left (overload p) sps o) = dget a o /\
     dget (a ++ META_SOURCE) (fold_left (overload p) sps o) = dget (a ++ META_SOURCE) o).
Proof.
  intros Ha. assert (Hin : In a ALL_INTERNAL) by (apply in_or_app; now left).
  assert (Ha' : str_in a TRACKED = true) by now apply str_in_In.
  induction sps as [|sp sps IH] using rev_ind; intros o.
  - split; [intros n (s & w & E & _); destruct s; discriminate|auto].
  - rewrite rev_unit, fold_left_app. cbn [fold_left]. rewrite overload_plain, overload_source, Ha' by (try apply plain_internal; assumption).
    cbn [andb]. change (attr_or_none sp a) with (value sp a) in *. split.
    + intros n (s & w & E & Hn & Hs). destruct s as [|x s]; cbn in E; injection E as -> E.
      * apply has_opinion_says in Hn. rewrite Hn. auto.
      * assert (F : has_opinion (value x a) = false) by (apply no_opinion_says, Hs; now left). rewrite F. apply IH. exists s, w. split; [exact E|].
        split; [exact Hn|]. intros m Hm. apply Hs. now right.
    + intros Hs. assert (F : has_opinion (value sp a) = false) by (apply no_opinion_says, Hs; now left). rewrite F. apply IH.
      intros m Hm. apply Hs. now right.
Qed.

(** *** The pre proxy composition *)

(** *** Child order *)

Lemma merged_in base overlay x : In x (merged base overlay) <-> In x base \/ In x overlay.
Proof.
  unfold merged. destruct (list_merger_perm base overlay) as (m & -> & P). split; intros I.
  - apply (Permutation_in _ P) in I. apply in_app_or in I as [I|I]; [now left|]. apply filter_In in I. now right.
  - apply (Permutation_in _ (Permutation_sym P)). apply in_or_app. destruct (str_in x base) eqn:E; [left; now apply str_in_In|].
    destruct I as [I|I]; [now left|]. right. apply filter_In. split; [exact I|now rewrite E].
Qed.
Lemma merged_nodup base overlay : NoDup base -> NoDup overlay -> NoDup (merged base overlay).
Proof.
  intros H1 H2. unfold merged. destruct (list_merger_perm base overlay) as (m & -> & P). exact (NoDup_perm_merge _ _ _ H1 H2 P).
Qed.
Lemma merged_base base overlay : NoDup base -> NoDup overlay -> filter (fun y => str_in y base) (merged base overlay) = base.
Proof.
  intros H1 H2. unfold merged. destruct (list_merger_perm base overlay) as (m & E & P). rewrite E. exact (list_merger_base_order _ _ _ H1 H2 E).
Qed.

Definition order_in (n : node) : list pystr := as_strs (attr_or_none n CHILD_ORDER).
Lemma child_order_plain : plain CHILD_ORDER. Proof. apply plain_internal. vm_compute. tauto. Qed.
Lemma overload_order p o sp : dget CHILD_ORDER (overload p o sp) = dget CHILD_ORDER o.
Proof. rewrite overload_plain by apply child_order_plain. reflexivity. Qed.

Lemma overloads_order p : p <> WORLD -> forall sps o,
  order_in (overloads p false sps o) = fold_left (fun acc sp => merged (order_in sp) acc) sps (order_in o).
Proof.
  intros Hp. apply str_eqb_neq in Hp. induction sps as [|sp sps IH]; intros o; cbn [overloads fold_left]; [reflexivity|].
  cbn zeta. rewrite Hp, IH. f_equal. unfold order_in. unfold attr_or_none at 1. rewrite dget_dset_same, as_strs_VStrs. f_equal.
  unfold attr_or_none. now rewrite overload_order.
Qed.
Lemma overloads_order_first p sp sps o : p <> WORLD ->
  order_in (overloads p true (sp :: sps) o) = fold_left (fun acc sp => merged (order_in sp) acc) (sp :: sps) (order_in sp).
Proof.
  intros Hp. cbn [overloads fold_left]. cbn zeta. rewrite overloads_order by exact Hp. f_equal. apply str_eqb_neq in Hp. rewrite Hp.
  unfold order_in. unfold attr_or_none at 1. rewrite dget_dset_same, as_strs_VStrs. f_equal.
  unfold attr_or_none at 1. rewrite overload_order, dget_dset_same. reflexivity.
Qed.
Lemma overloads_order_world sp sps o :
  attr_or_none (overloads WORLD true (sp :: sps) o) CHILD_ORDER = attr_or_none sp CHILD_ORDER.
Proof.
  cbn [overloads]. cbn zeta. rewrite str_eqb_refl.
  assert (G : forall sps o, attr_or_none (overloads WORLD false sps o) CHILD_ORDER = attr_or_none o CHILD_ORDER).
  { induction sps0 as [|x sps0 IH]; intros o0; cbn [overloads]; [reflexivity|]. cbn zeta. rewrite str_eqb_refl, IH. unfold attr_or_none. now rewrite overload_order. }
  rewrite G. unfold attr_or_none at 1. now rewrite overload_order, dget_dset_same.
Qed.
Lemma merge_all_in : forall sps acc x,
  In x (fold_left (fun acc sp => merged (order_in sp) acc) sps acc) <-> In x acc \/ exists sp, In sp sps /\ In x (order_in sp).
Proof.
  induction sps as [|sp sps IH]; intros acc x; cbn [fold_left].
  - split; [now left|]. intros [I|(? & [] & _)]. exact I.
  - rewrite IH, merged_in. split.
    + intros [[I|I]|(s & Hs & I)]; [right; exists sp; split; [now left|exact I]|now left|right; exists s; split; [now right|exact I]].
    + intros [I|(s & [<-|Hs] & I)]; [auto|auto|]. right. eauto.
Qed.
Lemma merge_all_nodup : forall sps acc, NoDup acc -> (forall sp, In sp sps -> NoDup (order_in sp)) ->
  NoDup (fold_left (fun acc sp => merged (order_in sp) acc) sps acc).
Proof.
  induction sps as [|sp sps IH]; intros acc Ha Hs; cbn [fold_left]; [exact Ha|]. apply IH; [|intros; apply Hs; now right].
  apply merged_nodup; [apply Hs; now left|exact Ha].
Qed.

Section Pre.
Variable tables : list (list (list pystr * node)).
Let all := map as_placed (concat tables).
Let H := comp_pre_proxies tables.

Lemma firsts_str_in l acc : fold_left (fun acc x => if str_in x acc then acc else acc ++ [x]) l acc =
  fold_left (fun acc x => if in_dec (list_eq_dec N.eq_dec) x acc then acc else acc ++ [x]) l acc.
Proof.
  revert acc. induction l as [|x l IH]; intros acc; cbn [fold_left]; [reflexivity|]. rewrite IH. f_equal.
  destruct (in_dec (list_eq_dec N.eq_dec) x acc) as [I|I].
  - apply str_in_In in I. now rewrite I.
  - apply str_in_false in I. now rewrite I.
Qed.
Lemma firsts_spec l : NoDup (firsts l) /\ forall x, In x (firsts l) <-> In x l.
Proof.
  unfold firsts. assert (G : forall l acc, NoDup acc ->
    let r := fold_left (fun acc x => if in_dec (list_eq_dec N.eq_dec) x acc then acc else acc ++ [x]) l acc in
    NoDup r /\ forall x, In x r <-> In x acc \/ In x l).
  { clear. induction l as [|y l IH]; intros acc Hn; cbn [fold_left]; [split; [exact Hn|cbn; tauto]|].
    destruct (in_dec (list_eq_dec N.eq_dec) y acc) as [I|I].
    - destruct (IH acc Hn) as (N1 & N2). split; [exact N1|]. intros x. rewrite N2. cbn. split; [tauto|]. intros [?|[<-|?]]; auto.
    - destruct (IH (acc ++ [y])) as (N1 & N2). { apply DirtyProofs.NoDup_snoc; auto. } split; [exact N1|]. intros x. rewrite N2, in_app_iff. cbn. tauto. }
  destruct (G l [] (NoDup_nil _)) as (N1 & N2). split; [exact N1|]. intros x. rewrite N2. cbn. tauto.
Qed.

Lemma pre_keys : dkeys (comps H) = firsts (map fst all).
Proof.
  transitivity (dkeys (gather 0 (concat tables) [])).
  { unfold H, comp_pre_proxies, dkeys. cbn [comps]. rewrite map_map. reflexivity. }
  destruct (gather_spec (concat tables) 0 []) as (K & _). cbn zeta in K. rewrite K. unfold firsts, all.
  rewrite firsts_str_in, map_map. reflexivity.
Qed.
Lemma pre_get p : dget p (comps H) =
  match stack p all with
  | [] => None
  | sp :: _ => Some {| own := overloads p true (rev (stack p all)) [(NAME, attr_or_none sp NAME)];
                       cbases := map Sp (numbers 0 p (concat tables)) |}
  end.
Proof.
  unfold H, comp_pre_proxies. cbn [comps].
  assert (M : forall d, dget p (map (fun kc => (fst kc, pre_node (map snd (concat tables)) (fst kc) (snd kc))) d)
                        = option_map (pre_node (map snd (concat tables)) p) (dget p d)).
  { induction d as [|[k c] d IH]; cbn [map dget fst snd]; [reflexivity|]. destruct (str_eqb k p) eqn:E; [|exact IH].
    apply str_eqb_eq in E as ->. reflexivity. }
  rewrite M. destruct (gather_spec (concat tables) 0 []) as (_ & G). cbn zeta in G. rewrite G. cbn [dget]. fold all.
  destruct (stack p all) as [|sp l] eqn:E; [reflexivity|]. cbn [option_map]. f_equal. unfold pre_node. cbn [own cbases]. f_equal.
  pose proof (numbers_nodes (concat tables) [] p) as N. cbn [app length] in N. fold all in N. now rewrite N, E.
Qed.
Lemma pre_here p : here H p = true <-> stack p all <> [].
Proof. unfold here, dmem. rewrite pre_get. destruct (stack p all); split; congruence. Qed.
Lemma pre_specs : specs H = map snd (concat tables).
Proof. reflexivity. Qed.
Lemma pre_bases_nodes p : spec_nodes (specs H) (bases_in (comps H) (Co p)) = stack p all.
Proof.
  cbn [bases_in]. rewrite pre_get. destruct (stack p all) as [|sp l] eqn:E; [reflexivity|]. cbn [cbases]. rewrite <- E.
  pose proof (numbers_nodes (concat tables) [] p) as N. exact N.
Qed.

(** The strongest opinion, and where it is from. *)
Lemma pre_strongest p a n : In a TRACKED -> speaks_first a (stack p all) n ->
  attr H p a = value n a /\ attr H p (a ++ META_SOURCE) = VTuple [value n SOURCE_LAYER; VStr p].
Proof.
  intros Ha Hn. unfold attr. rewrite pre_get. destruct (stack p all) as [|sp l] eqn:E.
  { destruct Hn as ([|? ?] & ? & F & _); discriminate. }
  assert (Ca : a <> CHILD_ORDER). { tracked_cases Ha; vm_compute; discriminate. }
  assert (Cs : a ++ META_SOURCE <> CHILD_ORDER). { tracked_cases Ha; vm_compute; discriminate. }
  destruct (overload_fold p a (rev (sp :: l)) Ha [(NAME, attr_or_none sp NAME)]) as (F & _). rewrite rev_involutive in F.
  destruct (F n Hn) as (F1 & F2). unfold node_attr. cbn [own]. rewrite !overloads_get by assumption. rewrite F1, F2. auto.
Qed.
Lemma pre_silent p a sp l : In a TRACKED -> stack p all = sp :: l -> silent a (stack p all) ->
  attr H p a = value sp a /\ attr H p (a ++ META_SOURCE) = value sp (a ++ META_SOURCE).
Proof.
  intros Ha E Hs. unfold attr. rewrite pre_get, E.
  assert (Ca : a <> CHILD_ORDER). { tracked_cases Ha; vm_compute; discriminate. }
  assert (Cs : a ++ META_SOURCE <> CHILD_ORDER). { tracked_cases Ha; vm_compute; discriminate. }
  assert (Na : dget a [(NAME, attr_or_none sp NAME)] = None). { tracked_cases Ha; reflexivity. }
  assert (Ns : dget (a ++ META_SOURCE) [(NAME, attr_or_none sp NAME)] = None). { tracked_cases Ha; reflexivity. }
  destruct (overload_fold p a (rev (sp :: l)) Ha [(NAME, attr_or_none sp NAME)]) as (_ & F). rewrite rev_involutive, <- E in F.
  destruct (F Hs) as (F1 & F2). unfold node_attr. cbn [own cbases]. rewrite <- E, !overloads_get, F1, F2, Na, Ns by assumption.
  assert (N : map (fun i => nth_error (specs H) i) (numbers 0 p (concat tables)) = map Some (stack p all)).
  { unfold all. change (specs H) with (map snd (concat tables)). clear. assert (G : forall rows pre, map (fun i => nth_error (pre ++ map snd rows) i) (numbers (length pre) p rows) = map Some (stack p (map as_placed rows))).
    { induction rows as [|[ns sp] rows IH]; intros pre; [reflexivity|]. cbn [numbers map].
      replace (pre ++ snd (ns, sp) :: map snd rows) with ((pre ++ [sp]) ++ map snd rows) by now rewrite <- app_assoc.
      specialize (IH (pre ++ [sp])). rewrite app_length in IH. cbn [length] in IH. rewrite Nat.add_1_r in IH.
      unfold stack in *. cbn [map filter as_placed fst]. destruct (str_eqb (row_path (ns, sp)) p); [|exact IH].
      cbn [map]. rewrite IH. f_equal. rewrite nth_error_app1 by (rewrite app_length; cbn; lia). rewrite nth_error_app2, Nat.sub_diag by lia. reflexivity. }
    apply (G (concat tables) []). }
  rewrite E in N. destruct (numbers 0 p (concat tables)) as [|i is]; [discriminate|]. cbn [map] in N |- *. injection N as N _. assert (N' : nth_error (specs H) i = Some sp) by exact N. rewrite N'. auto.
Qed.
Lemma world_or p : {p = WORLD} + {p <> WORLD}. Proof. apply list_eq_dec, N.eq_dec. Qed.
(** The untracked attributes are those of the strongest layer. *)
Lemma pre_first p a sp l : stack p all = sp :: l -> plain a -> ~ In a TRACKED -> a <> CHILD_ORDER -> attr H p a = value sp a.
Proof.
  intros E Hp Ht Hc. unfold attr. rewrite pre_get, E. unfold node_attr. cbn [own cbases]. rewrite overloads_get by exact Hc.
  assert (G : forall sps o, dget a (fold_left (overload p) sps o) = dget a o).
  { induction sps as [|x sps IH]; intros o; cbn [fold_left]; [reflexivity|]. rewrite IH, overload_plain by exact Hp.
    apply str_in_false in Ht. now rewrite Ht. }
  rewrite G. cbn [dget]. destruct (str_eqb NAME a) eqn:En; [apply str_eqb_eq in En as <-; reflexivity|].
  assert (N : exists i is, numbers 0 p (concat tables) = i :: is /\ nth_error (specs H) i = Some sp).
  { unfold all in E. clear -E. change (specs H) with ([] ++ map snd (concat tables)).
    revert E. change 0 with (length (@nil node)). generalize (@nil node) as pre. induction (concat tables) as [|[ns s0] rows IH]; intros pre E; [discriminate|].
    cbn [numbers map]. unfold stack in E. cbn [map filter as_placed fst] in E. destruct (str_eqb (row_path (ns, s0)) p) eqn:Er.
    - cbn [map snd] in E. injection E as <- _. exists (length pre), (numbers (S (length pre)) p rows). split; [reflexivity|].
      rewrite nth_error_app2, Nat.sub_diag by lia. reflexivity.
    - destruct (IH (pre ++ [s0]) E) as (i & is & E1 & E2). rewrite app_length in E1. cbn [length] in E1. rewrite Nat.add_1_r in E1.
      exists i, is. split; [exact E1|]. cbn [snd]. now rewrite <- app_assoc in E2. }
  destruct N as (i & is & -> & N). cbn [map]. now rewrite N.
Qed.
(** The child order: every layer's names, the strongest layer's in its order;
    the world's is that of the weakest layer. *)
Lemma pre_order p sp l : stack p all = sp :: l -> p <> WORLD ->
  (forall x, In x (order_of H p) <-> exists n, In n (stack p all) /\ In x (as_strs (value n CHILD_ORDER))) /\
  ((forall n, In n (stack p all) -> NoDup (as_strs (value n CHILD_ORDER))) ->
   NoDup (order_of H p) /\ filter (fun x => str_in x (as_strs (value sp CHILD_ORDER))) (order_of H p) = as_strs (value sp CHILD_ORDER)).
Proof.
  intros E Hp.
  assert (O : order_of H p = order_in (overloads p true (rev (stack p all)) [(NAME, attr_or_none sp NAME)])).
  { unfold order_of, attr, order_in. rewrite pre_get, E. unfold node_attr. cbn [own cbases].
    destruct (rev (sp :: l)) as [|w r] eqn:Er. { cbn in Er. destruct (rev l); discriminate. }
    assert (M : exists v, dget CHILD_ORDER (overloads p true (w :: r) [(NAME, attr_or_none sp NAME)]) = Some v).
    { cbn [overloads]. cbn zeta. apply str_eqb_neq in Hp. rewrite Hp.
      assert (G : forall sps b o v, dget CHILD_ORDER o = Some v -> exists v', dget CHILD_ORDER (overloads p b sps o) = Some v').
      { induction sps as [|x sps IH]; intros b o v Ev; cbn [overloads]; [eauto|]. cbn zeta. rewrite Hp. eapply IH. apply dget_dset_same. }
      eapply G. apply dget_dset_same. }
    destruct M as (v & M). rewrite M. unfold attr_or_none at 1. rewrite M. reflexivity. }
  rewrite O. rewrite E. cbn [rev]. destruct (rev l) as [|w r] eqn:Er.
  - cbn [app]. rewrite overloads_order_first by exact Hp. assert (l = []) as -> by (rewrite <- (rev_involutive l), Er; reflexivity). split.
    + intros x. rewrite merge_all_in. split; [intros [I|(s & [<-|[]] & I)]; exists sp; (split; [now left|exact I])|].
      intros (n & [<-|[]] & I). now left.
    + intros Hn. assert (Hs : NoDup (order_in sp)) by (apply Hn; now left). split; [apply merge_all_nodup; [exact Hs|intros ? [<-|[]]; exact Hs]|].
      cbn [fold_left]. now apply merged_base.
  - cbn [app]. rewrite overloads_order_first by exact Hp.
    assert (L : l = rev r ++ [w]) by (rewrite <- (rev_involutive l), Er; reflexivity). split.
    + intros x. rewrite merge_all_in. split.
      * intros [I|(s & Hs & I)].
        -- exists w. split; [right; rewrite L; apply in_or_app; right; now left|exact I].
        -- exists s. split; [|exact I]. destruct Hs as [<-|Hs]; [right; rewrite L; apply in_or_app; right; now left|].
           apply in_app_or in Hs as [Hs|[<-|[]]]; [|now left]. right. rewrite L. apply in_or_app. left. now apply -> in_rev in Hs.
      * intros (n & [<-|Hn] & I); right.
        -- exists sp. split; [right; apply in_or_app; right; now left|exact I].
        -- exists n. split; [|exact I]. rewrite L in Hn. apply in_app_or in Hn as [Hn|[<-|[]]]; [|now left]. right. apply in_or_app. left. now apply <- in_rev.
    + intros Hn. assert (Hs : forall s, In s (w :: r ++ [sp]) -> NoDup (order_in s)).
      { intros s [<-|Hs]; [apply Hn; right; rewrite L; apply in_or_app; right; now left|]. apply in_app_or in Hs as [Hs|[<-|[]]]; [|apply Hn; now left].
        apply Hn. right. rewrite L. apply in_or_app. left. now apply -> in_rev in Hs. }
      split; [apply merge_all_nodup; [apply Hs; now left|exact Hs]|].
      rewrite app_comm_cons, fold_left_app. cbn [fold_left]. apply merged_base; [apply Hs; right; apply in_or_app; right; now left|].
      apply (merge_all_nodup (w :: r)); [apply Hs; now left|]. intros s I. apply Hs. destruct I as [<-|I]; [now left|right; apply in_or_app; now left].
Qed.
Lemma pre_order_world sp l : stack WORLD all = sp :: l -> attr H WORLD CHILD_ORDER = value (List.last (stack WORLD all) sp) CHILD_ORDER.
Proof.
  intros E. unfold attr. rewrite pre_get, E. unfold node_attr. cbn [own cbases].
  destruct (rev (sp :: l)) as [|w r] eqn:Er. { cbn in Er. destruct (rev l); discriminate. }
  assert (L : sp :: l = rev r ++ [w]) by (rewrite <- (rev_involutive (sp :: l)), Er; reflexivity).
  pose proof (overloads_order_world w r [(NAME, attr_or_none sp NAME)]) as O. rewrite L, last_last.
  cbn [overloads] in O |- *. cbn zeta in O |- *. rewrite str_eqb_refl in O |- *.
  assert (G : forall sps b o v, dget CHILD_ORDER o = Some v -> exists v', dget CHILD_ORDER (overloads WORLD b sps o) = Some v').
  { induction sps as [|x sps IH]; intros b o v Ev; cbn [overloads]; [eauto|]. cbn zeta. rewrite str_eqb_refl.
    destruct b; eapply IH; rewrite overload_order; [apply dget_dset_same|exact Ev]. }
  destruct (G r false (overload WORLD (dset CHILD_ORDER (attr_or_none w CHILD_ORDER) [(NAME, attr_or_none sp NAME)]) w) (attr_or_none w CHILD_ORDER)) as (v & Ev).
  { rewrite overload_order. apply dget_dset_same. }
  unfold attr_or_none in O at 1. rewrite Ev in O |- *. exact O.
Qed.
End Pre.
