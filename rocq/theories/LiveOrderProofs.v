(** Setting a node's child order. *)

From Coq Require Import String List NArith ZArith Bool Arith Lia.
From Verif Require Import PyStr PyStrFacts NxtPath PathSpec PathProofs Dict DictFacts ListMerger SortRows Layer PyVal NodeIO PyClass
  NodeIOProofs NodeEdit Comp CompSpec MergeProofs CompProofs CompPostProofs CompTreeProofs CompStageProofs CompTotalProofs StageView StageViewProofs LiveSpec Live LiveBase LiveOrderSpec Arcs ArcsProofs LiveOrder.
Import ListNotations.

(** *** Merging *)

Lemma merged_absorb base overlay : incl overlay base -> merged base overlay = base.
Proof.
  intros Hi. unfold merged, list_merger. destruct (list_eqb base overlay); [reflexivity|]. cbv zeta.
  assert (F : forallb (fun x => str_in x base) overlay = true) by (apply forallb_forall; intros x Hx; apply str_in_In; now apply Hi). rewrite F. reflexivity.
Qed.
Lemma merge_loop_nil l : forall rest idx m, idx = length m -> merge_loop [] l rest idx m = Some (m ++ rest).
Proof.
  induction rest as [|x rest IH]; intros idx m E; cbn [merge_loop]; [now rewrite app_nil_r|]. change (str_in x []) with false. cbn iota. unfold insert_position.
  assert (N : nth_error (@nil pystr) idx = None) by (now destruct idx). rewrite N. rewrite IH.
  - unfold py_insert. rewrite E, firstn_all, skipn_all. now rewrite <- app_assoc.
  - unfold py_insert. rewrite E, firstn_all, skipn_all, app_length. cbn. lia.
Qed.
Lemma merged_nil l : merged [] l = l.
Proof.
  unfold merged, list_merger. destruct l as [|x l]; [reflexivity|]. change (list_eqb [] (x :: l)) with false. cbn iota zeta.
  assert (F : forallb (fun y => str_in y []) (x :: l) = false) by reflexivity. rewrite F. rewrite merge_loop_nil by reflexivity.
  destruct (existsb _ _); reflexivity.
Qed.

(** The orders of the layers, strong to weak, merged. *)
Fixpoint stacked (os : list (list pystr)) : list pystr :=
  match os with
  | [] => []
  | o :: rest => match rest with [] => o | _ => merged o (stacked rest) end
  end.
Lemma stacked_cons o rest : stacked (o :: rest) = merged o (stacked rest) \/ (rest = [] /\ stacked (o :: rest) = o).
Proof. destruct rest; [right; auto|now left]. Qed.
Lemma stacked_in os x : In x (stacked os) <-> exists o, In o os /\ In x o.
Proof.
  induction os as [|o rest IH]; [split; [intros []|intros (? & [] & _)]|]. destruct (stacked_cons o rest) as [->|(-> & ->)].
  - rewrite merged_in, IH. split; [intros [I|(o' & Ho & I)]; [exists o; split; [now left|exact I]|exists o'; split; [now right|exact I]]|].
    intros (o' & [<-|Ho] & I); [now left|right; eauto].
  - split; [intros I; exists o; split; [now left|exact I]|]. intros (o' & [<-|[]] & I). exact I.
Qed.
Lemma stacked_nodup os : (forall o, In o os -> NoDup o) -> NoDup (stacked os).
Proof.
  induction os as [|o rest IH]; intros N; [constructor|]. destruct (stacked_cons o rest) as [->|(-> & ->)]; [|apply N; now left].
  apply merged_nodup; [apply N; now left|apply IH; intros; apply N; now right].
Qed.
Lemma stacked_fold : forall (r : list node) w, fold_left (fun acc sp => merged (order_in sp) acc) (w :: r) (order_in w) = stacked (map order_in (rev (w :: r))).
Proof.
  assert (G : forall (r : list node) acc, fold_left (fun acc sp => merged (order_in sp) acc) r acc = fold_right (fun sp acc => merged (order_in sp) acc) acc (rev r)).
  { intros r acc. rewrite fold_left_rev_right. reflexivity. }
  intros r w. cbn [fold_left]. rewrite (merged_absorb (order_in w) (order_in w)) by apply incl_refl. rewrite G. cbn [rev]. generalize (rev r). clear r.
  induction l as [|x l IH]; [reflexivity|]. cbn [app fold_right map stacked]. rewrite IH. destruct (l ++ [w]) eqn:E; [destruct l; discriminate|]. reflexivity.
Qed.
(** A list that has every name below it, and nothing above it. *)
Lemma stacked_top X o Y : (forall x, In x X -> x = []) -> (forall y, In y Y -> incl y o) -> stacked (X ++ o :: Y) = o.
Proof.
  intros HX HY. induction X as [|x X IH].
  - cbn [app]. destruct (stacked_cons o Y) as [->|(_ & ->)]; [|reflexivity]. apply merged_absorb. intros y Hy. apply stacked_in in Hy as (l & Hl & I). exact (HY l Hl y I).
  - rewrite (HX x (or_introl eq_refl)). cbn [app]. destruct (stacked_cons [] (X ++ o :: Y)) as [->|(E & _)]; [|destruct X; discriminate]. rewrite merged_nil. apply IH. intros; apply HX; now right.
Qed.
Lemma fold_merged_in : forall lower o x, In x (fold_left merged lower o) <-> In x o \/ exists l, In l lower /\ In x l.
Proof.
  induction lower as [|l lower IH]; intros o x; cbn [fold_left]; [split; [now left|intros [I|(? & [] & _)]; exact I]|]. rewrite IH, merged_in. split.
  - intros [[I|I]|(l' & Hl & I)]; [now left|right; exists l; split; [now left|exact I]|right; exists l'; split; [now right|exact I]].
  - intros [I|(l' & [<-|Hl] & I)]; [auto|auto|right; eauto].
Qed.
Lemma fold_merged_absorb : forall lower o, (forall l, In l lower -> incl l o) -> fold_left merged lower o = o.
Proof. induction lower as [|l lower IH]; intros o Hl; cbn [fold_left]; [reflexivity|]. rewrite merged_absorb by (apply Hl; now left). apply IH. intros; apply Hl; now right. Qed.
Lemma filter_weaken (P Q : pystr -> bool) l : (forall x, P x = true -> Q x = true) -> filter P (filter Q l) = filter P l.
Proof. intros Hpq. induction l as [|x l IH]; [reflexivity|]. cbn [filter]. destruct (Q x) eqn:Eq; cbn [filter]; [now rewrite IH|]. destruct (P x) eqn:Ep; [rewrite (Hpq x Ep) in Eq; discriminate|exact IH]. Qed.
Lemma merged_keeps a base overlay : NoDup base -> NoDup overlay -> in_the_order_of a base -> in_the_order_of a (merged base overlay).
Proof.
  intros N1 N2 Ha. unfold in_the_order_of in *. assert (I : incl a base) by (intros x Hx; rewrite <- Ha in Hx; now apply filter_In in Hx).
  rewrite <- (filter_weaken _ (fun x => str_in x base)) by (intros x Hx; apply str_in_In; apply I; now apply str_in_In). rewrite merged_base by assumption. exact Ha.
Qed.
Lemma order_self l : in_the_order_of l l.
Proof. unfold in_the_order_of. assert (G : forall m, incl m l -> filter (fun x => str_in x l) m = m). { induction m as [|x m IH]; intros Hm; [reflexivity|]. cbn [filter]. assert (E : str_in x l = true) by (apply str_in_In, Hm; now left). rewrite E, IH; [reflexivity|]. intros y Hy. apply Hm. now right. } apply G, incl_refl. Qed.
Lemma fold_merged_keeps a : forall lower o, NoDup o -> (forall l, In l lower -> NoDup l) -> in_the_order_of a o -> NoDup (fold_left merged lower o) /\ in_the_order_of a (fold_left merged lower o).
Proof.
  induction lower as [|l lower IH]; intros o No Nl Ha; cbn [fold_left]; [auto|]. apply IH; [apply merged_nodup; [exact No|apply Nl; now left]|intros; apply Nl; now right|].
  apply merged_keeps; [exact No|apply Nl; now left|exact Ha].
Qed.

(** *** The order a composition gives *)

Lemma plain_order layers fuel top one H cs c : well_formed layers -> no_instances layers -> build_stage fuel top one layers = Built H -> names cs -> cs <> [] ->
  dget (abs_path cs) (comps H) = Some c -> dget CHILD_ORDER (own c) = Some (VStrs (stacked (map order_in (opinions cs layers)))).
Proof.
  intros wf Ni Bu Hc Hne. destruct (plain_comps layers fuel top one H wf Ni Bu) as (_ & _ & _ & D2). rewrite D2. rewrite pre_get.
  pose proof (stack_opinions layers wf cs Hc) as So. destruct (stack (abs_path cs) _) as [|sp l] eqn:Est; [discriminate|]. cbn [option_map]. intros [= <-]. cbn [own].
  assert (Eo : opinions cs layers = sp :: l) by exact (eq_sym So). rewrite Eo.
  assert (Hw : abs_path cs <> WORLD). { intros Q. apply (abs_path_inj cs []) in Q; [contradiction|now apply names_comp|constructor]. }
  destruct (rev (sp :: l)) as [|w r] eqn:Er. { cbn in Er. destruct (rev l); discriminate. }
  pose proof (overloads_order_first (abs_path cs) w r [(NAME, attr_or_none sp NAME)] Hw) as O. rewrite stacked_fold in O.
  assert (Er' : rev (w :: r) = sp :: l) by (rewrite <- Er; apply rev_involutive). pose proof (eq_trans O (f_equal (fun z => stacked (map order_in z)) Er')) as O'.
  assert (M : exists o, dget CHILD_ORDER (overloads (abs_path cs) true (w :: r) [(NAME, attr_or_none sp NAME)]) = Some (VStrs o)).
  { cbn [overloads]. cbv zeta. apply str_eqb_neq in Hw. rewrite Hw.
    assert (G : forall sps b o v, dget CHILD_ORDER o = Some (VStrs v) -> exists v', dget CHILD_ORDER (overloads (abs_path cs) b sps o) = Some (VStrs v')).
    { induction sps as [|x sps IH]; intros b o v Ev; cbn [overloads]; [eauto|]. cbv zeta. rewrite Hw. eapply IH. apply dget_dset_same. }
    eapply G. apply dget_dset_same. }
  destruct M as (o & M). refine (eq_trans (f_equal (fun z => dget CHILD_ORDER (overloads (abs_path cs) true z [(NAME, attr_or_none sp NAME)])) Er) _). rewrite M. f_equal. f_equal. refine (eq_trans _ O'). 
  assert (Q : attr_or_none (overloads (abs_path cs) true (w :: r) [(NAME, attr_or_none sp NAME)]) CHILD_ORDER = VStrs o) by (unfold attr_or_none at 1; now rewrite M). symmetry. exact (eq_trans (f_equal as_strs Q) (as_strs_VStrs o)).
Qed.

(** *** Setting the order *)

Definition ordered (n : node) (o : list pystr) : node := dset CHILD_ORDER (VStrs o) n.
Lemma ordered_near n o : near [CHILD_ORDER] n (ordered n o).
Proof. apply near_sym. apply dset_near_l; [now left|apply near_refl]. Qed.
Lemma order_ordered n o : order_in (ordered n o) = o.
Proof. unfold order_in, ordered, attr_or_none. now rewrite dget_dset_same, as_strs_VStrs. Qed.

Section Order.
Variables (layers layers' : list (list layer_row)) (fuel : nat) (top : pyval) (one : bool) (H : heap).
Variables (cs : list pystr) (A B : list layer_row) (n : node) (o : list pystr) (lower : list (list pystr)).
Hypothesis wf : well_formed layers.
Hypothesis Ni : no_instances layers.
Hypothesis Bu : build_stage fuel top one layers = Built H.
Hypothesis Hc : names cs.
Hypothesis Hne : cs <> [].
Hypothesis E : numbered layers = A ++ (ns_of cs, n) :: B.
Hypothesis E' : numbered layers' = A ++ (ns_of cs, ordered n o) :: B.
Hypothesis World : forall m, In ([[]], m) (numbered layers) -> value m NAME = VStr (lit "/").

Lemma order_keys a : In a internal_keys -> In a [CHILD_ORDER] -> dget a (ordered n o) <> None.
Proof. intros _ [<-|[]]. unfold ordered. rewrite dget_dset_same. discriminate. Qed.
Lemma order_in_keys a : In a [CHILD_ORDER] -> In a internal_keys.
Proof. intros [<-|[]]. apply str_in_In. reflexivity. Qed.
Theorem order_builds : exists H', build_stage fuel top one layers' = Built H' /\ edited layers layers' H H' [CHILD_ORDER] cs A n (ordered n o).
Proof.
  destruct (edited_builds layers layers' fuel top one H _ _ order_spreads cs A B n (ordered n o) wf Ni Bu E E' (ordered_near n o) order_keys) as (H' & B'). exists H'. split; [exact B'|].
  exact (edited_facts layers layers' fuel top one H _ _ order_spreads cs A B n (ordered n o) wf Ni Bu Hc Hne E E' (ordered_near n o) order_keys order_in_keys H' B').
Qed.

Variable H' : heap.
Hypothesis Bu' : build_stage fuel top one layers' = Built H'.
Hypothesis Ed : edited layers layers' H H' [CHILD_ORDER] cs A n (ordered n o).
Let Hw := with_spec H (length A) (ordered n o).
Let co := composed_order Hw (abs_path cs) (order_in n) o lower.

Lemma order_specs : nth_error (specs H) (length A) = Some n.
Proof.
  destruct (plain_comps layers fuel top one H wf Ni Bu) as (S1 & _). rewrite S1. change (nth_error (map snd (numbered layers)) (length A) = Some n). rewrite E, map_app.
  rewrite nth_error_app2 by (rewrite map_length; lia). rewrite map_length, Nat.sub_diag. reflexivity.
Qed.
Lemma order_before : order_of Hw (abs_path cs) = stacked (map order_in (opinions cs layers)).
Proof.
  unfold order_of, attr. change (comps Hw) with (comps H). pose proof (e_there _ _ _ _ _ _ _ _ _ Ed) as Th. unfold here, dmem in Th. destruct (dget (abs_path cs) (comps H)) as [c|] eqn:Ec; [|discriminate].
  unfold node_attr. rewrite (plain_order layers fuel top one H cs c wf Ni Bu Hc Hne Ec). now rewrite as_strs_VStrs.
Qed.
Theorem set_order_live : set_node_child_order H (length A) o lower = Some (set_order Hw (abs_path cs) co, Ok []).
Proof.
  unfold set_node_child_order. rewrite order_specs. cbv zeta.
  assert (Ep : path_of H (Sp (length A)) = abs_path cs).
  { assert (W : forall m, In ([[]], m) (numbered layers) -> value m NAME = VStr (lit "/")) by exact World.
    apply (spec_path layers fuel top one H wf Ni Bu W cs _ Hc). apply (number_here layers cs A B n E). }
  rewrite Ep. fold (ordered n o). fold Hw. change (here Hw (abs_path cs)) with (here H (abs_path cs)). rewrite (e_there _ _ _ _ _ _ _ _ _ Ed). cbn [negb].
  change (as_strs (attr_or_none n CHILD_ORDER)) with (order_in n). fold co.
  assert (Edd : dirties Hw (abs_path cs) = []).
  { unfold dirties. change (dirty Hw) with (dirty H). destruct (plain_comps layers fuel top one H wf Ni Bu) as (_ & -> & _). reflexivity. }
  rewrite Edd. cbn [propagate]. reflexivity.
Qed.
Lemma order_after c' : dget (abs_path cs) (comps H') = Some c' -> dget CHILD_ORDER (own c') = Some (VStrs (stacked (map order_in (opinions cs layers')))).
Proof. apply (plain_order layers' fuel top one H' cs c' (e_fits _ _ _ _ _ _ _ _ _ Ed) (e_plain _ _ _ _ _ _ _ _ _ Ed) Bu' Hc Hne). Qed.
Theorem order_reads : co = stacked (map order_in (opinions cs layers')) -> forall es a, names es -> reads (set_order Hw (abs_path cs) co) es a = reads H' es a.
Proof.
  intros Q es a He. refine (proj2 (e_reads _ _ _ _ _ _ _ _ _ Ed CHILD_ORDER (VStrs co) _) es a He _).
  - intros c' Ec. rewrite Q. now apply order_after.
  - intros (_ & [<-|[]] & Hx). now apply Hx.
Qed.
Theorem order_others : reads (set_order Hw (abs_path cs) co) cs CHILD_ORDER = Some (VStrs co) /\
  (forall es a, names es -> (es, a) <> (cs, CHILD_ORDER) -> reads (set_order Hw (abs_path cs) co) es a = reads H' es a).
Proof.
  destruct (e_others _ _ _ _ _ _ _ _ _ Ed CHILD_ORDER (VStrs co) (or_introl eq_refl)) as (R & O). split; [exact R|]. intros es a He Hx. apply O; [exact He|].
  intros (-> & [<-|[]]). now apply Hx.
Qed.
Lemma rebuilt_order : reads H' cs CHILD_ORDER = Some (VStrs (stacked (map order_in (opinions cs layers')))).
Proof.
  set (s := stacked _). pose proof (fun c' Hc' => order_after c' Hc') as OA. fold s in OA.
  destruct (e_reads _ _ _ _ _ _ _ _ _ Ed CHILD_ORDER (VStrs s) OA) as (R & O). refine (eq_trans (eq_sym (O cs CHILD_ORDER Hc _)) R). intros (_ & [Q|[]] & Hx). now apply Hx.
Qed.
End Order.

(** *** Whom the update reaches, in any stage *)

Lemma attr_set_other H p a v q b : q <> p \/ a <> b -> attr (set_attr H p a v) q b = attr H q b.
Proof.
  intros Hx. unfold attr. unfold set_attr. cbn [comps specs with_comps]. rewrite dget_change. destruct (str_eqb q p) eqn:Eq; [|reflexivity]. apply str_eqb_eq in Eq as ->. destruct Hx as [Hx|Hx]; [congruence|].
  destruct (dget p (comps H)) as [c|]; [|reflexivity]. cbn [option_map]. unfold node_attr. cbn [own cbases]. rewrite dget_dset. apply str_eqb_neq in Hx. now rewrite Hx.
Qed.
Lemma propagate_spec old new : forall ds H H', propagate H old new ds = (H', Ok tt) ->
  (forall r, mro_of H' r = mro_of H r) /\ (forall q, here H' q = here H q) /\ (forall p, In p ds -> here H p = true) /\
  (forall a r, (a <> CHILD_ORDER \/ forall p, In p ds -> r <> Co p) -> own_attr H' a r = own_attr H a r).
Proof.
  induction ds as [|p ds IH]; intros H H' E; cbn [propagate] in E.
  - injection E as <-. repeat split; auto; intros p [].
  - destruct (here H p) eqn:Hp; [|discriminate E]. destruct (names_below H p) as [l|]; [|discriminate E]. destruct (IH _ _ E) as (M & K & I & O). unfold set_order in *.
    split; [intros r; now rewrite M, mro_set_attr|]. split; [intros q; now rewrite K, here_set_attr|].
    split; [intros q [<-|Hq]; [exact Hp|]; rewrite <- (here_set_attr H p CHILD_ORDER (VStrs (updated_order old new l))); auto|].
    intros a r Hx. rewrite O, own_set_attr.
    + rewrite Hp, andb_true_r. destruct (ref_eqb r (Co p) && str_eqb CHILD_ORDER a) eqn:Ex; [|reflexivity]. apply andb_true_iff in Ex as (E1 & E2). apply ref_eqb_eq in E1. apply str_eqb_eq in E2. destruct Hx as [Hx|Hx]; [congruence|]. destruct (Hx p (or_introl eq_refl) E1).
    + destruct Hx as [Hx|Hx]; [now left|right]. intros q Hq. apply Hx. now right.
Qed.

(** The names a node's children are found under. *)
Lemma kids_view H p : scan_real same_string (nodes (view H)) p = filter (fun k => str_eqb (parent_of H k) p) (dkeys (comps H)).
Proof.
  unfold scan_real, view, dkeys. cbn [nodes]. induction (comps H) as [|(k & c) d IH]; [reflexivity|]. cbn [map filter fst snd]. unfold is_child at 1. cbn [n_parent fst snd]. unfold same_string at 1. rewrite orb_true_r, andb_true_r.
  destruct (str_eqb (parent_of H k) p); cbn [map fst]; now rewrite IH.
Qed.
Lemma names_below_eq H p : p <> [] -> here H p = true ->
  names_below H p = Some (map node_name_from_node_path (match order_of H p with [] => filter (fun k => str_eqb (parent_of H k) p) (dkeys (comps H)) | o => order_paths o (filter (fun k => str_eqb (parent_of H k) p) (dkeys (comps H))) end)).
Proof.
  intros Hp Hh. unfold names_below, children. cbn [andb]. destruct p as [|x p]; [congruence|]. cbn [is_empty]. set (q := x :: p) in *. rewrite kids_view.
  assert (G : dget q (nodes (view H)) = Some {| n_name := name_of H q; n_parent := parent_of H q; n_order := order_of H q; n_enabled := None; n_exec_in := None |}).
  { unfold here, dmem in Hh. unfold view. cbn [nodes]. clear - Hh. generalize (name_of H) (parent_of H) (order_of H). intros f g h. induction (comps H) as [|(k & c) d IH]; [discriminate|]. cbn [map dget fst] in Hh |- *. destruct (str_eqb k q) eqn:E; [apply str_eqb_eq in E as ->; reflexivity|now apply IH]. }
  rewrite G. destruct (str_eqb q WORLD); cbn [fst snd cc_paths entry_of kids view dget rtype_eqb add_missing fold_left n_order]; (destruct (order_of H q); reflexivity).
Qed.
Lemma names_below_set H p o q : q <> p -> q <> [] -> here H q = true -> names_below (set_order H p o) q = names_below H q.
Proof.
  intros Hq Hn Hh. rewrite !names_below_eq by (auto; unfold set_order; now rewrite ?here_set_attr). unfold set_order.
  assert (O : order_of (set_attr H p CHILD_ORDER (VStrs o)) q = order_of H q) by (unfold order_of; rewrite attr_set_other; auto). rewrite O.
  assert (K : dkeys (comps (set_attr H p CHILD_ORDER (VStrs o))) = dkeys (comps H)). { unfold set_attr, change, dkeys. cbn [comps with_comps]. rewrite map_map. apply map_ext. intros (k & c). cbn [fst]. now destruct (str_eqb k p). }
  rewrite K. assert (P : forall k, parent_of (set_attr H p CHILD_ORDER (VStrs o)) k = parent_of H k) by (intros k; unfold parent_of; rewrite attr_set_other; [reflexivity|right; discriminate]).
  assert (F : forall l, filter (fun k => str_eqb (parent_of (set_attr H p CHILD_ORDER (VStrs o)) k) q) l = filter (fun k => str_eqb (parent_of H k) q) l) by (intros l; apply filter_ext; intros k; now rewrite P).
  rewrite F. reflexivity.
Qed.
Lemma propagate_orders old new : forall ds, NoDup ds -> forall H H', propagate H old new ds = (H', Ok tt) -> forall d, In d ds -> d <> [] ->
  exists l, names_below H d = Some l /\ own_attr H' CHILD_ORDER (Co d) = Some (VStrs (updated_order old new l)).
Proof.
  induction ds as [|p ds IH]; intros N H H' E d Hd Hne; [destruct Hd|]. inversion N as [|? ? Np N']; subst. cbn [propagate] in E. destruct (here H p) eqn:Hp; [|discriminate E]. destruct (names_below H p) as [l|] eqn:El; [|discriminate E].
  destruct (list_eq_dec N.eq_dec d p) as [->|Hdp].
  - exists l. split; [exact El|]. destruct (propagate_spec _ _ _ _ _ E) as (_ & _ & _ & O). rewrite O; [|right; intros q Hq [= ->]; contradiction]. unfold set_order. rewrite own_set_attr, Hp. cbn [ref_eqb]. rewrite str_eqb_refl. reflexivity.
  - destruct Hd as [Hd|Hd]; [congruence|]. destruct (IH N' _ _ E d Hd Hne) as (l' & E1 & E2). exists l'. split; [|exact E2]. rewrite <- E1. symmetry. apply names_below_set; auto.
    destruct (propagate_spec _ _ _ _ _ E) as (_ & _ & I & _). specialize (I d Hd). unfold set_order in I. now rewrite here_set_attr in I.
Qed.

(** What an instance's order becomes. *)
Lemma firstn_app_exact {X} (a b : list X) : firstn (length a) (a ++ b) = a.
Proof. rewrite firstn_app, firstn_all, Nat.sub_diag. cbn [firstn]. apply app_nil_r. Qed.
Lemma skipn_app_exact {X} (a b : list X) : skipn (length a) (a ++ b) = b.
Proof. rewrite skipn_app, skipn_all, Nat.sub_diag. reflexivity. Qed.
Lemma list_eqb_eq : forall a b, list_eqb a b = true <-> a = b.
Proof.
  induction a as [|x a IH]; intros [|y b]; cbn [list_eqb]; try (split; [discriminate|discriminate]); [tauto|]. rewrite andb_true_iff, str_eqb_eq, IH. split; [intros (-> & ->); reflexivity|intros [= -> ->]; auto].
Qed.
Lemma splice_block old new a : old <> [] -> forall b before, NoDup (b ++ old ++ a) -> splice old new before (b ++ old ++ a) = Some (before ++ b ++ new ++ a).
Proof.
  intros Ho. induction b as [|x b IH]; intros before N.
  - cbn [app]. destruct old as [|y old]; [congruence|]. cbn [app splice]. change (y :: old ++ a) with ((y :: old) ++ a). rewrite firstn_app_exact, skipn_app_exact. assert (E : list_eqb (y :: old) (y :: old) = true) by now apply list_eqb_eq. rewrite E. reflexivity.
  - cbn [app splice]. change (x :: b ++ old ++ a) with ((x :: b) ++ old ++ a) at 1. cbn [app] in N. inversion N as [|? ? Nx N']; subst.
    destruct (list_eqb (firstn (length old) ((x :: b) ++ old ++ a)) old) eqn:E.
    + apply list_eqb_eq in E. destruct old as [|y old]; [congruence|]. cbn [length firstn app] in E. injection E as <- _. destruct Nx. apply in_or_app. right. now left.
    + rewrite IH by exact N'. now rewrite <- !app_assoc.
Qed.
Lemma updated_block old new b a : old <> [] -> NoDup (b ++ old ++ a) -> updated_order old new (b ++ old ++ a) = b ++ new ++ a.
Proof.
  intros Ho N. unfold updated_order. assert (S1 : forallb (fun x => str_in x (b ++ old ++ a)) old = true) by (apply forallb_forall; intros x Hx; apply str_in_In; apply in_or_app; right; apply in_or_app; now left). rewrite S1.
  assert (V : match b ++ old ++ a with [] => true | _ => false end = false) by (destruct b; [destruct old; [congruence|reflexivity]|reflexivity]). rewrite V. rewrite (splice_block old new a Ho b [] N). destruct old; [congruence|reflexivity].
Qed.
Lemma updated_apart old new l : (forall x, In x old -> ~ In x l) -> updated_order old new l = l ++ new.
Proof.
  intros Hx. unfold updated_order. assert (E : existsb (fun x => str_in x l) old = false). { destruct (existsb _ old) eqn:Ex; [|reflexivity]. apply existsb_exists in Ex as (x & I & S). apply str_in_In in S. destruct (Hx x I S). }
  rewrite E. destruct old as [|x old]; [cbn [forallb andb]; reflexivity|]. cbn [forallb]. cbn [existsb] in E. apply orb_false_iff in E as (E & _). rewrite E. reflexivity.
Qed.
Lemma updated_part old new l x y : In x old -> In x l -> In y old -> ~ In y l -> updated_order old new l = l.
Proof.
  intros X1 X2 Y1 Y2. unfold updated_order. assert (F : forallb (fun x => str_in x l) old = false). { destruct (forallb _ old) eqn:E; [|reflexivity]. rewrite forallb_forall in E. specialize (E y Y1). apply str_in_In in E. contradiction. }
  rewrite F. cbn [andb]. assert (E : existsb (fun x => str_in x l) old = true) by (apply existsb_exists; exists x; split; [exact X1|now apply str_in_In]). now rewrite E.
Qed.

Section Reached.
Variables (layers : list (list layer_row)) (H : heap) (i : nat) (n : node) (new : list pystr) (lower : list (list pystr)).
Hypothesis wf : well_formed layers.
Hypothesis St : stage_of layers H.
Hypothesis Hn : nth_error (specs H) i = Some n.
Let Hw := with_spec H i (ordered n new).
Let path := path_of H (Sp i).

Theorem order_reach Hs ds : set_node_child_order H i new lower = Some (Hs, Ok ds) ->
  (forall p, In p (path :: ds) -> here H p = true) /\
  (forall es a, in_stage H es -> a <> CHILD_ORDER \/ ~ In (abs_path es) (path :: ds) -> reads Hs es a = reads Hw es a).
Proof.
  assert (Hk : In CHILD_ORDER internal_keys) by (apply str_in_In; reflexivity).
  assert (Hi : i < length (specs H)) by (apply nth_error_Some; rewrite Hn; discriminate).
  assert (Key : dget CHILD_ORDER (ordered n new) <> None) by (unfold ordered; rewrite dget_dset_same; discriminate).
  intros E. unfold set_node_child_order in E. rewrite Hn in E. cbv zeta in E. fold (ordered n new) in E. fold Hw in E. fold path in E. destruct (here Hw path) eqn:Hp; cbn [negb] in E; [|discriminate E].
  destruct (propagate _ _ _ _) as (H2 & r) eqn:Es. destruct r as [[]|]; cbn [bind] in E; [|discriminate E]. injection E as <- <-. destruct (propagate_spec _ _ _ _ _ Es) as (M & K & I & O). unfold set_order in *.
  assert (M' : forall r, mro_of H2 r = mro_of H r) by (intros r; now rewrite M, mro_set_attr, (with_spec_mro H i (ordered n new) Hi)).
  assert (Same : forall a r, a <> CHILD_ORDER \/ (forall p, In p (path :: dirties Hw path) -> r <> Co p) -> own_attr H2 a r = own_attr Hw a r).
  { intros a r Hr. rewrite O, own_set_attr.
    - destruct (ref_eqb r (Co path) && here Hw path && str_eqb CHILD_ORDER a) eqn:Ex; [|reflexivity]. apply andb_true_iff in Ex as (Ex & E2). apply andb_true_iff in Ex as (E1 & _). apply ref_eqb_eq in E1. apply str_eqb_eq in E2.
      destruct Hr as [Hr|Hr]; [congruence|]. destruct (Hr path (or_introl eq_refl) E1).
    - destruct Hr as [Hr|Hr]; [now left|right]. intros p Hq. apply Hr. now right. }
  assert (Other : forall es a, a <> CHILD_ORDER -> reads H2 es a = reads Hw es a).
  { intros es a Ha. unfold reads, getattr. rewrite M', (with_spec_mro H i (ordered n new) Hi). destruct (mro_of H (Co (abs_path es))); [|reflexivity]. f_equal. apply lookup_ext. intros r _. apply Same. now left. }
  split.
  - intros p [<-|Hq]; [exact Hp|]. specialize (I p Hq). rewrite here_set_attr in I. exact I.
  - intros es a Hh Hx. destruct (list_eq_dec N.eq_dec a CHILD_ORDER) as [->|Ha]; [|now apply Other]. destruct Hx as [Hx|Hx]; [congruence|].
    unfold reads, getattr. rewrite M', (with_spec_mro H i (ordered n new) Hi). destruct (reach_begin CHILD_ORDER Hk layers H i (ordered n new) wf St Key Hi (abs_path es) Hh) as (is & m & Em & Hit). fold Hw in Hit. rewrite Em.
    change (Co (abs_path es) :: map Sp is ++ m) with ((Co (abs_path es) :: map Sp is) ++ m).
    assert (Eq : lookup_in (own_attr H2 CHILD_ORDER) (Co (abs_path es) :: map Sp is) = lookup_in (own_attr Hw CHILD_ORDER) (Co (abs_path es) :: map Sp is)).
    { apply lookup_ext. intros r Hr. apply Same. right. intros p Hq ->. destruct Hr as [Hr|Hr]; [injection Hr as <-; contradiction|]. apply in_map_iff in Hr as (j & [=] & _). }
    rewrite (lookup_first _ _ m Hit). rewrite lookup_first by (rewrite Eq; exact Hit). now rewrite Eq.
Qed.

Theorem order_instances Hs ds : set_node_child_order H i new lower = Some (Hs, Ok ds) -> NoDup ds ->
  exists co, (~ In path ds -> forall es, abs_path es = path -> reads Hs es CHILD_ORDER = Some (VStrs co)) /\
  forall es, In (abs_path es) ds -> abs_path es <> path -> exists l, names_below Hw (abs_path es) = Some l /\
    reads Hs es CHILD_ORDER = Some (VStrs (updated_order (order_in n) co l)).
Proof.
  assert (Hk : In CHILD_ORDER internal_keys) by (apply str_in_In; reflexivity).
  assert (Hi : i < length (specs H)) by (apply nth_error_Some; rewrite Hn; discriminate).
  assert (Key : dget CHILD_ORDER (ordered n new) <> None) by (unfold ordered; rewrite dget_dset_same; discriminate).
  intros E N. unfold set_node_child_order in E. rewrite Hn in E. cbv zeta in E. fold (ordered n new) in E. fold Hw in E. fold path in E. destruct (here Hw path) eqn:Hp; cbn [negb] in E; [|discriminate E].
  change (as_strs (attr_or_none n CHILD_ORDER)) with (order_in n) in E. set (co := composed_order Hw path (order_in n) new lower) in *.
  destruct (propagate _ _ _ _) as (H2 & r) eqn:Es. destruct r as [[]|]; cbn [bind] in E; [|discriminate E]. injection E as <- <-. destruct (propagate_spec _ _ _ _ _ Es) as (M & K & I & O).
  assert (M' : forall r, mro_of H2 r = mro_of H r) by (intros r; unfold set_order in M; now rewrite M, mro_set_attr, (with_spec_mro H i (ordered n new) Hi)).
  exists co. split.
  - intros Hx es Ep. destruct (reach_begin CHILD_ORDER Hk layers H i (ordered n new) wf St Key Hi path Hp) as (is & m & Em & _). unfold reads, getattr. rewrite M', Ep, Em. cbn [lookup_in].
    rewrite O by (right; intros q Hq [= <-]; contradiction). unfold set_order. rewrite own_set_attr, Hp. cbn [ref_eqb]. rewrite str_eqb_refl. reflexivity.
  - intros es Hd Hx. assert (Hne : abs_path es <> []) by (destruct es; discriminate). destruct (propagate_orders _ _ _ N _ _ Es _ Hd Hne) as (l & E1 & E2). exists l.
    specialize (I _ Hd). unfold set_order in I. rewrite here_set_attr in I. split; [rewrite <- E1; symmetry; now apply names_below_set|].
    destruct (reach_begin CHILD_ORDER Hk layers H i (ordered n new) wf St Key Hi (abs_path es) I) as (is & m & Em & _). unfold reads, getattr. rewrite M', Em. cbn [lookup_in]. rewrite E2. reflexivity.
Qed.
End Reached.

(** *** Taking an order away *)

Lemma fold_ext_in {X Y} (f g : Y -> X -> Y) l : forall acc, (forall y x, In x l -> f y x = g y x) -> fold_left f l acc = fold_left g l acc.
Proof. induction l as [|x l IH]; intros acc Hf; [reflexivity|]. cbn [fold_left]. rewrite (Hf acc x) by now left. apply IH. intros; apply Hf; now right. Qed.
Lemma trace_from_ext H H' : (forall p, inst_of H p = inst_of H' p) -> (forall p, here H p = here H' p) -> forall f p acc, trace_from f H p acc = trace_from f H' p acc.
Proof. intros I Hh. induction f as [|f IH]; intros p acc; cbn [trace_from]; [reflexivity|]. rewrite I. destruct (inst_of H' p); [|reflexivity]. rewrite Hh. destruct (_ && _); [apply IH|reflexivity]. Qed.
Lemma bases_arcs_ext H H' p : (forall r a, In a [NAME; PARENT_PATH; INSTANCE_PATH] -> ref_attr H r a = ref_attr H' r a) ->
  (forall r, bases_in (comps H) r = bases_in (comps H') r) -> (forall q, here H q = here H' q) -> length (comps H) = length (comps H') -> bases_arcs H p = bases_arcs H' p.
Proof.
  intros Ra B Hh L. unfold bases_arcs. rewrite B. apply fold_ext_in. intros d r _.
  assert (G : get_arc H p r = get_arc H' p r).
  { unfold get_arc, check_path, path_of. change (attr H p PARENT_PATH) with (ref_attr H (Co p) PARENT_PATH). change (attr H p INSTANCE_PATH) with (ref_attr H (Co p) INSTANCE_PATH). rewrite !Ra by (cbn; tauto).
    change (ref_attr H' (Co p) PARENT_PATH) with (attr H' p PARENT_PATH). change (ref_attr H' (Co p) INSTANCE_PATH) with (attr H' p INSTANCE_PATH).
    assert (T : trace H p = trace H' p). { unfold trace. rewrite L. apply trace_from_ext; [|exact Hh]. intros q. unfold inst_of. change (attr H q INSTANCE_PATH) with (ref_attr H (Co q) INSTANCE_PATH). now rewrite Ra by (cbn; tauto). }
    now rewrite T. }
  now rewrite G.
Qed.
Lemma fold_orders Hs : forall is acc l, spec_nodes (specs Hs) (map Sp is) = l->
  fold_left (fun co r => merged co (order_at Hs r)) (map Sp is) acc = fold_left merged (map order_in l) acc.
Proof.
  induction is as [|i is IH]; intros acc l <-; [reflexivity|]. cbn [map fold_left]. unfold spec_nodes. cbn [flat_map].
  unfold order_at at 2, ref_attr. destruct (nth_error (specs Hs) i) as [d|] eqn:E; [cbn [app map fold_left]; now apply IH|]. cbn [as_strs app]. rewrite (merged_absorb acc []) by (intros x []). now apply IH.
Qed.

Section Taken.
Variables (layers layers' : list (list layer_row)) (fuel : nat) (top : pyval) (one : bool) (H : heap).
Variables (ps : list pystr) (nm : pystr) (A B : list layer_row) (n : node) (lower : list (list pystr)).
Let cs := ps ++ [nm].
Hypothesis wf : well_formed layers.
Hypothesis Ni : no_instances layers.
Hypothesis Bu : build_stage fuel top one layers = Built H.
Hypothesis Hc : names cs.
Hypothesis E : numbered layers = A ++ (ns_of cs, n) :: B.
Hypothesis E' : numbered layers' = A ++ (ns_of cs, ordered n []) :: B.
Hypothesis World : forall m, In ([[]], m) (numbered layers) -> value m NAME = VStr (lit "/").
Variable H' : heap.
Hypothesis Bu' : build_stage fuel top one layers' = Built H'.
Hypothesis Ed : edited layers layers' H H' [CHILD_ORDER] cs A n (ordered n []).
Hypothesis Hp : in_stage H ps \/ ps = [].
Let Hw := with_spec H (length A) (ordered n []).

Lemma world_opinions L : (forall m, In ([[]], m) (numbered L) -> value m NAME = VStr (lit "/")) -> forall m, In m (opinions [] L) -> value m NAME = VStr (lit "/").
Proof.
  intros W m Hm. apply W. unfold opinions in Hm. apply in_map_iff in Hm as (r & <- & Hr). apply filter_In in Hr as (Hr & Er). destruct (list_eq_dec _ (fst r) (ns_of [])) as [Q|]; [|discriminate].
  apply numbered_in. apply in_concat in Hr as (l & Hl & Hr). exists l. split; [exact Hl|]. destruct r as [k m]. cbn [fst snd] in *. rewrite Q in Hr. exact Hr.
Qed.
Lemma no_sources rs : ~ instances H' cs rs.
Proof.
  intros I. pose proof (e_there _ _ _ _ _ _ _ _ _ Ed) as Th. rewrite <- (e_here _ _ _ _ _ _ _ _ _ Ed) in Th.
  destruct (plain_comps layers' fuel top one H' (e_fits _ _ _ _ _ _ _ _ _ Ed) (e_plain _ _ _ _ _ _ _ _ _ Ed) Bu') as (_ & _ & _ & D2).
  destruct (built_parts layers' fuel top one H' (e_fits _ _ _ _ _ _ _ _ _ Ed) Bu') as (H1 & F & P).
  destruct I as (Hr & Hn & Hrh & Rd). rewrite (view_internal layers' H1 F H' (e_fits _ _ _ _ _ _ _ _ _ Ed) P cs _ Th inst_key) in Rd. injection Rd as Rd.
  apply (e_plain _ _ _ _ _ _ _ _ _ Ed cs rs Hc Hr Hn).
  assert (Cl : clear (comp_pre_proxies (sorted_layers layers')) cs).
  { apply (pure_clear layers' (e_fits _ _ _ _ _ _ _ _ _ Ed) cs Hc). intros a b c Eabc _ _ rs0 Hr0 Hn0. apply (e_plain _ _ _ _ _ _ _ _ _ Ed); auto. unfold names in *. rewrite Eabc in Hc. now apply Forall_app in Hc. }
  apply (fin_clear_source layers' H1 F H' (e_fits _ _ _ _ _ _ _ _ _ Ed) P cs rs Hc Cl); auto.
  destruct (e_opinions _ _ _ _ _ _ _ _ _ Ed) as (X & Y & _ & Eo & _). rewrite Eo. destruct X; discriminate.
Qed.

Lemma taken_order : order_in n <> [] -> composed_order Hw (abs_path cs) (order_in n) [] lower = fold_left merged (map order_in (opinions cs layers')) [].
Proof.
  intros Ho. unfold composed_order. destruct (order_in n) eqn:Eo; [congruence|]. unfold remerge.
  assert (Ea : bases_arcs Hw (abs_path cs) = bases_arcs H' (abs_path cs)).
  { apply bases_arcs_ext.
    - intros r a Ha. apply (e_ref _ _ _ _ _ _ _ _ _ Ed). intros [<-|[]]. repeat destruct Ha as [Ha|Ha]; try discriminate Ha. destruct Ha.
    - intros r. symmetry. apply (e_bases _ _ _ _ _ _ _ _ _ Ed).
    - intros q. symmetry. apply (e_here _ _ _ _ _ _ _ _ _ Ed).
    - pose proof (f_equal (@length _) (e_keys _ _ _ _ _ _ _ _ _ Ed)) as L. unfold dkeys in L. rewrite !map_length in L. symmetry. exact L. }
  rewrite Ea. assert (Th : in_stage H' cs) by (unfold in_stage; rewrite (e_here _ _ _ _ _ _ _ _ _ Ed); apply (e_there _ _ _ _ _ _ _ _ _ Ed)).
  assert (Hp' : in_stage H' ps \/ ps = []) by (unfold in_stage; rewrite (e_here _ _ _ _ _ _ _ _ _ Ed); exact Hp).
  destruct (arcs_are layers' H' (e_fits _ _ _ _ _ _ _ _ _ Ed) (ex_intro _ fuel (ex_intro _ top (ex_intro _ one Bu'))) (world_opinions layers' (e_world _ _ _ _ _ _ _ _ _ Ed World)) ps nm Hc Th Hp') as (is & _ & S1 & _ & par & source & Eba & M). fold cs in Eba. rewrite Eba.
  cbn [references instance_base].
  assert (source = None) as -> by (destruct M as [(_ & _ & Q)|(rs & I & _)]; [exact Q|now destruct (no_sources rs)]).
  destruct (e_opinions _ _ _ _ _ _ _ _ _ Ed) as (X & Y & _ & Eq & _). assert (Ne : opinions cs layers' <> []) by (rewrite Eq; destruct X; discriminate).
  specialize (S1 Ne). transitivity (fold_left (fun co r => merged co (order_at Hw r)) (map Sp is) []); [reflexivity|].
  apply fold_orders. unfold Hw. rewrite (e_specs _ _ _ _ _ _ _ _ _ Ed). exact S1.
Qed.
End Taken.
