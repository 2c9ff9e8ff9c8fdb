(** Composition reads nothing of a layer's nodes but the internal attributes:
    layers that differ in user attributes only give the same composed nodes. *)

From Coq Require Import String List NArith ZArith Bool Arith Lia.
From Verif Require Import PyStr PyStrFacts NxtPath PathSpec Dict DictFacts ListMerger SortRows Layer PyVal NodeIO PyClass
  Comp CompSpec StageView LiveSpec.
From Verif Require DirtyMap.
Import ListNotations.

Definition agree (n m : data) : Prop := forall a, In a internal_keys -> dget a n = dget a m.

Lemma F2_length {A B} (R : A -> B -> Prop) l l' : Forall2 R l l' -> length l = length l'.
Proof. induction 1; cbn; congruence. Qed.

Lemma F2_nth {A B} (R : A -> B -> Prop) l l' : Forall2 R l l' -> forall i a, nth_error l i = Some a ->
  exists b, nth_error l' i = Some b /\ R a b.
Proof.
  induction 1 as [|x y l l' Hxy _ IH]; intros [|i] a E; try discriminate E.
  - injection E as <-. exists y. auto.
  - exact (IH i a E).
Qed.

(** Sorting related rows with the same keys gives related rows. *)
Section Sorting.
Context {A B : Type} (f : A -> nat) (g : B -> nat) (R : A -> B -> Prop).
Hypothesis key : forall a b, R a b -> f a = g b.
Lemma pass_rel n : forall l l', Forall2 R l l' -> Forall2 R (sort_pass f n l) (sort_pass g n l').
Proof.
  induction n as [|n IH]; intros l l' Hl; [exact Hl|]. cbn [sort_pass].
  destruct Hl as [|a b l l' Hab Hl]; [constructor|]. destruct Hl as [|a2 b2 l l' Hab2 Hl]; [repeat constructor; exact Hab|].
  rewrite <- (key a b Hab), <- (key a2 b2 Hab2). destruct (Nat.ltb (f a2) (f a)); constructor; auto.
Qed.
Lemma passes_rel fuel : forall i len l l', Forall2 R l l' -> Forall2 R (sort_passes f fuel i len l) (sort_passes g fuel i len l').
Proof. induction fuel as [|fuel IH]; intros i len l l' Hl; [exact Hl|]. cbn [sort_passes]. apply IH, pass_rel, Hl. Qed.
Lemma sort_rel l l' : Forall2 R l l' -> Forall2 R (sort_multidimensional_list f l) (sort_multidimensional_list g l').
Proof.
  intros Hl. unfold sort_multidimensional_list. pose proof (F2_length R l l' Hl) as E. destruct Hl as [|a b l l' Hab Hl]; [constructor|].
  rewrite E. apply passes_rel. now constructor.
Qed.
End Sorting.
Lemma F2_eq {A} (l l' : list A) : Forall2 eq l l' -> l = l'.
Proof. induction 1; congruence. Qed.
Lemma F2_refl {A} (l : list A) : Forall2 eq l l.
Proof. induction l; auto. Qed.
Lemma sort_ext {A} (f g : A -> nat) (l : list A) : (forall x, f x = g x) -> sort_multidimensional_list f l = sort_multidimensional_list g l.
Proof. intros E. apply F2_eq, sort_rel; [intros a b ->; apply E|apply F2_refl]. Qed.

Section Live.
Variables (S0 S1 : list node).
Hypothesis same : Forall2 agree S0 S1.

(** The other layers' nodes in place of these. *)
Definition other (H : heap) : heap :=
  {| specs := S1 ++ skipn (length S0) (specs H); comps := comps H; dirty := dirty H |}.
Definition on (H : heap) : Prop := exists T, specs H = S0 ++ T.

Lemma on_comps H x : on H -> on (with_comps H x). Proof. auto. Qed.
Lemma on_dirty H x : on H -> on (with_dirty H x). Proof. auto. Qed.
Lemma on_set H p a v : on H -> on (set_attr H p a v). Proof. auto. Qed.

Lemma same_length : length S1 = length S0.
Proof. symmetry. exact (F2_length agree S0 S1 same). Qed.
Lemma other_specs H T : specs H = S0 ++ T -> specs (other H) = S1 ++ T.
Proof. intros E. cbn [other specs]. rewrite E, skipn_app, skipn_all, Nat.sub_diag. reflexivity. Qed.
Lemma other_len H : on H -> length (specs (other H)) = length (specs H).
Proof. intros (T & E). rewrite (other_specs H T E), E, !app_length, same_length. reflexivity. Qed.

Lemma other_nth H i n : on H -> nth_error (specs H) i = Some n ->
  exists m, nth_error (specs (other H)) i = Some m /\ agree n m.
Proof.
  intros (T & E) En. rewrite (other_specs H T E). rewrite E in En. destruct (Nat.lt_ge_cases i (length S0)) as [Hi|Hi].
  - rewrite nth_error_app1 in En by exact Hi. rewrite nth_error_app1 by (rewrite same_length; exact Hi).
    exact (F2_nth agree S0 S1 same i n En).
  - rewrite nth_error_app2 in En by exact Hi. rewrite nth_error_app2 by (rewrite same_length; exact Hi).
    rewrite same_length. exists n. split; [exact En|]. intros a _. reflexivity.
Qed.
Lemma other_nth_none H i : on H -> nth_error (specs H) i = None -> nth_error (specs (other H)) i = None.
Proof. intros Ho E. apply nth_error_None. rewrite other_len by exact Ho. now apply nth_error_None. Qed.

Lemma agree_or n m a : agree n m -> In a internal_keys -> attr_or_none n a = attr_or_none m a.
Proof. intros A Ha. unfold attr_or_none, dget_def. now rewrite (A a Ha). Qed.

Lemma other_attr H p a : on H -> In a internal_keys -> attr (other H) p a = attr H p a.
Proof.
  intros Ho Ha. unfold attr. cbn [comps other]. destruct (dget p (comps H)) as [c|]; [|reflexivity].
  unfold node_attr. destruct (dget a (own c)); [reflexivity|]. destruct (cbases c) as [|[i|q] l]; try reflexivity.
  destruct (nth_error (specs H) i) as [n|] eqn:En.
  - destruct (other_nth H i n Ho En) as (m & Em & A). change (S1 ++ skipn (length S0) (specs H)) with (specs (other H)).
    rewrite Em. symmetry. now apply agree_or.
  - change (S1 ++ skipn (length S0) (specs H)) with (specs (other H)). now rewrite (other_nth_none H i Ho En).
Qed.

Ltac ikey := apply str_in_In; vm_compute; reflexivity.
Lemma other_inst H p : on H -> inst_of (other H) p = inst_of H p.
Proof. intros Ho. unfold inst_of. rewrite other_attr; [reflexivity|exact Ho|ikey]. Qed.
Lemma other_order H p : on H -> order_of (other H) p = order_of H p.
Proof. intros Ho. unfold order_of. rewrite other_attr; [reflexivity|exact Ho|ikey]. Qed.
Lemma other_name H p : on H -> name_of (other H) p = name_of H p.
Proof. intros Ho. unfold name_of. rewrite other_attr; [reflexivity|exact Ho|ikey]. Qed.
Lemma other_parent H p : on H -> parent_of (other H) p = parent_of H p.
Proof. intros Ho. unfold parent_of. rewrite other_attr; [reflexivity|exact Ho|ikey]. Qed.
Lemma other_here H p : here (other H) p = here H p. Proof. reflexivity. Qed.

Lemma other_trace_from f : forall H p acc, on H -> trace_from f (other H) p acc = trace_from f H p acc.
Proof.
  induction f as [|f IH]; intros H p acc Ho; [reflexivity|]. cbn [trace_from]. rewrite other_inst by exact Ho.
  destruct (inst_of H p) as [i|]; [|reflexivity]. rewrite other_here. destruct (here H i && negb (str_in i acc)); [|reflexivity].
  now apply IH.
Qed.
Lemma other_trace H p : on H -> trace (other H) p = trace H p.
Proof. intros Ho. unfold trace. now rewrite other_trace_from. Qed.
Lemma other_possible H p : on H -> possible (other H) p = possible H p.
Proof. intros Ho. unfold possible. rewrite other_inst by exact Ho. reflexivity. Qed.

Lemma other_sorted H : on H -> sort_instances (other H) = sort_instances H.
Proof. intros Ho. unfold sort_instances. apply sort_ext. intros p. now rewrite other_trace. Qed.
Lemma other_deep_sorted H : on H -> deep_sort_instances (other H) = deep_sort_instances H.
Proof.
  intros Ho. unfold deep_sort_instances. rewrite other_sorted by exact Ho.
  assert (E : forall l acc, fold_left (deep_step (other H)) l acc = fold_left (deep_step H) l acc).
  { induction l as [|p l IH]; intros acc; [reflexivity|]. cbn [fold_left]. rewrite IH. f_equal.
    unfold deep_step. destruct acc as [l' o]. rewrite other_possible by exact Ho. reflexivity. }
  now rewrite E.
Qed.
Lemma other_view H : on H -> view (other H) = view H.
Proof.
  intros Ho. unfold view. cbn [comps other]. f_equal. apply map_ext. intros [p c]. cbn [fst].
  now rewrite other_name, other_parent, other_order.
Qed.
Lemma other_kids H p : on H -> kid_paths (other H) p = kid_paths H p.
Proof. intros Ho. unfold kid_paths. now rewrite other_view. Qed.
Lemma other_kid_named H p name : on H -> has_kid_named (other H) p name = has_kid_named H p name.
Proof. intros Ho. unfold has_kid_named. now rewrite other_view. Qed.
Lemma other_set H p a v : set_attr (other H) p a v = other (set_attr H p a v).
Proof. reflexivity. Qed.
Lemma other_set_order H p o : Comp.set_order (other H) p o = other (Comp.set_order H p o).
Proof. reflexivity. Qed.
Lemma on_order H p o : on H -> on (Comp.set_order H p o). Proof. auto. Qed.

Section Flags.
Variables (top_real : pyval) (one_object : bool).
Lemma other_concern H s t : concern one_object (other H) s t = other (concern one_object H s t).
Proof. reflexivity. Qed.
Lemma on_concern H s t : on H -> on (concern one_object H s t). Proof. auto. Qed.

Lemma other_discover_child p H td src : on H ->
  on (fst (discover_child p (H, td) src)) /\
  discover_child p (other H, td) src = (other (fst (discover_child p (H, td) src)), snd (discover_child p (H, td) src)).
Proof.
  intros Ho. unfold discover_child. cbv zeta. rewrite other_here.
  destruct (here H _); [|split; [exact Ho|reflexivity]]. rewrite other_attr; [|exact Ho|ikey].
  destruct (attr H _ INSTANCE_PATH) as [| | |[|]| | | |]; split; try exact Ho; reflexivity.
Qed.
Lemma other_children p l : forall H td, on H ->
  on (fst (fold_left (discover_child p) l (H, td))) /\
  fold_left (discover_child p) l (other H, td) = (other (fst (fold_left (discover_child p) l (H, td))), snd (fold_left (discover_child p) l (H, td))).
Proof.
  induction l as [|src l IH]; intros H td Ho; [split; [exact Ho|reflexivity]|]. cbn [fold_left].
  destruct (other_discover_child p H td src Ho) as (A & ->). destruct (discover_child p (H, td) src) as [H' td']. now apply IH.
Qed.
Lemma other_discover H p : on H ->
  on (fst (discover one_object H p)) /\
  discover one_object (other H) p = (other (fst (discover one_object H p)), snd (discover one_object H p)).
Proof.
  intros Ho. unfold discover. rewrite other_possible by exact Ho. destruct (possible H p) as [real|]; [|split; [exact Ho|reflexivity]].
  cbv zeta. rewrite other_set, other_concern, other_here.
  set (H1 := concern one_object (set_attr H p INSTANCE_PATH (VStr real)) real p).
  assert (O1 : on H1) by exact Ho.
  assert (E : (if here H1 real then Comp.set_order (other H1) p (merged (order_of (other H1) p) (order_of (other H1) real)) else other H1) =
              other (if here H1 real then Comp.set_order H1 p (merged (order_of H1 p) (order_of H1 real)) else H1)).
  { destruct (here H1 real); [|reflexivity]. now rewrite !other_order, other_set_order. }
  rewrite E. set (H2 := if here H1 real then _ else H1).
  assert (O2 : on H2) by (unfold H2; destruct (here H1 real); exact O1).
  rewrite other_kids by exact O2. destruct (other_children p (kid_paths H2 real) H2 [] O2) as (A & ->).
  destruct (fold_left (discover_child p) (kid_paths H2 real) (H2, [])) as [H3 td]. split; [exact A|reflexivity].
Qed.
Lemma other_discover_all ps : forall H td, on H ->
  let step := fun acc p => let '(H, to_do) := acc in let '(H, more) := discover one_object H p in (H, to_do ++ more) in
  on (fst (fold_left step ps (H, td))) /\
  fold_left step ps (other H, td) = (other (fst (fold_left step ps (H, td))), snd (fold_left step ps (H, td))).
Proof.
  induction ps as [|p ps IH]; intros H td Ho step; [split; [exact Ho|reflexivity]|]. cbn [fold_left].
  unfold step at 2 4 6 8. destruct (other_discover H p Ho) as (A & ->). destruct (discover one_object H p) as [H' more]. cbn [fst snd].
  now apply IH.
Qed.

Lemma other_name_missing H src : on H -> on (name_missing H src) /\ name_missing (other H) src = other (name_missing H src).
Proof.
  intros Ho. unfold name_missing. cbv zeta. rewrite other_here, other_attr by (exact Ho || ikey). rewrite other_order by exact Ho.
  destruct (_ && _); split; auto.
Qed.
Lemma other_add_proxy H sp src tgt force : on H ->
  on (add_proxy H sp src tgt force) /\ add_proxy (other H) sp src tgt force = other (add_proxy H sp src tgt force).
Proof.
  intros Ho. unfold add_proxy. cbv zeta. rewrite other_attr by (exact Ho || ikey).
  rewrite other_len by exact Ho. destruct Ho as (T & E). pose proof (other_specs H T E) as Eo. rewrite Eo. cbn [comps dirty other].
  match goal with |- on (if _ then Comp.set_order ?X _ _ else _) /\ _ => set (H1 := X) end.
  assert (O1 : on H1). { exists (T ++ [sp]). cbn [H1 specs]. now rewrite E, app_assoc. }
  assert (E1 : {| specs := (S1 ++ T) ++ [sp];
                  comps := comps H1; dirty := dirty H1 |} = other H1).
  { unfold other. f_equal. cbn [H1 specs]. rewrite E, <- !app_assoc, skipn_app, skipn_all, Nat.sub_diag. reflexivity. }
  cbn [H1 comps dirty] in E1. rewrite E1. fold H1. rewrite other_here, other_order by exact O1.
  destruct (_ && _); split; auto.
Qed.
Lemma other_create H src tgt : on H ->
  on (fst (create_instance top_real one_object H src tgt)) /\
  create_instance top_real one_object (other H) src tgt =
    (other (fst (create_instance top_real one_object H src tgt)), snd (create_instance top_real one_object H src tgt)).
Proof.
  intros Ho. unfold create_instance. cbv zeta. rewrite !other_here.
  rewrite other_kid_named, other_inst, other_name by exact Ho. rewrite !other_attr by (exact Ho || ikey).
  set (H1 := if here H src then H else name_missing H src).
  assert (O1 : on H1) by (unfold H1; destruct (here H src); [exact Ho|apply other_name_missing, Ho]).
  assert (E1 : (if here H src then other H else name_missing (other H) src) = other H1).
  { unfold H1. destruct (here H src); [reflexivity|]. now apply other_name_missing. }
  rewrite E1, other_here. destruct (here H1 tgt).
  - split; [exact O1|reflexivity].
  - match goal with |- context [add_proxy H1 ?sp src tgt ?f] => destruct (other_add_proxy H1 sp src tgt f O1) as (A & ->) end.
    split; [exact A|reflexivity].
Qed.
Lemma other_create_all rows : forall H imps, on H ->
  let step := fun acc (r : list pystr * pystr * pystr) => let '(H, imps) := acc in let '(_, src, tgt) := r in
              let '(H, i) := create_instance top_real one_object H src tgt in (H, if i then imps ++ [tgt] else imps) in
  on (fst (fold_left step rows (H, imps))) /\
  fold_left step rows (other H, imps) = (other (fst (fold_left step rows (H, imps))), snd (fold_left step rows (H, imps))).
Proof.
  induction rows as [|[[ns src] tgt] rows IH]; intros H imps Ho step; [split; [exact Ho|reflexivity]|]. cbn [fold_left].
  unfold step at 2 4 6 8. destruct (other_create H src tgt Ho) as (A & ->). destruct (create_instance _ _ H src tgt) as [H' i]. cbn [fst snd].
  now apply IH.
Qed.

Lemma other_loop f : forall H imps, on H ->
  match proxy_loop top_real one_object f H imps with
  | Some (H', imps') => on H' /\ proxy_loop top_real one_object f (other H) imps = Some (other H', imps')
  | None => proxy_loop top_real one_object f (other H) imps = None
  end.
Proof.
  induction f as [|f IH]; intros H imps Ho; [reflexivity|]. cbn [proxy_loop].
  rewrite other_deep_sorted by exact Ho. unfold discover_all.
  destruct (other_discover_all (deep_sort_instances H) H [] Ho) as (A & ->).
  match goal with |- context [fold_left ?s (deep_sort_instances H) (H, [])] => destruct (fold_left s (deep_sort_instances H) (H, [])) as [H1 td] end.
  cbn [fst snd] in *. unfold create_all. destruct (other_create_all td H1 [] A) as (C & ->).
  match goal with |- context [fold_left ?s td (H1, [])] => destruct (fold_left s td (H1, [])) as [H2 more] end.
  cbn [fst snd] in *. destruct td; [split; [exact C|reflexivity]|]. now apply IH.
Qed.
Lemma other_proxies f H : on H ->
  match comp_proxies top_real one_object f H with
  | Some H' => on H' /\ comp_proxies top_real one_object f (other H) = Some (other H')
  | None => comp_proxies top_real one_object f (other H) = None
  end.
Proof.
  intros Ho. unfold comp_proxies. pose proof (other_loop f H [] Ho) as E.
  destruct (proxy_loop top_real one_object f H []) as [[H' imps]|]; [|now rewrite E].
  destruct E as (A & ->). split; [exact A|reflexivity].
Qed.
End Flags.

Lemma other_mro H r : on H -> mro_of (other H) r = mro_of H r.
Proof. intros Ho. unfold mro_of. rewrite other_len by exact Ho. reflexivity. Qed.
Lemma other_set_bases H p bs : on H ->
  match set_bases H p bs with
  | Ok H' => on H' /\ set_bases (other H) p bs = Ok (other H')
  | Raise e => set_bases (other H) p bs = Raise e
  end.
Proof.
  intros Ho. unfold set_bases. cbv zeta.
  set (H1 := with_comps H _). change (with_comps (other H) _) with (other H1).
  assert (O1 : on H1) by exact Ho.
  assert (E : all_mros (other H1) = all_mros H1).
  { unfold all_mros. cbn [comps other]. change (comps H1) with (comps H1). induction (comps H1) as [|kc l IH]; [reflexivity|]. cbn [forallb]. now rewrite IH, other_mro. }
  rewrite E. destruct (all_mros H1); auto.
Qed.
Lemma other_nearest f : forall H p, nearest f (other H) p = nearest f H p.
Proof. induction f as [|f IH]; intros H p; [reflexivity|]. cbn [nearest]. rewrite other_here. destruct (_ || _); auto. Qed.
Lemma other_post_parent H p : on H ->
  match post_parent H p with
  | Ok H' => on H' /\ post_parent (other H) p = Ok (other H')
  | Raise e => post_parent (other H) p = Raise e
  end.
Proof.
  intros Ho. unfold post_parent. cbv zeta. rewrite other_parent by exact Ho. destruct (is_empty (parent_of H p)); [auto|].
  rewrite other_nearest, other_here. destruct (here H _); [|auto]. now apply other_set_bases.
Qed.
Lemma other_inherit base p a H : on H -> In a INSTANCE_ATTRS ->
  on (inherit base p H a) /\ inherit base p (other H) a = other (inherit base p H a).
Proof.
  intros Ho Ha. assert (K : In a internal_keys) by (destruct Ha as [<-|[<-|[<-|[]]]]; ikey).
  unfold inherit. rewrite !other_attr by (exact Ho || exact K || ikey). destruct (has_opinion (attr H p a)); auto.
Qed.
Lemma other_safe_bases H cur base : on H -> safe_bases (other H) cur base = safe_bases H cur base.
Proof.
  intros Ho. unfold safe_bases. apply filter_ext. intros c. f_equal. cbn [comps other].
  induction (bases_in (comps H) (Co base)) as [|b l IH]; [reflexivity|]. cbn [existsb]. now rewrite IH, other_mro.
Qed.
Lemma other_safe_add H p base : on H ->
  match safe_add H p base with
  | Ok H' => on H' /\ safe_add (other H) p base = Ok (other H')
  | Raise e => safe_add (other H) p base = Raise e
  end.
Proof.
  intros Ho. unfold safe_add. cbv zeta. cbn [comps other]. destruct (isin _ _ _); [auto|].
  change (safe_bases {| specs := S1 ++ skipn (length S0) (specs H); comps := comps H; dirty := dirty H |}) with (safe_bases (other H)).
  rewrite other_safe_bases by exact Ho. now apply other_set_bases.
Qed.
Lemma other_post_instance H p : on H ->
  match post_instance H p with
  | Ok H' => on H' /\ post_instance (other H) p = Ok (other H')
  | Raise e => post_instance (other H) p = Raise e
  end.
Proof.
  intros Ho. unfold post_instance. rewrite other_inst by exact Ho. destruct (inst_of H p) as [base|]; [|auto].
  rewrite other_here. destruct (_ || _); [auto|]. unfold INSTANCE_ATTRS. cbn [fold_left].
  destruct (other_inherit base p ENABLED H Ho) as (A1 & ->); [cbn; tauto|].
  destruct (other_inherit base p COMMENT _ A1) as (A2 & ->); [cbn; tauto|].
  destruct (other_inherit base p COMPUTE _ A2) as (A3 & ->); [cbn; tauto|]. now apply other_safe_add.
Qed.
Lemma other_fold (f : heap -> pystr -> res heap) l :
  (forall H p, on H -> match f H p with Ok H' => on H' /\ f (other H) p = Ok (other H') | Raise e => f (other H) p = Raise e end) ->
  forall H, on H -> match fold_res f l H with Ok H' => on H' /\ fold_res f l (other H) = Ok (other H') | Raise e => fold_res f l (other H) = Raise e end.
Proof.
  intros Hf. induction l as [|p l IH]; intros H Ho; cbn [fold_res]; [auto|]. specialize (Hf H p Ho).
  destruct (f H p) as [H'|e]; [|rewrite Hf; reflexivity]. destruct Hf as (A & ->). cbn [bind]. now apply IH.
Qed.
Lemma other_post H : on H ->
  match post_proxy_comp H with Ok H' => on H' /\ post_proxy_comp (other H) = Ok (other H') | Raise e => post_proxy_comp (other H) = Raise e end.
Proof.
  intros Ho. unfold post_proxy_comp. cbv zeta. rewrite other_sorted by exact Ho.
  pose proof (other_fold post_parent (sort_instances H) (fun H p => other_post_parent H p) H Ho) as E1.
  destruct (fold_res post_parent (sort_instances H) H) as [H1|e]; [|rewrite E1; reflexivity]. destruct E1 as (A & ->). cbn [bind].
  exact (other_fold post_instance (sort_instances H) (fun H p => other_post_instance H p) H1 A).
Qed.
End Live.

(** *** The nodes of the layers *)

Definition alike (r r' : layer_row) : Prop := fst r = fst r' /\ agree (snd r) (snd r').

Ltac ikey := apply str_in_In; vm_compute; reflexivity.

Lemma gather_alike rows rows' : Forall2 alike rows rows' -> forall n acc, gather n rows acc = gather n rows' acc.
Proof.
  induction 1 as [|[ns sp] [ns' sp'] rows rows' [E A] _ IH]; intros n acc; [reflexivity|]. cbn [fst snd] in *. subst ns'.
  cbn [gather]. cbv zeta. rewrite (agree_or sp sp' NAME A) by ikey. apply IH.
Qed.

Lemma tracked_keys a : In a TRACKED -> In a internal_keys.
Proof. intros Ha. unfold TRACKED in Ha. cbn [In] in Ha. repeat (destruct Ha as [<-|Ha]; [ikey|]). destruct Ha. Qed.

Lemma overload_agree p sp sp' : agree sp sp' -> forall o, overload p o sp = overload p o sp'.
Proof.
  intros A. unfold overload. pose proof (agree_or sp sp' SOURCE_LAYER A ltac:(ikey)) as ES.
  assert (G : forall l, (forall a, In a l -> In a internal_keys) -> forall o,
    fold_left (fun o a => let v := attr_or_none sp a in
       if has_opinion v then dset (a ++ META_SOURCE) (VTuple [attr_or_none sp' SOURCE_LAYER; VStr p]) (dset a v o) else o) l o =
    fold_left (fun o a => let v := attr_or_none sp' a in
       if has_opinion v then dset (a ++ META_SOURCE) (VTuple [attr_or_none sp' SOURCE_LAYER; VStr p]) (dset a v o) else o) l o).
  { induction l as [|a l IH]; intros Hl o; [reflexivity|]. cbn [fold_left]. cbv zeta.
    rewrite (agree_or sp sp' a A) by (apply Hl; now left). apply IH. intros b Hb. apply Hl. now right. }
  rewrite ES. exact (G TRACKED tracked_keys).
Qed.
Lemma overloads_agree p sps sps' : Forall2 agree sps sps' -> forall first o, overloads p first sps o = overloads p first sps' o.
Proof.
  induction 1 as [|sp sp' sps sps' A _ IH]; intros first o; [reflexivity|]. cbn [overloads]. cbv zeta.
  rewrite (agree_or sp sp' CHILD_ORDER A) by ikey. rewrite (overload_agree p sp sp' A). apply IH.
Qed.
Lemma F2_app {A B} (R : A -> B -> Prop) a a' b b' : Forall2 R a a' -> Forall2 R b b' -> Forall2 R (a ++ b) (a' ++ b').
Proof. induction 1; cbn [app]; auto. Qed.
Lemma F2_rev {A B} (R : A -> B -> Prop) a a' : Forall2 R a a' -> Forall2 R (rev a) (rev a').
Proof. induction 1; cbn [rev]; [constructor|]. apply F2_app; auto. Qed.
Lemma nth_none_len {A B} (l : list A) (l' : list B) i : length l = length l' -> nth_error l i = None -> nth_error l' i = None.
Proof. intros E H. apply nth_error_None. rewrite <- E. now apply nth_error_None. Qed.
Lemma spec_nodes_agree (S S' : list node) bs : Forall2 agree S S' -> Forall2 agree (spec_nodes S bs) (spec_nodes S' bs).
Proof.
  intros HS. unfold spec_nodes. induction bs as [|[i|q] bs IH]; cbn [flat_map]; [constructor| |exact IH].
  apply F2_app; [|exact IH]. destruct (nth_error S i) as [n|] eqn:E.
  - destruct (F2_nth (A:=node) (B:=node) agree S S' HS i n E) as (m & -> & A). constructor; [exact A|constructor].
  - rewrite (nth_none_len (A:=node) (B:=node) S S' i (F2_length agree S S' HS) E). constructor.
Qed.
Lemma F2_map {A B} (R : A -> B -> Prop) {C D} (Q : C -> D -> Prop) f g l l' :
  (forall a b, R a b -> Q (f a) (g b)) -> Forall2 R l l' -> Forall2 Q (map f l) (map g l').
Proof. intros H. induction 1; cbn [map]; auto. Qed.
Lemma F2_concat {A B} (R : A -> B -> Prop) ll ll' : Forall2 (Forall2 R) ll ll' -> Forall2 R (concat ll) (concat ll').
Proof. induction 1; cbn [concat]; [constructor|]. now apply F2_app. Qed.

Lemma pre_alike T T' : Forall2 (Forall2 alike) T T' ->
  comp_pre_proxies T' = {| specs := map snd (concat T'); comps := comps (comp_pre_proxies T); dirty := [] |} /\
  Forall2 agree (map snd (concat T)) (map snd (concat T')).
Proof.
  intros HT. pose proof (F2_concat alike T T' HT) as Hr.
  assert (Hs : Forall2 agree (map snd (concat T)) (map snd (concat T'))) by (apply (F2_map alike); [intros a b [_ A]; exact A|exact Hr]).
  split; [|exact Hs]. unfold comp_pre_proxies. cbv zeta. cbn [comps]. f_equal. rewrite (gather_alike _ _ Hr).
  apply map_ext. intros [p c]. cbn [fst snd]. f_equal. unfold pre_node. f_equal. symmetry.
  apply overloads_agree, F2_rev, spec_nodes_agree, Hs.
Qed.

Lemma build_alike fuel top_real one_object L L' : Forall2 (Forall2 alike) L L' ->
  match build_stage fuel top_real one_object L with
  | Built H => exists proxies, specs H = objects L ++ proxies /\
      build_stage fuel top_real one_object L' = Built {| specs := objects L' ++ proxies; comps := comps H; dirty := dirty H |}
  | Broken => build_stage fuel top_real one_object L' = Broken
  | Endless => build_stage fuel top_real one_object L' = Endless
  end.
Proof.
  intros HL. unfold build_stage, objects. cbv zeta. set (srt := sort_multidimensional_list _).
  assert (HT : Forall2 (Forall2 alike) (map srt L) (map srt L')).
  { apply (F2_map (Forall2 alike)); [|exact HL]. intros a b. apply sort_rel. intros r r' [E _]. exact (f_equal (@length pystr) E). }
  destruct (pre_alike _ _ HT) as (E & Hs). set (S0 := map snd (concat (map srt L))) in *. set (S1 := map snd (concat (map srt L'))) in *.
  set (H0 := comp_pre_proxies (map srt L)). assert (O0 : on S0 H0) by (exists []; now rewrite app_nil_r).
  assert (E0 : comp_pre_proxies (map srt L') = other S0 S1 H0).
  { etransitivity; [exact E|]. unfold other. f_equal. change (specs H0) with S0. now rewrite skipn_all, app_nil_r. }
  rewrite E0. pose proof (other_proxies S0 S1 Hs top_real one_object fuel H0 O0) as Ep.
  destruct (comp_proxies top_real one_object fuel H0) as [H1|]; [|now rewrite Ep]. destruct Ep as (O1 & ->).
  pose proof (other_post S0 S1 Hs H1 O1) as E2. destruct (post_proxy_comp H1) as [H2|e]; [|now rewrite E2].
  destruct E2 as ((T & ET) & ->). exists T. split; [exact ET|]. f_equal. unfold other. f_equal.
  rewrite ET, skipn_app, skipn_all, Nat.sub_diag. reflexivity.
Qed.
