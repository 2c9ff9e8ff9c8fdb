(** Composition passes code, comments, enabled states, start points, execute
    inputs and user attributes along without looking at them: layers that
    differ in such attributes only give stages that differ in them only. *)

From Coq Require Import String List NArith ZArith Bool Arith Lia.
From Verif Require Import PyStr PyStrFacts NxtPath PathSpec Dict DictFacts ListMerger SortRows Layer PyVal NodeIO PyClass
  Comp CompSpec StageView LiveSpec CompLiveProofs.
From Verif Require DirtyMap.
Import ListNotations.

(** What composition steers by. *)
Definition STRUCTURE : list pystr := [NAME; PARENT_PATH; INSTANCE_PATH; CHILD_ORDER; SOURCE_LAYER; PROXY].

Section Sim.
(** The attributes that may differ. *)
Variable E : pystr -> bool.
Hypothesis steers : forall a, In a STRUCTURE -> E a = false.
Hypothesis sources : forall a, In a TRACKED -> E a = true -> E (a ++ META_SOURCE) = true.

Definition near (n m : node) : Prop := forall a, E a = false -> dget a n = dget a m.
Lemma near_refl n : near n n. Proof. intros a _. reflexivity. Qed.
Lemma near_sym n m : near n m -> near m n. Proof. intros N a Ha. now rewrite N. Qed.
Lemma near_trans n m k : near n m -> near m k -> near n k. Proof. intros N M a Ha. now rewrite N, M. Qed.
Lemma near_set a v v' n m : (E a = false -> v = v') -> near n m -> near (dset a v n) (dset a v' m).
Proof.
  intros Hv N b Hb. rewrite !dget_dset. destruct (str_eqb a b) eqn:Eq; [apply str_eqb_eq in Eq as ->; now rewrite Hv|now apply N].
Qed.
Lemma near_one a v n m : E a = true -> near n m -> near (dset a v n) m.
Proof. intros Ha N b Hb. rewrite dget_dset. destruct (str_eqb a b) eqn:Eq; [apply str_eqb_eq in Eq as ->; congruence|now apply N]. Qed.
Lemma near_or n m a : near n m -> E a = false -> attr_or_none n a = attr_or_none m a.
Proof. intros N Ha. unfold attr_or_none. now rewrite N. Qed.

Definition cnear (c c' : cnode) : Prop := cbases c = cbases c' /\ near (own c) (own c').
Definition knear (kc kc' : pystr * cnode) : Prop := fst kc = fst kc' /\ cnear (snd kc) (snd kc').
Definition sim (H H' : heap) : Prop :=
  dirty H = dirty H' /\ Forall2 near (specs H) (specs H') /\ Forall2 knear (comps H) (comps H').

Lemma F2_refl_of {A} (R : A -> A -> Prop) l : (forall x, R x x) -> Forall2 R l l.
Proof. intros Hr. induction l; constructor; auto. Qed.
Lemma sim_refl H : sim H H.
Proof. split; [reflexivity|]. split; [apply F2_refl_of, near_refl|apply F2_refl_of]. intros kc. split; [reflexivity|]. split; [reflexivity|apply near_refl]. Qed.
Lemma F2_sym {A} (R : A -> A -> Prop) l l' : (forall x y, R x y -> R y x) -> Forall2 R l l' -> Forall2 R l' l.
Proof. intros Hs. induction 1; constructor; auto. Qed.
Lemma sim_sym H H' : sim H H' -> sim H' H.
Proof.
  intros (D & S & C). split; [now symmetry|]. split; [now apply F2_sym; [apply near_sym|]|]. apply F2_sym; [|exact C].
  intros x y (K1 & K2 & K3). split; [now symmetry|]. split; [now symmetry|now apply near_sym].
Qed.

(** *** Node tables *)
Lemma table_keys d d' (same : Forall2 knear d d') : dkeys d = dkeys d'.
Proof. unfold dkeys. induction same as [|x y l l' (Kx & _) _ IH]; [reflexivity|]. cbn [map]. f_equal; auto. Qed.
Lemma table_get d d' (same : Forall2 knear d d') p : match dget p d, dget p d' with Some c, Some c' => cnear c c' | None, None => True | _, _ => False end.
Proof.
  induction same as [|[k c] [k' c'] l l' (Kx & Kc) F IH]; [exact I|]. cbn [fst snd] in *. subst k'. cbn [dget]. destruct (str_eqb k p); [exact Kc|exact IH].
Qed.
Lemma table_mem d d' (same : Forall2 knear d d') p : dmem p d = dmem p d'.
Proof. pose proof (table_get d d' same p) as G. unfold dmem. destruct (dget p d), (dget p d'); tauto. Qed.
Lemma table_change d d' (same : Forall2 knear d d') p f f' : (forall c c', cnear c c' -> cnear (f c) (f' c')) -> Forall2 knear (change p f d) (change p f' d').
Proof.
  intros Hf. unfold change. induction same as [|[k c] [k' c'] l l' (Kx & Kc) F IH]; [constructor|]. cbn [map fst snd] in *. subst k'.
  constructor; [|exact IH]. destruct (str_eqb k p); split; cbn [fst snd]; auto.
Qed.
Lemma table_change_left d d' (same : Forall2 knear d d') p f : (forall c c', cnear c c' -> cnear (f c) c') -> Forall2 knear (change p f d) d'.
Proof.
  intros Hf. unfold change. induction same as [|[k c] [k' c'] l l' (Kx & Kc) F IH]; [constructor|]. cbn [map fst snd] in *. subst k'.
  constructor; [|exact IH]. destruct (str_eqb k p); split; cbn [fst snd]; auto.
Qed.
Lemma table_length d d' (same : Forall2 knear d d') : length d = length d'.
Proof. apply F2_length with knear, same. Qed.

Lemma table_del p d d' : Forall2 knear d d' -> Forall2 knear (ddel p d) (ddel p d').
Proof.
  intros F. induction F as [|[k c] [k' c'] l l' (Kx & Kc) F IH]; [constructor|]. cbn [fst snd] in Kx. subst k'. cbn [ddel].
  destruct (str_eqb k p) eqn:Ek; [exact F|]. constructor; [|exact IH]. now split.
Qed.

(** *** Reading *)
Section Read.
Variables (H H' : heap).
Hypothesis R : sim H H'.
Lemma sim_here p : here H p = here H' p.
Proof. unfold here. destruct R as (_ & _ & C). now apply table_mem. Qed.
Lemma sim_nth i : match nth_error (specs H) i, nth_error (specs H') i with Some n, Some m => near n m | None, None => True | _, _ => False end.
Proof.
  destruct R as (_ & S & _). destruct (nth_error (specs H) i) as [n|] eqn:En.
  - destruct (F2_nth near _ _ S i n En) as (m & -> & N). exact N.
  - rewrite (nth_none_len (specs H) (specs H') i (F2_length near _ _ S) En). exact I.
Qed.
Lemma node_attr_near c c' a : cnear c c' -> E a = false -> node_attr (specs H) c a = node_attr (specs H') c' a.
Proof.
  intros (B & N) Ha. unfold node_attr. rewrite <- (N a Ha), <- B. destruct (dget a (own c)); [reflexivity|]. destruct (cbases c) as [|[i|p] l]; [reflexivity| |reflexivity].
  pose proof (sim_nth i) as G. destruct (nth_error (specs H) i), (nth_error (specs H') i); try contradiction; [now apply near_or|reflexivity].
Qed.
Lemma sim_attr p a : E a = false -> attr H p a = attr H' p a.
Proof.
  intros Ha. unfold attr. pose proof (table_get (comps H) (comps H') (proj2 (proj2 R)) p) as G.
  destruct (dget p (comps H)), (dget p (comps H')); try contradiction; [now apply node_attr_near|reflexivity].
Qed.
Local Ltac st := apply steers; cbn; tauto.
Lemma sim_inst p : inst_of H p = inst_of H' p. Proof. unfold inst_of. rewrite sim_attr; [reflexivity|st]. Qed.
Lemma sim_order p : order_of H p = order_of H' p. Proof. unfold order_of. rewrite sim_attr; [reflexivity|st]. Qed.
Lemma sim_name p : name_of H p = name_of H' p. Proof. unfold name_of. rewrite sim_attr; [reflexivity|st]. Qed.
Lemma sim_parent p : parent_of H p = parent_of H' p. Proof. unfold parent_of. rewrite sim_attr; [reflexivity|st]. Qed.
Lemma sim_keys : dkeys (comps H) = dkeys (comps H'). Proof. apply table_keys, R. Qed.
Lemma sim_count : length (comps H) = length (comps H'). Proof. apply table_length, R. Qed.
Lemma sim_trace_from f : forall p acc, trace_from f H p acc = trace_from f H' p acc.
Proof. induction f as [|f IH]; intros p acc; [reflexivity|]. cbn [trace_from]. rewrite sim_inst. destruct (inst_of H' p); [|reflexivity]. rewrite sim_here, IH. reflexivity. Qed.
Lemma sim_trace p : trace H p = trace H' p. Proof. unfold trace. now rewrite sim_count, sim_trace_from. Qed.
Lemma sim_dirties p : dirties H p = dirties H' p. Proof. unfold dirties. now rewrite (proj1 R). Qed.
Lemma sim_possible p : possible H p = possible H' p.
Proof. unfold possible. rewrite sim_inst. destruct (inst_of H' p); [|reflexivity]. now rewrite sim_dirties. Qed.
Lemma sim_sorted : sort_instances H = sort_instances H'.
Proof. unfold sort_instances. rewrite sim_keys. apply sort_ext. intros p. now rewrite sim_trace. Qed.
Lemma sim_deep_sorted : deep_sort_instances H = deep_sort_instances H'.
Proof.
  unfold deep_sort_instances. cbv zeta. rewrite sim_sorted. f_equal. generalize (sort_instances H', @nil (pystr * nat)) as acc. generalize (sort_instances H') as l.
  induction l as [|p l IH]; intros acc; [reflexivity|]. cbn [fold_left]. rewrite <- IH. f_equal. unfold deep_step. destruct acc as (q & off). rewrite sim_possible. destruct (possible H' p); [|reflexivity]. now rewrite sim_here.
Qed.
Lemma sim_view : view H = view H'.
Proof.
  unfold view. f_equal. assert (K : map fst (comps H) = map fst (comps H')) by apply sim_keys.
  rewrite <- (map_map fst (fun p => (p, {| n_name := name_of H p; n_parent := parent_of H p; n_order := order_of H p; n_enabled := None; n_exec_in := None |})) (comps H)).
  rewrite <- (map_map fst (fun p => (p, {| n_name := name_of H' p; n_parent := parent_of H' p; n_order := order_of H' p; n_enabled := None; n_exec_in := None |})) (comps H')).
  rewrite K. apply map_ext. intros p. now rewrite sim_name, sim_parent, sim_order.
Qed.
Lemma sim_kids p : kid_paths H p = kid_paths H' p. Proof. unfold kid_paths. now rewrite sim_view. Qed.
Lemma sim_kid_named p nm : has_kid_named H p nm = has_kid_named H' p nm. Proof. unfold has_kid_named. now rewrite sim_view. Qed.
Lemma sim_bases r : bases_in (comps H) r = bases_in (comps H') r.
Proof.
  destruct r as [i|p]; [reflexivity|]. cbn [bases_in]. pose proof (table_get (comps H) (comps H') (proj2 (proj2 R)) p) as G.
  destruct (dget p (comps H)), (dget p (comps H')); try contradiction; [apply G|reflexivity].
Qed.
Lemma sim_specs_count : length (specs H) = length (specs H'). Proof. apply F2_length with near, R. Qed.
End Read.

(** *** Writing *)
Lemma sim_set H H' p a v v' : sim H H' -> (E a = false -> v = v') -> sim (set_attr H p a v) (set_attr H' p a v').
Proof.
  intros (D & S & C) Hv. split; [exact D|]. split; [exact S|]. apply table_change; [exact C|]. intros c c' (B & N). split; [exact B|]. now apply near_set.
Qed.
Lemma sim_left H H' p a v : sim H H' -> E a = true -> sim (set_attr H p a v) H'.
Proof. intros (D & S & C) Ha. split; [exact D|]. split; [exact S|]. apply table_change_left; [exact C|]. intros c c' (B & N). split; [exact B|]. now apply near_one. Qed.
Lemma sim_right H H' p a v : sim H H' -> E a = true -> sim H (set_attr H' p a v).
Proof. intros R Ha. now apply sim_sym, sim_left; [apply sim_sym|]. Qed.
Lemma sim_set_order H H' p o : sim H H' -> sim (Comp.set_order H p o) (Comp.set_order H' p o).
Proof. intros R. now apply sim_set. Qed.

Local Ltac st := apply steers; cbn; tauto.

Section Flags.
Variables (top_real : pyval) (one_object : bool).
Lemma sim_concern H H' s t : sim H H' -> sim (concern one_object H s t) (concern one_object H' s t).
Proof. intros (D & S & C). split; [cbn [concern dirty with_dirty]; now rewrite D|]. now split. Qed.

(** The same rows, related heaps. *)
Definition both {A} (x y : heap * A) : Prop := sim (fst x) (fst y) /\ snd x = snd y.
Lemma sim_discover_child p src x y : both x y -> both (discover_child p x src) (discover_child p y src).
Proof.
  destruct x as (H & td), y as (H' & td'). intros (R & Et). cbn [fst snd] in *. subst td'. unfold discover_child. cbv zeta. rewrite (sim_here H H' R).
  destruct (here H' _); [|now split]. rewrite (sim_attr H H' R) by st. destruct (attr H' _ INSTANCE_PATH) as [| | |[|c s]| | | |]; try (split; [apply sim_set; auto|reflexivity]). now split.
Qed.
Lemma sim_children p l : forall x y, both x y -> both (fold_left (discover_child p) l x) (fold_left (discover_child p) l y).
Proof. induction l as [|s l IH]; intros x y B; [exact B|]. cbn [fold_left]. now apply IH, sim_discover_child. Qed.
Lemma sim_discover H H' p : sim H H' -> both (discover one_object H p) (discover one_object H' p).
Proof.
  intros R. unfold discover. rewrite <- (sim_possible H H' R). destruct (possible H p) as [real|]; [|now split]. cbv zeta.
  set (G := concern one_object (set_attr H p INSTANCE_PATH (VStr real)) real p). set (G' := concern one_object (set_attr H' p INSTANCE_PATH (VStr real)) real p).
  assert (RG : sim G G') by (apply sim_concern, sim_set; auto). clearbody G G'.
  set (K1 := if here G real then Comp.set_order G p (merged (order_of G p) (order_of G real)) else G). set (K2 := if here G' real then Comp.set_order G' p (merged (order_of G' p) (order_of G' real)) else G').
  assert (RK : sim K1 K2). { unfold K1, K2. rewrite (sim_here G G' RG), !(sim_order G G' RG). destruct (here G' real); [now apply sim_set_order|exact RG]. }
  clearbody K1 K2. rewrite (sim_kids K1 K2 RK). pose proof (sim_children p (kid_paths K2 real) (K1, []) (K2, []) (conj RK eq_refl)) as B.
  destruct (fold_left (discover_child p) (kid_paths K2 real) (K1, [])) as (X & t1), (fold_left (discover_child p) (kid_paths K2 real) (K2, [])) as (Y & t2).
  destruct B as (B1 & B2). cbn [fst snd] in *. subst t2. now split.
Qed.
Lemma sim_discover_all ps : forall H H', sim H H' -> both (discover_all one_object H ps) (discover_all one_object H' ps).
Proof.
  unfold discover_all. intros H H' R. assert (B : both (H, @nil (list pystr * pystr * pystr)) (H', [])) by now split. revert B.
  generalize (H, @nil (list pystr * pystr * pystr)) as x. generalize (H', @nil (list pystr * pystr * pystr)) as y.
  induction ps as [|p ps IH]; intros y x B; [exact B|]. cbn [fold_left]. apply IH. destruct x as (X & t1), y as (Y & t2), B as (RX & Et). cbn [fst snd] in *. subst t2.
  pose proof (sim_discover X Y p RX) as Q. destruct (discover one_object X p), (discover one_object Y p), Q as (Q1 & Q2). cbn [fst snd] in *. subst. now split.
Qed.

Lemma sim_name_missing H H' src : sim H H' -> sim (name_missing H src) (name_missing H' src).
Proof.
  intros R. unfold name_missing. cbv zeta. rewrite (sim_here H H' R), (sim_attr H H' R _ PROXY), !(sim_order H H' R) by st.
  destruct (here H' _ && _ && _); [now apply sim_set_order|exact R].
Qed.
Lemma near_of (n m : data) : Forall2 (fun x y => fst x = fst y /\ (E (fst x) = false -> snd x = snd y)) n m -> near n m.
Proof.
  intros F a Ha. induction F as [|[k v] [k' v'] l l' (Kx & Kv) F IH]; [reflexivity|]. cbn [fst snd] in *. subst k'. cbn [dget]. destruct (str_eqb k a) eqn:Ek; [|exact IH].
  apply str_eqb_eq in Ek as ->. now rewrite Kv.
Qed.
Lemma near_proxy nm c e c' e' s p : (E COMMENT = false -> c = c') -> (E ENABLED = false -> e = e') -> near (proxy_spec nm c e s p) (proxy_spec nm c' e' s p).
Proof.
  intros Hc He. apply near_of. set (P := fun (x y : pystr * pyval) => fst x = fst y /\ (E (fst x) = false -> snd x = snd y)).
  assert (Same : forall x, P x x) by (split; auto).
  assert (Com : c = c' \/ forall v v', P (COMMENT, v) (COMMENT, v')) by (destruct (E COMMENT) eqn:Z; [right; intros v v'; split; [reflexivity|cbn [fst]; congruence]|left; auto]).
  assert (En : e = e' \/ forall v v', P (ENABLED, v) (ENABLED, v')) by (destruct (E ENABLED) eqn:Z; [right; intros v v'; split; [reflexivity|cbn [fst]; congruence]|left; auto]).
  clearbody P. clear Hc He. destruct Com as [<-|Com], En as [<-|En]; try vm_compute in Com; try vm_compute in En; vm_compute;
  repeat (apply Forall2_cons; [first [apply Same|apply Com|apply En]|]); apply Forall2_nil.
Qed.
Lemma sim_add_proxy H H' sp sp' src tgt force : sim H H' -> near sp sp' -> sim (add_proxy H sp src tgt force) (add_proxy H' sp' src tgt force).
Proof.
  intros R N. unfold add_proxy. cbv zeta. rewrite (sim_attr H H' R _ SOURCE_LAYER) by st. rewrite (near_or sp sp' PARENT_PATH N), (near_or sp sp' NAME N), (sim_specs_count H H' R) by st.
  match goal with |- sim (if here ?X ?a && _ then _ else _) (if here ?Y _ && _ then _ else _) => set (G := X); set (G' := Y); assert (RG : sim G G') end.
  { destruct R as (D & S & C). split; [exact D|]. split; [apply F2_app; [exact S|now constructor]|]. apply F2_app; [exact C|]. constructor; [|constructor].
    split; [reflexivity|]. split; [reflexivity|apply near_refl]. }
  clearbody G G'. rewrite (sim_here G G' RG), !(sim_order G G' RG). destruct (here G' _ && _); [now apply sim_set_order|exact RG].
Qed.
Lemma sim_create H H' src tgt : sim H H' -> both (create_instance top_real one_object H src tgt) (create_instance top_real one_object H' src tgt).
Proof.
  intros R. unfold create_instance. cbv zeta. rewrite <- (sim_here H H' R src), <- (sim_inst H H' R), <- (sim_kid_named H H' R), <- (sim_name H H' R), <- (sim_attr H H' R src SOURCE_LAYER) by st.
  set (G := if here H src then H else name_missing H src). set (G' := if here H src then H' else name_missing H' src).
  assert (RG : sim G G') by (unfold G, G'; destruct (here H src); [exact R|now apply sim_name_missing]). clearbody G G'. split; [|reflexivity]. cbn [fst]. apply sim_concern.
  rewrite (sim_here G G' RG). destruct (here G' tgt); [apply sim_set; [apply sim_set; auto|auto]|]. apply sim_add_proxy; [exact RG|]. apply near_proxy; intros Z; (destruct (here H src); [now apply sim_attr|reflexivity]).
Qed.
Lemma sim_create_all rows : forall x y, both x y ->
  both (fold_left (fun (acc : heap * list pystr) (r : list pystr * pystr * pystr) => let '(H, imps) := acc in let '(_, src, tgt) := r in let '(H, i) := create_instance top_real one_object H src tgt in (H, if i then imps ++ [tgt] else imps)) rows x)
       (fold_left (fun (acc : heap * list pystr) (r : list pystr * pystr * pystr) => let '(H, imps) := acc in let '(_, src, tgt) := r in let '(H, i) := create_instance top_real one_object H src tgt in (H, if i then imps ++ [tgt] else imps)) rows y).
Proof.
  induction rows as [|((ns & src) & tgt) rows IH]; intros x y B; [exact B|]. cbn [fold_left]. apply IH. destruct x as (X & t1), y as (Y & t2), B as (RX & Et). cbn [fst snd] in *. subst t2.
  pose proof (sim_create X Y src tgt RX) as Q. destruct (create_instance top_real one_object X src tgt), (create_instance top_real one_object Y src tgt), Q as (Q1 & Q2). cbn [fst snd] in *. subst. now split.
Qed.
Definition both_or {A} (x y : option (heap * A)) : Prop := match x, y with Some x, Some y => both x y | None, None => True | _, _ => False end.
Lemma sim_loop f : forall H H' imps, sim H H' -> both_or (proxy_loop top_real one_object f H imps) (proxy_loop top_real one_object f H' imps).
Proof.
  induction f as [|f IH]; intros H H' imps R; [exact I|]. cbn [proxy_loop]. rewrite (sim_deep_sorted H H' R). pose proof (sim_discover_all (deep_sort_instances H') H H' R) as Q.
  destruct (discover_all one_object H (deep_sort_instances H')) as (X & td), (discover_all one_object H' (deep_sort_instances H')) as (Y & td'), Q as (Q1 & Q2). cbn [fst snd] in *. subst td'.
  pose proof (sim_create_all td (X, []) (Y, []) (conj Q1 eq_refl)) as Z. unfold create_all.
  destruct (fold_left _ td (X, [])) as (X2 & m), (fold_left _ td (Y, [])) as (Y2 & m'), Z as (Z1 & Z2). cbn [fst snd] in *. subst m'. destruct td; [now split|now apply IH].
Qed.
Lemma sim_proxies f H H' : sim H H' ->
  match comp_proxies top_real one_object f H, comp_proxies top_real one_object f H' with Some X, Some Y => sim X Y | None, None => True | _, _ => False end.
Proof.
  intros R. unfold comp_proxies. pose proof (sim_loop f H H' [] R) as Q. destruct (proxy_loop _ _ f H []) as [(X & m)|], (proxy_loop _ _ f H' []) as [(Y & m')|]; try contradiction; [|exact I].
  destruct Q as ((D & S & C) & Em). cbn [fst snd option_map] in *. subst m'. unfold drop_implied. split; [exact D|]. split; [exact S|]. cbn [comps with_comps].
  revert C. generalize (comps X), (comps Y). induction m as [|p m IH]; intros d d' C; [exact C|]. cbn [fold_left]. now apply IH, table_del.
Qed.
End Flags.

(** *** The classes above *)
Lemma concat_opt_ext {A B} (f g : A -> option B) l : (forall a, f a = g a) -> sequence (map f l) = sequence (map g l).
Proof. intros Q. f_equal. now apply map_ext. Qed.
Lemma mro_ext {C} (eqb : C -> C -> bool) (f g : C -> list C) : (forall c, f c = g c) -> forall n c, mro eqb f n c = mro eqb g n c.
Proof.
  intros Q. induction n as [|n IH]; intros c; [reflexivity|]. cbn [mro]. rewrite Q. now rewrite (concat_opt_ext (mro eqb f n) (mro eqb g n) (g c) IH).
Qed.

Section Above.
Variables (H H' : heap).
Hypothesis R : sim H H'.
Lemma sim_mro r : mro_of H r = mro_of H' r.
Proof. unfold mro_of. rewrite (sim_specs_count H H' R), (sim_count H H' R). apply mro_ext, (sim_bases H H' R). Qed.
Lemma sim_all_mros : all_mros H = all_mros H'.
Proof.
  unfold all_mros. destruct R as (_ & _ & C). induction C as [|kc kc' l l' (Kx & _) C IH]; [reflexivity|]. cbn [forallb]. now rewrite Kx, sim_mro, IH.
Qed.
Lemma sim_nearest f : forall p, nearest f H p = nearest f H' p.
Proof. induction f as [|f IH]; intros p; [reflexivity|]. cbn [nearest]. rewrite (sim_here H H' R), IH. reflexivity. Qed.
Lemma sim_safe_bases cur base : safe_bases H cur base = safe_bases H' cur base.
Proof.
  unfold safe_bases. apply filter_ext. intros c. f_equal. rewrite (sim_bases H H' R). induction (bases_in (comps H') (Co base)) as [|b l IH]; [reflexivity|]. cbn [existsb]. now rewrite sim_mro, IH.
Qed.
(** Reading any other attribute gives the same, from the same class. *)
Lemma sim_own_attr a r : E a = false -> own_attr H a r = own_attr H' a r.
Proof.
  intros Ha. destruct r as [i|p]; cbn [own_attr].
  - pose proof (sim_nth H H' R i) as G. destruct (nth_error (specs H) i), (nth_error (specs H') i); try contradiction; [now apply G|reflexivity].
  - pose proof (table_get (comps H) (comps H') (proj2 (proj2 R)) p) as G. destruct (dget p (comps H)), (dget p (comps H')); try contradiction; [now apply G|reflexivity].
Qed.
Lemma sim_getattr r a : E a = false -> getattr H r a = getattr H' r a.
Proof.
  intros Ha. unfold getattr. rewrite sim_mro. destruct (mro_of H' r) as [l|]; [|reflexivity]. induction l as [|c l IH]; [reflexivity|]. cbn [lookup_in]. now rewrite sim_own_attr, IH.
Qed.
End Above.

Definition sim_res (x y : res heap) : Prop := match x, y with Ok X, Ok Y => sim X Y | Raise e, Raise e' => e = e' | _, _ => False end.
Lemma sim_set_bases H H' p bs : sim H H' -> sim_res (set_bases H p bs) (set_bases H' p bs).
Proof.
  intros (D & S & C). unfold set_bases. cbv zeta.
  set (G := with_comps H _). set (G' := with_comps H' _).
  assert (RG : sim G G') by (split; [exact D|]; split; [exact S|]; apply table_change; [exact C|]; intros c c' (B & N); now split).
  rewrite (sim_all_mros G G' RG). destruct (all_mros G'); [exact RG|reflexivity].
Qed.
Lemma sim_post_parent H H' p : sim H H' -> sim_res (post_parent H p) (post_parent H' p).
Proof.
  intros R. unfold post_parent. cbv zeta. rewrite (sim_parent H H' R). destruct (is_empty _); [exact R|]. rewrite (sim_nearest H H' R), (sim_here H H' R).
  destruct (here H' _); [|exact R]. rewrite (sim_bases H H' R). now apply sim_set_bases.
Qed.
Lemma sim_inherit base p a H H' : sim H H' -> In a INSTANCE_ATTRS -> sim (inherit base p H a) (inherit base p H' a).
Proof.
  intros R Ha. assert (Ht : In a TRACKED) by (destruct Ha as [<-|[<-|[<-|[]]]]; cbn; tauto). unfold inherit. destruct (E a) eqn:Ea.
  - pose proof (sources a Ht Ea) as Es. destruct (has_opinion (attr H p a)), (has_opinion (attr H' p a)).
    + exact R.
    + now apply sim_right; [apply sim_right|].
    + now apply sim_left; [apply sim_left|].
    + apply sim_set; [apply sim_set; [exact R|congruence]|congruence].
  - rewrite (sim_attr H H' R p a Ea), (sim_attr H H' R base a Ea), (sim_attr H H' R base SOURCE_LAYER) by st. destruct (has_opinion (attr H' p a)); [exact R|].
    apply sim_set; [apply sim_set; auto|auto].
Qed.
Lemma sim_inherits base p l : (forall a, In a l -> In a INSTANCE_ATTRS) -> forall H H', sim H H' -> sim (fold_left (inherit base p) l H) (fold_left (inherit base p) l H').
Proof. induction l as [|a l IH]; intros Hl H H' R; [exact R|]. cbn [fold_left]. apply IH; [intros x Hx; apply Hl; now right|]. apply sim_inherit; [exact R|apply Hl; now left]. Qed.
Lemma sim_safe_add H H' p base : sim H H' -> sim_res (safe_add H p base) (safe_add H' p base).
Proof.
  intros R. unfold safe_add. cbv zeta. rewrite (sim_bases H H' R). destruct (isin _ _ _); [exact R|]. rewrite (sim_safe_bases H H' R). now apply sim_set_bases.
Qed.
Lemma sim_post_instance H H' p : sim H H' -> sim_res (post_instance H p) (post_instance H' p).
Proof.
  intros R. unfold post_instance. rewrite (sim_inst H H' R). destruct (inst_of H' p) as [base|]; [|exact R]. rewrite (sim_here H H' R). destruct (_ || _); [exact R|].
  apply sim_safe_add, sim_inherits; auto.
Qed.
Lemma sim_fold (f : heap -> pystr -> res heap) l : (forall H H' p, sim H H' -> sim_res (f H p) (f H' p)) -> forall H H', sim H H' -> sim_res (fold_res f l H) (fold_res f l H').
Proof.
  intros Hf. induction l as [|p l IH]; intros H H' R; [exact R|]. cbn [fold_res bind]. pose proof (Hf H H' p R) as Q. destruct (f H p), (f H' p); try contradiction; [now apply IH|exact Q].
Qed.
Lemma sim_post H H' : sim H H' -> sim_res (post_proxy_comp H) (post_proxy_comp H').
Proof.
  intros R. unfold post_proxy_comp. cbv zeta. rewrite (sim_sorted H H' R). pose proof (sim_fold post_parent (sort_instances H') sim_post_parent H H' R) as Q.
  destruct (fold_res post_parent (sort_instances H') H), (fold_res post_parent (sort_instances H') H'); try contradiction; cbn [bind]; [|exact Q]. apply sim_fold; [apply sim_post_instance|exact Q].
Qed.

(** *** The layers *)
Definition row_near (r r' : layer_row) : Prop := fst r = fst r' /\ near (snd r) (snd r').
Lemma sim_gather rows rows' : Forall2 row_near rows rows' -> forall n acc, gather n rows acc = gather n rows' acc.
Proof.
  induction 1 as [|[ns sp] [ns' sp'] l l' (Kn & Ks) F IH]; intros n acc; [reflexivity|]. cbn [fst snd] in *. subst ns'. cbn [gather]. cbv zeta.
  rewrite (near_or sp sp' NAME Ks) by st. apply IH.
Qed.
Lemma near_overload p sp sp' o o' : near sp sp' -> near o o' -> near (overload p o sp) (overload p o' sp').
Proof.
  intros N. unfold overload. assert (Sub : forall a, In a TRACKED -> In a TRACKED) by auto. revert Sub o o'. generalize TRACKED at 1 3 4 as l. 
  induction l as [|a l IH]; intros Sub o o' No; [exact No|]. cbn [fold_left]. apply IH; [intros x Hx; apply Sub; now right|]. cbv zeta.
  assert (Ht : In a TRACKED) by (apply Sub; now left). rewrite (near_or sp sp' SOURCE_LAYER N) by st. destruct (E a) eqn:Ea.
  - pose proof (sources a Ht Ea) as Es. destruct (has_opinion (attr_or_none sp a)), (has_opinion (attr_or_none sp' a)).
    + apply near_set; [congruence|]. apply near_set; [congruence|exact No].
    + apply near_one; [exact Es|]. now apply near_one.
    + apply near_sym, near_one; [exact Es|]. apply near_one; [exact Ea|]. now apply near_sym.
    + exact No.
  - rewrite (near_or sp sp' a N Ea). destruct (has_opinion (attr_or_none sp' a)); [|exact No]. apply near_set; [auto|]. now apply near_set.
Qed.
Lemma near_overloads p sps sps' : Forall2 near sps sps' -> forall first o o', near o o' -> near (overloads p first sps o) (overloads p first sps' o').
Proof.
  induction 1 as [|sp sp' l l' N F IH]; intros first o o' No; [exact No|]. cbn [overloads]. cbv zeta. apply IH. rewrite (near_or sp sp' CHILD_ORDER N) by st.
  set (q := if first then dset CHILD_ORDER (attr_or_none sp' CHILD_ORDER) o else o). set (q' := if first then dset CHILD_ORDER (attr_or_none sp' CHILD_ORDER) o' else o').
  assert (Nq : near q q') by (unfold q, q'; destruct first; [now apply near_set|exact No]). clearbody q q'.
  pose proof (near_overload p sp sp' q q' N Nq) as No2. destruct (str_eqb p WORLD); [exact No2|]. rewrite (near_or _ _ CHILD_ORDER No2) by st. now apply near_set.
Qed.
Lemma near_spec_nodes (S S' : list node) bs : Forall2 near S S' -> Forall2 near (spec_nodes S bs) (spec_nodes S' bs).
Proof.
  intros F. unfold spec_nodes. induction bs as [|[i|p] bs IH]; cbn [flat_map]; [constructor| |exact IH]. apply F2_app; [|exact IH].
  destruct (nth_error S i) as [n|] eqn:En.
  - destruct (F2_nth near _ _ F i n En) as (m & -> & N). now constructor.
  - rewrite (nth_none_len S S' i (F2_length near _ _ F) En). constructor.
Qed.
Lemma sim_pre T T' : Forall2 row_near (concat T) (concat T') -> sim (comp_pre_proxies T) (comp_pre_proxies T').
Proof.
  intros C. assert (S : Forall2 near (map snd (concat T)) (map snd (concat T'))).
  { apply (F2_map row_near near snd snd); [intros x y (_ & N); exact N|exact C]. }
  unfold comp_pre_proxies. cbv zeta. split; [reflexivity|]. split; [exact S|]. cbn [comps]. rewrite (sim_gather _ _ C).
  apply (F2_map eq knear); [|apply F2_refl]. intros kc ? <-. split; [reflexivity|]. split; [reflexivity|]. cbn [snd fst pre_node own].
  apply near_overloads; [apply F2_rev, near_spec_nodes, S|apply near_refl].
Qed.
Definition sim_built (x y : built) : Prop :=
  match x, y with Built H, Built H' => sim H H' | Broken, Broken | Endless, Endless => True | _, _ => False end.
Lemma sim_numbered fuel top_real one_object L L' : Forall2 row_near (numbered L) (numbered L') ->
  sim_built (build_stage fuel top_real one_object L) (build_stage fuel top_real one_object L').
Proof.
  intros F. unfold build_stage. cbv zeta. pose proof (sim_proxies top_real one_object fuel _ _ (sim_pre _ _ F)) as Q.
  destruct (comp_proxies _ _ fuel _) as [X|], (comp_proxies _ _ fuel _) as [Y|]; try contradiction; [|exact I].
  pose proof (sim_post X Y Q) as P. destruct (post_proxy_comp X), (post_proxy_comp Y); try contradiction; [exact P|exact I].
Qed.
Lemma numbered_near L L' : Forall2 (Forall2 row_near) L L' -> Forall2 row_near (numbered L) (numbered L').
Proof.
  intros F. apply F2_concat. apply (F2_map (Forall2 row_near)); [|exact F]. intros l l' Fl. apply sort_rel; [|exact Fl]. intros x y (Kx & _). now rewrite Kx.
Qed.
Lemma sim_build fuel top_real one_object L L' : Forall2 (Forall2 row_near) L L' ->
  sim_built (build_stage fuel top_real one_object L) (build_stage fuel top_real one_object L').
Proof. intros F. now apply sim_numbered, numbered_near. Qed.
End Sim.
