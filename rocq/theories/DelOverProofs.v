(** Proofs about deleting one layer's node at a place where other layers have
    one too. *)

From Coq Require Import String List NArith ZArith Bool Arith Lia Relations.
From Verif Require Import PyStr PyStrFacts NxtPath PathSpec PathProofs Dict DictFacts ListMerger SortRows Layer PyVal MergeProofs NodeIO NodeIOProofs PyClass PyClassSpec PyClassProofs
  Comp CompSpec CompProofs CompProxyProofs CompPostProofs CompLookProofs CompTreeProofs CompOrderProofs CompStageProofs StageView StageViewProofs DirtyStageSpec DirtyStageProofs
  Props_Comp LocalSpec MroRelProofs LocalProofs Props_Local Props_Dirty Live LiveOrder LiveOrderProofs Arcs ArcsProofs AddNode AddNodeSpec AddNodeProofs SetInstSpec SetInstProofs DelNode DelNodeProofs DelOver DelOverSpec.
From Verif Require ChildCacheProofs.
Import ListNotations.

(** *** The run *)
Definition SIX : list pystr := [START_POINT; ENABLED; EXECUTE_IN; INSTANCE_PATH; COMMENT; COMPUTE].
Definition moved (a : pystr) : Prop := a = CHILD_ORDER \/ In a SIX.
Lemma without_cut i is1 is2 rest : ~ In i is1 -> ~ In i is2 -> (forall r, In r rest -> exists q, r = Co q) -> without i (map Sp (is1 ++ i :: is2) ++ rest) = map Sp (is1 ++ is2) ++ rest.
Proof.
  intros N1 N2 Hr. unfold without. assert (G : forall l, ~ In i l -> filter (fun b => negb (ref_eqb b (Sp i))) (map Sp l) = map Sp l).
  { induction l as [|x l IH]; intros N; [reflexivity|]. cbn [map filter ref_eqb]. assert (E : Nat.eqb x i = false) by (apply Nat.eqb_neq; intros ->; apply N; now left). rewrite E. cbn [negb]. rewrite IH; [reflexivity|]. intros Q. apply N. now right. }
  assert (R : filter (fun b => negb (ref_eqb b (Sp i))) rest = rest). { induction rest as [|r l IH]; [reflexivity|]. cbn [filter]. destruct (Hr r (or_introl eq_refl)) as (q & ->). cbn [ref_eqb negb]. rewrite IH; [reflexivity|]. intros r Q. apply Hr. now right. }
  rewrite !map_app, !filter_app. cbn [map filter ref_eqb]. rewrite Nat.eqb_refl. cbn [negb]. now rewrite !G, R.
Qed.

Lemma specs_update arcs Z p : specs (update_inherited arcs Z p) = specs Z.
Proof.
  unfold update_inherited. cbv zeta.
  assert (G1 : forall b act l Y hd, specs (fst (fold_left (update_attr p b act) l (Y, hd))) = specs Y).
  { intros b act. induction l as [|x l IH]; intros Y hd; [reflexivity|]. cbn [fold_left]. unfold update_attr at 2. destruct (str_in x hd); [apply IH|]. cbv zeta. destruct (has_opinion _), act; rewrite IH; reflexivity. }
  assert (G2 : forall l Y hd seen, specs (fst (fst (fold_left (update_base p arcs) l (Y, hd, seen)))) = specs Y).
  { induction l as [|b l IH]; intros Y hd seen; [reflexivity|]. cbn [fold_left]. unfold update_base at 2. specialize (G1 b (has_arc arcs (get_arc Y p b)) (arc_attrs (get_arc Y p b)) Y hd). destruct (fold_left _ (arc_attrs _) (Y, hd)) as (Y1 & hd1). cbn [fst] in G1. rewrite IH. exact G1. }
  match goal with |- context [fold_left (update_base p ?a) ?l (Z, ?h, [])] => specialize (G2 l Z h []); destruct (fold_left (update_base p a) l (Z, h, [])) as ((Y1 & hd1) & seen) end. cbn [fst] in G2. rewrite <- G2.
  match goal with |- specs (fold_left _ ?l _) = _ => generalize l end. clear. intros l. revert Y1. induction l as [|x l IH]; intros Y1; [reflexivity|]. cbn [fold_left]. destruct (str_in x hd1); [apply IH|]. rewrite IH. reflexivity.
Qed.

Section Run.
Variables (H : heap) (home : option nat) (ps : list pystr) (nm : pystr) (i : nat) (real : pystr) (is1 is2 : list nat).
Let cs := ps ++ [nm].
Let p := abs_path cs.
Let pp := abs_path ps.
Let par := if here H pp then [Co pp] else [].
Let js := is1 ++ is2.
Let K := name_out_of_layer H home nm.
Hypothesis So : sound H.
Hypothesis Hc : names cs.
Hypothesis Hh : here H p = true.
Hypothesis quiet_p : dirties H p = [].
Hypothesis linked : ps = [] \/ here H pp = true.
Hypothesis Epp : attr H p PARENT_PATH = VStr pp.
Hypothesis Enm : attr H p NAME = VStr nm.
Hypothesis Ebs : bs H (Co p) = map Sp (is1 ++ i :: is2) ++ par.
Hypothesis N1 : ~ In i is1.
Hypothesis N2 : ~ In i is2.
Hypothesis Js : js <> [].
Hypothesis nobody : forall q, ~ In (Co p) (bs H (Co q)).
Hypothesis Ckp : here H pp = true -> check_path H (Co pp) = pp.
Hypothesis Cks : forall j, In j (is1 ++ i :: is2) -> check_path H (Sp j) = p.
Hypothesis same_place : forall j a, In j js -> In a [PARENT_PATH; NAME] -> own_attr H a (Sp j) = Some (attr H p a).
Hypothesis others : other_specs H real (bs H (Co p)) <> [].
Hypothesis free : inst_of H pp = None \/ inst_of H pp = Some [].

Record reach (Y : heap) : Prop := {
  y_len : length (specs Y) = length (specs H);
  y_spec : forall j a, a <> CHILD_ORDER -> own_attr Y a (Sp j) = own_attr H a (Sp j);
  y_keys : dkeys (comps Y) = dkeys (comps H);
  y_bs : forall q, q <> p -> bs Y (Co q) = bs H (Co q);
  y_bsp : bs Y (Co p) = map Sp js ++ par;
  y_else : forall q a, q <> p -> own_attr Y a (Co q) = own_attr H a (Co q);
  y_own : forall a, ~ moved a -> own_attr Y a (Co p) = own_attr H a (Co p) }.
Hypothesis fits : forall Y, reach Y -> exists l, mro_of Y (Co p) = Some l.

Lemma pp_p : pp <> p. Proof. exact (pp_neq ps nm Hc). Qed.
Lemma pp_or : here H pp = true \/ here H pp = false. Proof. generalize (here H pp). intros [|]; auto. Qed.
Lemma bs_set Y a w q : bs (set_attr Y p a w) (Co q) = bs Y (Co q). Proof. exact (SetInstProofs.bs_set ps nm Y a w q). Qed.
Lemma own_set Y a w q b : own_attr (set_attr Y p a w) b (Co q) = if str_eqb q p && here Y p && str_eqb b a then Some w else own_attr Y b (Co q). Proof. exact (SetInstProofs.own_set ps nm Y a w q b). Qed.
Lemma six_order a : In a SIX -> a <> CHILD_ORDER. Proof. intros Ha ->. apply str_in_In in Ha. vm_compute in Ha. discriminate Ha. Qed.
Lemma parent_arc Y : attr Y p PARENT_PATH = VStr pp -> attr Y p NAME = VStr nm -> check_path Y (Co pp) = pp -> get_arc Y p (Co pp) = Some Parent.
Proof.
  intros E1 E2 E3. unfold get_arc. cbv zeta. change (path_of Y (Co p)) with (join_node_paths (parent_of Y p) (name_of Y p)). unfold parent_of, name_of. rewrite E1, E2, E3. cbn [str_of]. assert (J : join_node_paths pp nm = p) by exact (join_p ps nm Hc). rewrite J, str_eqb_refl.
  assert (E : str_eqb p pp = false) by (apply str_eqb_neq; intros Q; symmetry in Q; now apply pp_p). rewrite E.
  assert (An : is_ancestor p pp = true). { apply is_ancestor_abs; [apply names_comp, Hc|apply names_comp; now apply Forall_app in Hc|]. right. exists [nm]. split; [discriminate|reflexivity]. }
  rewrite An. reflexivity.
Qed.
Section Any.
Variable Y : heap.
Hypothesis R : reach Y.
Lemma y_here q : here Y q = here H q.
Proof. pose proof (y_keys _ R) as Q. destruct (here H q) eqn:E; [|apply not_true_iff_false; apply not_true_iff_false in E]; rewrite here_In in *; now rewrite Q. Qed.
Lemma ref_sp Z j a : ref_attr Z (Sp j) a = match own_attr Z a (Sp j) with Some w => w | None => VNone end.
Proof. unfold ref_attr, own_attr, attr_or_none. now destruct (nth_error (specs Z) j). Qed.
Lemma y_ref j a : a <> CHILD_ORDER -> ref_attr Y (Sp j) a = ref_attr H (Sp j) a.
Proof. intros N. rewrite !ref_sp. now rewrite (y_spec _ R). Qed.
Lemma y_attr q a : q <> p -> a <> CHILD_ORDER -> attr Y q a = attr H q a.
Proof.
  intros N Na. rewrite !attr_own, (y_else _ R q a N), (y_bs _ R q N). destruct (own_attr H a (Co q)); [reflexivity|]. destruct (bs H (Co q)) as [|[j|x] l] eqn:E; try reflexivity. now rewrite (y_spec _ R j a).
Qed.
Lemma moved_set x w : moved x -> reach (set_attr Y p x w).
Proof.
  intros Mx. constructor.
  - exact (y_len _ R).
  - exact (y_spec _ R).
  - rewrite keys_set_attr. exact (y_keys _ R).
  - intros q N. rewrite bs_set. now apply (y_bs _ R).
  - rewrite bs_set. exact (y_bsp _ R).
  - intros q b N. rewrite own_set. destruct (str_eqb q p) eqn:E; [apply str_eqb_eq in E; contradiction|]. now apply (y_else _ R).
  - intros b Nb. rewrite own_set. destruct (str_eqb b x) eqn:E; [apply str_eqb_eq in E as ->; contradiction|]. rewrite andb_false_r. now apply (y_own _ R).
Qed.
Lemma place_kept a : In a [PARENT_PATH; NAME] -> attr Y p a = attr H p a.
Proof.
  intros Ha. assert (Nm : ~ moved a) by (intros [->|M]; [apply str_in_In in Ha; discriminate Ha|]; repeat destruct Ha as [<-|Ha]; try destruct Ha; apply str_in_In in M; discriminate M).
  rewrite (attr_own Y), (y_own _ R a Nm), (y_bsp _ R). destruct (own_attr H a (Co p)) as [w|] eqn:Eo; [rewrite attr_own; now rewrite Eo|].
  assert (Q0 : exists j l, js = j :: l) by (clear - Js; destruct js as [|j l]; [contradiction|eauto]). destruct Q0 as (j & l & El). rewrite El. cbn [map app]. rewrite (y_spec _ R) by (intros ->; apply Nm; now left). rewrite (same_place j a); [reflexivity| |exact Ha]. rewrite El. now left.
Qed.
Lemma Y_place : parent_of Y p = pp /\ name_of Y p = nm.
Proof. unfold parent_of, name_of. rewrite !place_kept by (cbn; tauto). now rewrite Epp, Enm. Qed.
Lemma Y_path : join_node_paths (parent_of Y p) (name_of Y p) = p.
Proof. destruct Y_place as (-> & ->). apply (join_p ps nm Hc). Qed.
Lemma Y_check r : r <> Co p -> check_path Y r = check_path H r.
Proof.
  intros N. unfold check_path. destruct r as [j|q].
  - rewrite !y_ref by discriminate. reflexivity.
  - unfold ref_attr. rewrite !y_attr by (congruence || discriminate). reflexivity.
Qed.
Lemma arc_sp j : In j js -> get_arc Y p (Sp j) = Some Reference.
Proof. intros Hj. unfold get_arc. cbv zeta. change (path_of Y (Co p)) with (join_node_paths (parent_of Y p) (name_of Y p)). rewrite Y_path, Y_check, (Cks j), str_eqb_refl; [reflexivity| |discriminate]. apply in_app_or in Hj. apply in_or_app. destruct Hj; [now left|right; now right]. Qed.
Lemma arc_pp : here H pp = true -> get_arc Y p (Co pp) = Some Parent.
Proof.
  intros Hp. apply parent_arc; [rewrite place_kept by (cbn; tauto); exact Epp|rewrite place_kept by (cbn; tauto); exact Enm|]. rewrite Y_check, (Ckp Hp); [reflexivity|]. intros [= Q]. now apply pp_p.
Qed.
End Any.

(** What a base gives. *)
Definition told (j : nat) (a : pystr) : pyval := let v := ref_attr H (Sp j) a in if has_opinion v then v else default_of a.
Fixpoint picked (l : list nat) (a : pystr) : pyval :=
  match l with
  | [] => default_of a
  | j :: l => let v := ref_attr H (Sp j) a in if has_opinion v then v else picked l a
  end.
Lemma base_run j : forall l, NoDup l -> (forall a, In a l -> In a SIX) -> forall Y hd, reach Y -> exists Z hd', fold_left (update_attr p (Sp j) true) l (Y, hd) = (Z, hd') /\ reach Z /\
  (forall a, own_attr Z a (Co p) = if str_in a l && negb (str_in a hd) then Some (told j a) else own_attr Y a (Co p)) /\
  (forall a, In a hd' <-> In a hd \/ (In a l /\ has_opinion (ref_attr H (Sp j) a) = true)).
Proof.
  induction l as [|x l IH]; intros Nd Sub Y hd R; [exists Y, hd; split; [reflexivity|]; split; [exact R|]; split; [reflexivity|]; intros a; cbn [In]; tauto|].
  inversion Nd as [|? ? Nx Nd']; subst. cbn [fold_left]. unfold update_attr at 2. assert (Pr : forall a, str_in a (x :: l) = str_eqb a x || str_in a l) by reflexivity.
  assert (Xl : str_in x l = false) by (apply not_true_iff_false; intros Q; apply str_in_In in Q; contradiction).
  destruct (str_in x hd) eqn:E.
  - destruct (IH Nd' (fun a Ha => Sub a (or_intror Ha)) Y hd R) as (Z & hd' & F & RZ & O & Q). exists Z, hd'. split; [exact F|]. split; [exact RZ|]. split.
    + intros a. rewrite O, Pr. destruct (str_eqb a x) eqn:Ea; [|reflexivity]. apply str_eqb_eq in Ea as ->. rewrite E. cbn [negb]. now rewrite !andb_false_r.
    + intros a. rewrite Q. cbn [In]. split; [tauto|]. intros [A|([<-|A] & C)]; [tauto| |tauto]. left. now apply str_in_In.
  - cbv zeta. assert (Ev : ref_attr Y (Sp j) x = ref_attr H (Sp j) x) by (apply (y_ref _ R); apply six_order; apply Sub; now left). rewrite Ev.
    assert (Mx : moved x) by (right; apply Sub; now left). assert (Hp : here Y p = true) by (rewrite (y_here _ R); exact Hh).
    assert (S1 : exists hd1, (if has_opinion (ref_attr H (Sp j) x) then (set_attr Y p x (ref_attr H (Sp j) x), hd ++ [x]) else (set_attr Y p x (default_of x), hd)) = (set_attr Y p x (told j x), hd1) /\ (forall a, In a hd1 <-> In a hd \/ (a = x /\ has_opinion (ref_attr H (Sp j) x) = true))).
    { unfold told. destruct (has_opinion (ref_attr H (Sp j) x)); [exists (hd ++ [x])|exists hd]; (split; [reflexivity|]); intros a; rewrite ?in_app_iff; cbn [In]; intuition congruence. }
    destruct S1 as (hd1 & -> & Q1). destruct (IH Nd' (fun a Ha => Sub a (or_intror Ha)) _ hd1 (moved_set Y R x (told j x) Mx)) as (Z & hd' & F & RZ & O & Q). exists Z, hd'. split; [exact F|]. split; [exact RZ|]. split.
    + intros a. rewrite O, Pr, own_set, str_eqb_refl, Hp. cbn [andb]. destruct (str_eqb a x) eqn:Ea.
      * apply str_eqb_eq in Ea as ->. rewrite Xl, E. reflexivity.
      * cbn [orb]. apply str_eqb_neq in Ea. assert (Eh : str_in a hd1 = str_in a hd). { apply Bool.eq_iff_eq_true. rewrite !str_in_In, Q1. intuition congruence. } now rewrite Eh.
    + intros a. rewrite Q, Q1. cbn [In]. split; [intros [[A|(-> & A)]|A]; intuition|]. intros [A|([<-|A] & C)]; intuition.
Qed.
Lemma six_nodup : NoDup SIX. Proof. repeat constructor; vm_compute; intuition discriminate. Qed.
Lemma specs_run : forall l Y hd seen, (forall j, In j l -> In j js) -> reach Y -> exists Z hd', fold_left (update_base p [Reference; Parent; Instance]) (map Sp l) (Y, hd, seen) = (Z, hd', seen ++ map (fun _ => Some Reference) l) /\ reach Z /\
  own_attr Z CHILD_ORDER (Co p) = own_attr Y CHILD_ORDER (Co p) /\
  (forall a, In a SIX -> ~ In a hd -> l <> [] -> own_attr Z a (Co p) = Some (picked l a)) /\
  (forall a, In a SIX -> In a hd -> own_attr Z a (Co p) = own_attr Y a (Co p)) /\
  (forall a, In a SIX -> In a hd' <-> In a hd \/ exists j, In j l /\ has_opinion (ref_attr H (Sp j) a) = true).
Proof.
  induction l as [|j l IH]; intros Y hd seen Hl R.
  { exists Y, hd. cbn. rewrite app_nil_r. split; [reflexivity|]. split; [exact R|]. split; [reflexivity|]. split; [congruence|]. split; [reflexivity|]. intros a _. split; [tauto|]. intros [A|(j & [] & _)]. exact A. }
  cbn [map fold_left]. unfold update_base at 2. rewrite (arc_sp Y R j) by (apply Hl; now left). change (has_arc [Reference; Parent; Instance] (Some Reference)) with true. change (arc_attrs (Some Reference)) with SIX.
  destruct (base_run j SIX six_nodup (fun a Ha => Ha) Y hd R) as (Y1 & hd1 & -> & R1 & O1 & Q1).
  destruct (IH Y1 hd1 (seen ++ [Some Reference]) (fun k Hk => Hl k (or_intror Hk)) R1) as (Z & hd' & F & RZ & Oc & O & Oh & Q). exists Z, hd'. split; [rewrite F; now rewrite <- app_assoc|]. split; [exact RZ|].
  split; [rewrite Oc, O1; reflexivity|]. split; [|split].
  - intros a Ha Nh _. apply str_in_In in Ha as Ha'. assert (Nh' : str_in a hd = false) by (apply not_true_iff_false; intros X; apply str_in_In in X; contradiction). cbn [picked]. cbv zeta. destruct (has_opinion (ref_attr H (Sp j) a)) eqn:Op.
    + rewrite (Oh a Ha); [|apply Q1; right; auto]. rewrite O1, Ha', Nh'. cbn [negb andb]. unfold told. now rewrite Op.
    + assert (N1' : ~ In a hd1) by (rewrite Q1, Op; intros [X|(_ & X)]; [contradiction|discriminate]). assert (L : l = [] \/ l <> []) by (clear; destruct l; [now left|right; discriminate]). destruct L as [L|L].
      * rewrite L in F |- *. cbn [map fold_left] in F. injection F as <- _ _. rewrite O1, Ha', Nh'. cbn [negb andb]. unfold told. now rewrite Op.
      * now apply O.
  - intros a Ha Hi. apply str_in_In in Hi as Hi'. rewrite (Oh a Ha) by (apply Q1; now left). rewrite O1, Hi'. cbn [negb]. now rewrite andb_false_r.
  - intros a Ha. rewrite (Q a Ha), Q1. split.
    + intros [[A|(_ & C)]|(k & Hk & C)]; [now left|right; exists j; split; [now left|exact C]|right; exists k; split; [now right|exact C]].
    + intros [A|(k & [<-|Hk] & C)]; [tauto|left; right; auto|right; exists k; auto].
Qed.
Lemma picked_none l a : (forall j, In j l -> has_opinion (ref_attr H (Sp j) a) = false) -> picked l a = default_of a.
Proof. induction l as [|j l IH]; intros N; [reflexivity|]. cbn [picked]. cbv zeta. rewrite (N j) by now left. apply IH. intros k Hk. apply N. now right. Qed.
Lemma fill_run hd : forall l, (forall a, In a l -> In a SIX) -> forall Z, reach Z ->
  let X := fold_left (fun H a => if str_in a hd then H else set_attr H p a (default_of a)) l Z in
  reach X /\ forall a, own_attr X a (Co p) = if str_in a l && negb (str_in a hd) then Some (default_of a) else own_attr Z a (Co p).
Proof.
  induction l as [|x l IH]; intros Sub Z R; [split; [exact R|reflexivity]|]. cbn [fold_left]. cbv zeta. assert (Pr : forall a, str_in a (x :: l) = str_eqb a x || str_in a l) by reflexivity. destruct (str_in x hd) eqn:E.
  - destruct (IH (fun a Ha => Sub a (or_intror Ha)) Z R) as (RX & O). split; [exact RX|]. intros a. rewrite O, Pr. destruct (str_eqb a x) eqn:Ea; [|reflexivity]. apply str_eqb_eq in Ea as ->. rewrite E. cbn [negb]. now rewrite !andb_false_r.
  - assert (Mx : moved x) by (right; apply Sub; now left). destruct (IH (fun a Ha => Sub a (or_intror Ha)) _ (moved_set Z R x (default_of x) Mx)) as (RX & O). split; [exact RX|]. intros a. rewrite O, Pr, own_set, str_eqb_refl, (y_here Z R p), Hh. cbn [andb]. destruct (str_eqb a x) eqn:Ea.
    + apply str_eqb_eq in Ea as ->. rewrite E. cbn [orb negb andb]. now destruct (str_in x l).
    + reflexivity.
Qed.
Lemma update_run Y : reach Y -> let X := update_inherited [Reference; Parent; Instance] Y p in reach X /\ own_attr X CHILD_ORDER (Co p) = own_attr Y CHILD_ORDER (Co p) /\
  (forall a, In a SIX -> a <> INSTANCE_PATH -> own_attr X a (Co p) = Some (picked js a)) /\
  (own_attr X INSTANCE_PATH (Co p) = Some (picked js INSTANCE_PATH) \/ own_attr X INSTANCE_PATH (Co p) = own_attr Y INSTANCE_PATH (Co p)).
Proof.
  intros R. unfold update_inherited. cbv zeta. change (bases_in (comps Y) (Co p)) with (bs Y (Co p)). rewrite (y_bsp _ R).
  set (hd0 := if truthy (attr Y p PROXY) then [INSTANCE_PATH] else []). assert (H0 : forall a, In a hd0 -> a = INSTANCE_PATH). { intros a. unfold hd0. destruct (truthy _); [|intros []]. intros [<-|[]]. reflexivity. }
  rewrite fold_left_app. destruct (specs_run js Y hd0 [] (fun j Hj => Hj) R) as (Z & hd1 & -> & RZ & Oc & O & Oh & Q). cbn [app].
  set (arcs := [Reference; Parent; Instance]).
  assert (P : exists more, fold_left (update_base p arcs) par (Z, hd1, map (fun _ => Some Reference) js) = (Z, hd1, map (fun _ => Some Reference) js ++ more) /\ existsb (fun y => match y with Some y => arc_eqb Instance y | None => false end) more = false).
  { unfold par. pose proof (arc_pp Z RZ) as AP. destruct pp_or as [Hp|Hp]; rewrite Hp; [|exists []; split; [cbn; now rewrite app_nil_r|reflexivity]]. cbn [fold_left]. unfold update_base. rewrite (AP Hp). cbn [arc_attrs fold_left]. exists [Some Parent]. split; reflexivity. }
  destruct P as (more & -> & Em).
  assert (Se : existsb (fun y => match y with Some y => arc_eqb Instance y | None => false end) (map (fun _ => Some Reference) js ++ more) = false).
  { rewrite existsb_app, Em, orb_false_r. assert (G : forall l : list nat, existsb (fun y => match y with Some y => arc_eqb Instance y | None => false end) (map (fun _ => Some Reference) l) = false) by (induction l as [|x l IH]; [reflexivity|exact IH]). apply G. }
  assert (Sr : existsb (fun y => match y with Some y => arc_eqb Reference y | None => false end) (map (fun _ => Some Reference) js ++ more) = true).
  { assert (Q0 : exists j l, js = j :: l) by (clear - Js; destruct js as [|j l]; [contradiction|eauto]). destruct Q0 as (j & l & ->). reflexivity. }
  assert (Fm : flat_map (fun x => if existsb (fun y => match y with Some y => arc_eqb x y | None => false end) (map (fun _ => Some Reference) js ++ more) then [] else arc_attrs (Some x)) arcs = INSTANCE_ATTRS).
  { unfold arcs. cbn [flat_map]. rewrite Se, Sr. change (arc_attrs (Some Parent)) with (@nil pystr). match goal with |- [] ++ (if ?b then _ else _) ++ _ = _ => destruct b end; reflexivity. }
  rewrite Fm. destruct (fill_run hd1 INSTANCE_ATTRS) with (Z := Z) as (RX & Ox); [intros a Ha; cbn in Ha |- *; tauto|exact RZ|].
  split; [exact RX|]. split; [rewrite Ox, Oc; reflexivity|]. split.
  - intros a Ha Na. rewrite Ox. assert (Nh : ~ In a hd0) by (intros X; apply Na; now apply H0). rewrite (O a Ha Nh Js). destruct (str_in a INSTANCE_ATTRS && negb (str_in a hd1)) eqn:E; [|reflexivity]. apply andb_true_iff in E as (_ & E). apply negb_true_iff in E. f_equal. symmetry. apply picked_none.
    intros j Hj. destruct (has_opinion (ref_attr H (Sp j) a)) eqn:Op; [|reflexivity]. assert (X : In a hd1) by (apply (Q a Ha); right; eauto). apply str_in_In in X. congruence.
  - rewrite Ox. change (str_in INSTANCE_PATH INSTANCE_ATTRS) with false. cbn [andb]. assert (Ha : In INSTANCE_PATH SIX) by (cbn; tauto). destruct (in_dec (list_eq_dec N.eq_dec) INSTANCE_PATH hd0) as [I|I]; [right; now apply Oh|left; now apply O].
Qed.

(** The bases are replaced. *)
Let Z0 := with_comps K (change p (fun c => {| own := own c; cbases := map Sp js ++ par |}) (comps K)).
Lemma K_comps : comps K = comps H. Proof. exact (proj1 (name_out_spec H home nm)). Qed.
Lemma K_spec j a : a <> CHILD_ORDER -> own_attr K a (Sp j) = own_attr H a (Sp j). Proof. exact (proj1 (proj2 (proj2 (proj2 (name_out_spec H home nm)))) j a). Qed.
Lemma Z0_reach : reach Z0.
Proof.
  assert (O : forall q a, own_attr Z0 a (Co q) = own_attr H a (Co q)). { intros q a. unfold Z0. rewrite own_change. unfold own_attr. rewrite K_comps. destruct (str_eqb q p); [|reflexivity]. now destruct (dget q (comps H)). }
  constructor.
  - exact (proj1 (proj2 (proj2 (name_out_spec H home nm)))).
  - intros j a Ha. exact (K_spec j a Ha).
  - unfold Z0. cbn [comps with_comps]. rewrite dkeys_change. now rewrite K_comps.
  - intros q N. unfold Z0. rewrite bs_with. destruct (str_eqb q p) eqn:E; [apply str_eqb_eq in E; contradiction|]. unfold bs. now rewrite K_comps.
  - unfold Z0. rewrite bs_with, str_eqb_refl, K_comps. pose proof Hh as Hp. unfold here, dmem in Hp. destruct (dget p (comps H)); [reflexivity|discriminate].
  - intros q a _. apply O.
  - intros a _. apply O.
Qed.
Lemma still_mro Y x : reach Y -> x <> Co p -> mro_of Y x = mro_of H x.
Proof.
  intros R N. unfold mro_of. assert (L : length (comps Y) = length (comps H)) by (rewrite <- !(map_length fst); exact (f_equal (@length _) (y_keys _ R))). rewrite (y_len _ R), L.
  pose proof (mro_alike ref_eqb ref_eqb_eq (still ps nm) (still_one H ps nm linked Ckp) (bs H) (bs Y) (still_bases H ps nm nobody Y (y_bs _ R)) (S (length (specs H) + length (comps H))) x x (conj eq_refl N)) as M. unfold bs in M.
  destruct (mro ref_eqb (bases_in (comps H)) _ x), (mro ref_eqb (bases_in (comps Y)) _ x); cbn [RO] in M; try contradiction; [|reflexivity]. apply still_eq in M. now subst.
Qed.
Lemma Z0_mros : all_mros Z0 = true.
Proof.
  pose proof Z0_reach as R. apply all_mros_spec. intros q Hq. destruct (str_eqb q p) eqn:E; [apply str_eqb_eq in E as ->|apply str_eqb_neq in E].
  - exact (fits Z0 R).
  - rewrite (still_mro _ _ R) by congruence. apply So. now rewrite <- (y_here _ R q).
Qed.
Let nw := merged_orders K p (map Sp js ++ par).
Lemma par_co r : In r par -> exists q, r = Co q. Proof. assert (G : forall b : bool, In r (if b then [Co pp] else []) -> exists q, r = Co q) by (intros [|]; [intros [<-|[]]; eauto|intros []]). exact (G _). Qed.
Lemma K_arc : here H pp = true -> get_arc K p (Co pp) = Some Parent.
Proof.
  intros Hp. apply parent_arc; [unfold K; rewrite (K_attr H home nm) by discriminate; exact Epp|unfold K; rewrite (K_attr H home nm) by discriminate; exact Enm|].
  rewrite <- (Ckp Hp) at 2. unfold check_path, ref_attr, K. rewrite !(K_attr H home nm) by discriminate. reflexivity.
Qed.
Lemma order_said x : In x nw -> exists j, In j js /\ In x (as_strs (ref_attr K (Sp j) CHILD_ORDER)).
Proof.
  unfold nw, merged_orders. assert (G : forall l acc, In x (fold_left (fun acc b => match get_arc K p b with Some Parent => acc | _ => merged (as_strs (ref_attr K b CHILD_ORDER)) acc end) (map Sp l) acc) -> In x acc \/ exists j, In j l /\ In x (as_strs (ref_attr K (Sp j) CHILD_ORDER))).
  { induction l as [|j l IH]; intros acc Hx; [now left|]. cbn [map fold_left] in Hx. apply IH in Hx as [Hx|(k & Hk & Hx)]; [|right; exists k; split; [now right|exact Hx]].
    assert (Q : In x (merged (as_strs (ref_attr K (Sp j) CHILD_ORDER)) acc) \/ In x acc) by (destruct (get_arc K p (Sp j)) as [[]|]; auto). destruct Q as [Q|Q]; [|now left]. apply merged_in in Q as [Q|Q]; [right; exists j; split; [now left|exact Q]|now left]. }
  rewrite fold_left_app. intros Hx. destruct (G js []) as [[]|Q]; [|exact Q]. revert Hx. unfold par. pose proof K_arc as A. destruct pp_or as [Hp|Hp]; rewrite Hp; [|auto]. cbn [fold_left]. now rewrite (A Hp).
Qed.
Lemma drop_run : exists Z, drop_layer K i p = Ok Z /\ reach Z /\ specs Z = specs K /\
  (own_attr Z CHILD_ORDER (Co p) = Some (VStrs nw) \/ order_of K p = nw /\ own_attr Z CHILD_ORDER (Co p) = own_attr H CHILD_ORDER (Co p)) /\
  own_attr Z INSTANCE_PATH (Co p) = own_attr H INSTANCE_PATH (Co p).
Proof.
  unfold drop_layer. cbv zeta. assert (Eb : bases_in (comps K) (Co p) = map Sp (is1 ++ i :: is2) ++ par) by (rewrite K_comps; exact Ebs). rewrite Eb, (without_cut i is1 is2 par N1 N2 par_co). fold js nw. unfold set_bases. fold Z0. rewrite Z0_mros. cbn [bind].
  pose proof Z0_reach as R. assert (Oc : own_attr Z0 CHILD_ORDER (Co p) = own_attr H CHILD_ORDER (Co p)). { unfold Z0. rewrite own_change, str_eqb_refl, K_comps. unfold own_attr. now destruct (dget p (comps H)). }
  assert (Oi : own_attr Z0 INSTANCE_PATH (Co p) = own_attr H INSTANCE_PATH (Co p)). { unfold Z0. rewrite own_change, str_eqb_refl, K_comps. unfold own_attr. now destruct (dget p (comps H)). }
  destruct (list_eqb (order_of K p) nw) eqn:E.
  - exists Z0. split; [reflexivity|]. split; [exact R|]. split; [reflexivity|]. split; [|exact Oi]. right. split; [now apply list_eqb_eq|exact Oc].
  - assert (D : dirties Z0 p = []). { unfold dirties, Z0 in *. cbn [dirty with_comps]. unfold K. rewrite (proj1 (proj2 (name_out_spec H home nm))). exact quiet_p. } rewrite D. cbn [propagate bind]. exists (set_order Z0 p nw). split; [reflexivity|].
    assert (Mo : moved CHILD_ORDER) by now left. split; [apply (moved_set Z0 R CHILD_ORDER (VStrs nw) Mo)|]. split; [reflexivity|]. unfold set_order. split; [left|]; rewrite own_set, ?str_eqb_refl, (y_here _ R p), Hh; [reflexivity|exact Oi].
Qed.
Lemma run_form : exists X, delete_opinion H home i real p = Some (Ok (X, [p])) /\ reach X /\ specs X = specs K /\
  (own_attr X CHILD_ORDER (Co p) = Some (VStrs nw) \/ order_of K p = nw /\ own_attr X CHILD_ORDER (Co p) = own_attr H CHILD_ORDER (Co p)) /\
  (forall a, In a SIX -> a <> INSTANCE_PATH -> own_attr X a (Co p) = Some (picked js a)) /\
  (own_attr X INSTANCE_PATH (Co p) = Some (picked js INSTANCE_PATH) \/ own_attr X INSTANCE_PATH (Co p) = own_attr H INSTANCE_PATH (Co p)).
Proof.
  destruct drop_run as (Z & Ez & R & Sz & Oz & Ozi). destruct (update_run Z R) as (RX & Oc & O & Oi). exists (update_inherited [Reference; Parent; Instance] Z p). split.
  - unfold delete_opinion, name_of. rewrite Enm. fold K. assert (Kh : here K p = true) by (unfold here, dmem; rewrite K_comps; exact Hh). rewrite Kh. cbn [negb]. cbv zeta.
    assert (Eb : bases_in (comps K) (Co p) = bs H (Co p)) by (rewrite K_comps; reflexivity). rewrite Eb, (K_others H home nm real).
    assert (Par : get_parent_path p = pp) by (apply get_parent_path_abs, names_comp; exact Hc). rewrite Par.
    assert (Nk : has_kid_named K (inst_of K pp) (match attr K p NAME with VStr s => s | _ => [] end) = false). { unfold inst_of. unfold K. rewrite (K_attr H home nm) by discriminate. fold (inst_of H pp). destruct free as [-> | ->]; reflexivity. }
    rewrite Nk, andb_false_r. destruct (other_specs H real (bs H (Co p))) as [|o l]; [contradiction|]. rewrite Ez. cbn [bind].
    assert (D : dirties K p = []) by (unfold dirties, K in *; rewrite (proj1 (proj2 (name_out_spec H home nm))); exact quiet_p). now rewrite D.
  - split; [exact RX|]. split; [|split; [now rewrite Oc|split; [exact O|]]].
    + rewrite <- Sz. apply specs_update.
    + destruct Oi as [Oi|Oi]; [now left|right]. now rewrite Oi.
Qed.
End Run.

(** *** What a composed node has of its own *)
Lemma set_bases_own H p b H' q a : set_bases H p b = Ok H' -> own_attr H' a (Co q) = own_attr H a (Co q).
Proof.
  unfold set_bases. cbv zeta. destruct (all_mros _); [|discriminate]. intros [= <-]. rewrite own_change. destruct (str_eqb q p) eqn:E; [|reflexivity]. apply str_eqb_eq in E as ->. unfold own_attr. now destruct (dget p (comps H)).
Qed.
Lemma post_own F H q a : post_proxy_comp F = Ok H -> untouched a -> own_attr H a (Co q) = own_attr F a (Co q).
Proof.
  unfold post_proxy_comp. cbv zeta. generalize (sort_instances F) as l. intros l E U. destruct (fold_res post_parent l F) as [G|] eqn:E1; [|discriminate]. cbn [bind] in E.
  assert (S1 : forall X p Y, post_parent X p = Ok Y -> own_attr Y a (Co q) = own_attr X a (Co q)).
  { intros X p Y. unfold post_parent. cbv zeta. destruct (is_empty _); [now intros [= <-]|]. destruct (here X _); [apply set_bases_own|now intros [= <-]]. }
  assert (S2 : forall X p Y, post_instance X p = Ok Y -> own_attr Y a (Co q) = own_attr X a (Co q)).
  { intros X p Y. unfold post_instance. destruct (inst_of X p) as [b|]; [|now intros [= <-]]. destruct (_ || _); [now intros [= <-]|].
    assert (G0 : forall l Z, (forall x, In x l -> In x INSTANCE_ATTRS) -> own_attr (fold_left (inherit b p) l Z) a (Co q) = own_attr Z a (Co q)).
    { destruct U as (U1 & U2). induction l0 as [|x l0 IH]; intros Z Hl; [reflexivity|]. cbn [fold_left]. rewrite IH by (intros y Hy; apply Hl; now right). unfold inherit. destruct (has_opinion _); [reflexivity|]. unfold set_attr. rewrite !own_change. destruct (str_eqb q p) eqn:Eq; [|reflexivity]. apply str_eqb_eq in Eq as ->. cbn [comps with_comps]. rewrite dget_change, str_eqb_refl. unfold own_attr. destruct (dget p (comps Z)) as [c|]; [|reflexivity]. cbn [option_map own]. rewrite !dget_dset.
      assert (N1 : str_eqb (x ++ META_SOURCE) a = false) by (apply str_eqb_neq; apply U2; apply Hl; now left). assert (N2 : str_eqb x a = false) by (apply str_eqb_neq; intros ->; apply U1; apply Hl; now left). now rewrite N1, N2. }
    unfold safe_add. cbv zeta. destruct (isin _ _ _); [intros [= <-]; exact (G0 INSTANCE_ATTRS X (fun x h => h))|]. intros Es. rewrite (set_bases_own _ _ _ _ q a Es). exact (G0 INSTANCE_ATTRS X (fun x h => h)). }
  assert (R : forall f : heap -> pystr -> res heap, (forall X p Y, f X p = Ok Y -> own_attr Y a (Co q) = own_attr X a (Co q)) -> forall l X Y, fold_res f l X = Ok Y -> own_attr Y a (Co q) = own_attr X a (Co q)).
  { clear. intros f Hf. induction l as [|x l IH]; intros X Y E; [now injection E as <-|]. cbn [fold_res] in E. destruct (f X x) as [Z|] eqn:Ez; [|discriminate]. cbn [bind] in E. rewrite (IH _ _ E). now apply (Hf _ x). }
  rewrite (R _ S2 _ _ _ E). exact (R _ S1 _ _ _ E1).
Qed.
Lemma pre_own tables p a : In a ALL_INTERNAL -> ~ In a TRACKED -> a <> CHILD_ORDER -> a <> NAME -> own_attr (comp_pre_proxies tables) a (Co p) = None.
Proof.
  intros Hi Ht Hc Hn. unfold own_attr. rewrite pre_get. destruct (stack p _) as [|sp l]; [reflexivity|]. cbn [own]. rewrite overloads_get by exact Hc.
  assert (G : forall sps o, dget a (fold_left (overload p) sps o) = dget a o).
  { induction sps as [|x sps IH]; intros o; cbn [fold_left]; [reflexivity|]. rewrite IH, overload_plain by (now apply plain_internal). apply str_in_false in Ht. now rewrite Ht. }
  rewrite G. cbn [dget]. assert (En : str_eqb NAME a = false) by (apply str_eqb_neq; congruence). now rewrite En.
Qed.
Lemma composed_own layers H1 F H cs a : well_formed layers -> parts layers H1 F H -> names cs -> opinions cs layers <> [] -> In a [PARENT_PATH; SOURCE_LAYER; PROXY] -> own_attr H a (Co (abs_path cs)) = None.
Proof.
  intros wf P Hc Ho Ha. assert (U : untouched a) by (cbn [In] in Ha; decompose [or] Ha; subst; try contradiction; (split; [intros E; repeat destruct E as [E|E]; discriminate E || destruct E|]); intros b [<-|[<-|[<-|[]]]]; vm_compute; discriminate).
  rewrite (post_own _ _ _ _ (p_post _ _ _ _ P) U). pose proof (proj2 (start_here layers wf cs Hc) Ho) as Hh. pose proof (fin_layer layers H1 F H wf P cs Hc Ho) as Hf.
  unfold own_attr. rewrite (fin_get layers H1 F H P _ Hf). unfold here, dmem in Hh. destruct (dget (abs_path cs) (comps (comp_pre_proxies (sorted_layers layers)))) as [c|] eqn:E; [|discriminate].
  destruct (k_nodes _ _ (proj1 (p_later _ _ _ _ P)) _ _ E) as (c' & E' & _ & O). rewrite E'. rewrite O by (intros [Q|[Q|Q]]; subst; revert Ha; clear; intros Ha; cbn [In] in Ha; decompose [or] Ha; try discriminate; auto).
  pose proof (pre_own (sorted_layers layers) (abs_path cs) a) as Q. unfold own_attr in Q. rewrite E in Q. apply Q; cbn [In] in Ha; decompose [or] Ha; subst; try contradiction; try (apply str_in_In; reflexivity); try (apply str_in_false; reflexivity); discriminate.
Qed.
Lemma keep_in k x l : x <> k -> In x l -> In x (try_remove k l).
Proof.
  intros N Hx. unfold try_remove. destruct (py_remove k l) as [l'|] eqn:E; [|exact Hx]. revert l' E Hx. induction l as [|y l IH]; intros l' E Hx; [destruct Hx|]. cbn [py_remove] in E.
  destruct (str_eqb y k) eqn:Q; [apply str_eqb_eq in Q; injection E as <-; destruct Hx; [congruence|assumption]|]. destruct (py_remove k l) as [t|]; [|discriminate]. injection E as <-. destruct Hx as [->|Hx]; [now left|right; now apply IH].
Qed.
(** A composed node has an order of children of its own. *)
Definition held (A B : heap) : Prop := forall q, own_attr A CHILD_ORDER (Co q) <> None -> own_attr B CHILD_ORDER (Co q) <> None.
Lemma held_refl A : held A A. Proof. intros q E. exact E. Qed.
Lemma held_trans A B C : held A B -> held B C -> held A C. Proof. intros H1 H2 q E. apply H2, H1, E. Qed.
Lemma held_set X p a v : held X (set_attr X p a v).
Proof.
  intros q E. unfold set_attr. rewrite own_change. destruct (str_eqb q p) eqn:Q; [|exact E]. unfold own_attr in E. destruct (dget q (comps X)) as [c|]; [|contradiction]. cbn [own]. rewrite dget_dset. now destruct (str_eqb a CHILD_ORDER).
Qed.
Lemma held_order X p o : held X (set_order X p o). Proof. apply held_set. Qed.
Lemma held_fold {A T} (f : A -> T -> A) (g : A -> heap) l : (forall x t, held (g x) (g (f x t))) -> forall x, held (g x) (g (fold_left f l x)).
Proof. intros S. induction l as [|t l IH]; intros x; [apply held_refl|]. cbn [fold_left]. exact (held_trans _ _ _ (S x t) (IH _)). Qed.
Lemma held_discover one X p : held X (fst (discover one X p)).
Proof.
  unfold discover. destruct (possible X p) as [real|]; [|apply held_refl]. cbv zeta. apply (held_trans _ (set_attr X p INSTANCE_PATH (VStr real))); [apply held_set|]. generalize (set_attr X p INSTANCE_PATH (VStr real)) as Y. intros Y.
  apply (held_trans _ (concern one Y real p)); [exact (held_refl Y)|]. generalize (concern one Y real p) as Z. clear. intros Z.
  set (W := if here Z real then _ else Z). assert (HW : held Z W) by (unfold W; destruct (here Z real); [apply held_order|apply held_refl]). clearbody W. apply (held_trans _ W _ HW).
  pose proof (held_fold (discover_child p) fst (kid_paths W real)) as G. specialize (fun S => G S (W, [])). cbn [fst] in G.
  destruct (fold_left (discover_child p) (kid_paths W real) (W, [])) as (V & td). cbn [fst] in *. apply G. clear. intros (Y & td) s. unfold discover_child. cbv zeta. cbn [fst].
  destruct (here Y _); [|apply held_refl]. destruct (attr Y _ INSTANCE_PATH) as [| | |[|]| | | |]; cbn [fst]; try apply held_set; apply held_refl.
Qed.
Lemma held_add X sp src tgt force : held X (add_proxy X sp src tgt force).
Proof.
  unfold add_proxy. cbv zeta. set (Y := {| specs := _; comps := _; dirty := _ |}). apply (held_trans _ Y); [|destruct (_ && _); [apply held_order|apply held_refl]].
  intros q. unfold own_attr, Y. cbn [comps]. rewrite dget_app. now destruct (dget q (comps X)).
Qed.
Lemma held_create top one X src tgt : held X (fst (create_instance top one X src tgt)).
Proof.
  unfold create_instance. cbv zeta. cbn [fst]. match goal with |- held X (concern _ ?Z _ _) => apply (held_trans _ Z); [|exact (held_refl Z)] end.
  match goal with |- held X (if here ?Y tgt then _ else _) => apply (held_trans _ Y) end.
  - destruct (here X src); [apply held_refl|]. unfold name_missing. cbv zeta. destruct (_ && _); [apply held_order|apply held_refl].
  - destruct (here _ tgt); [|apply held_add]. eapply held_trans; apply held_set.
Qed.
Lemma held_loop top one fuel : forall X imps Y imps', proxy_loop top one fuel X imps = Some (Y, imps') -> held X Y.
Proof.
  induction fuel as [|f IH]; intros X imps Y imps' E; [discriminate|]. cbn [proxy_loop] in E. destruct (discover_all one X (deep_sort_instances X)) as (Z & td) eqn:Ed. destruct (create_all top one Z td) as (W & more) eqn:Ec.
  assert (Q1 : held X Z). { pose proof (held_fold (fun acc p => let '(H, to_do) := acc in let '(H, more) := discover one H p in (H, to_do ++ more)) fst (deep_sort_instances X)) as G. specialize (fun S => G S (X, [])). unfold discover_all in Ed. cbn [fst] in G. rewrite Ed in G. apply G. clear. intros (H & td) p. pose proof (held_discover one H p) as K. destruct (discover one H p) as (H' & m). exact K. }
  assert (Q2 : held Z W). { unfold create_all in Ec. match type of Ec with fold_left ?f _ _ = _ => pose proof (held_fold f fst td) as G end. specialize (fun S => G S (Z, [])). cbn [fst] in G. rewrite Ec in G. apply G. clear. intros (H & im) [[k s] t]. pose proof (held_create top one H s t) as K. destruct (create_instance top one H s t) as (H' & m). exact K. }
  apply (held_trans _ Z _ Q1), (held_trans _ W _ Q2). destruct td; [injection E as <- _; apply held_refl|exact (IH _ _ _ _ E)].
Qed.
Lemma order_own layers H cs : well_formed layers -> stage_of layers H -> names cs -> opinions cs layers <> [] -> own_attr H CHILD_ORDER (Co (abs_path cs)) <> None.
Proof.
  intros wf St Hc Ho. destruct St as (fuel & top & one & B). unfold build_stage in B. cbn zeta in B. change (map (sort_multidimensional_list (fun r => length (fst r))) layers) with (sorted_layers layers) in B.
  destruct (comp_proxies top one fuel (comp_pre_proxies (sorted_layers layers))) as [F|] eqn:E; [|discriminate]. destruct (post_proxy_comp F) as [H'|] eqn:Ep; [|discriminate]. injection B as ->.
  assert (U : untouched CHILD_ORDER) by (split; [intros Q; repeat destruct Q as [Q|Q]; discriminate Q || destruct Q|intros b [<-|[<-|[<-|[]]]]; vm_compute; discriminate]). rewrite (post_own _ _ _ _ Ep U).
  pose proof (good_pre (sorted_layers layers)) as G0. destruct (comp_proxies_keeps top one _ fuel _ _ G0 E) as (G & (_ & K)). pose proof (proj2 (start_here layers wf cs Hc) Ho) as Hh. set (p := abs_path cs) in *.
  unfold comp_proxies in E. destruct (proxy_loop top one fuel (comp_pre_proxies (sorted_layers layers)) []) as [[H1 imps]|] eqn:E1; [|discriminate]. cbn in E. injection E as E.
  destruct (loop_inv _ _ top one fuel _ _ _ _ (start_inv layers wf) E1) as (I & _). 
  unfold here, dmem in Hh. destruct (dget p (comps (comp_pre_proxies (sorted_layers layers)))) as [c|] eqn:Ec; [|discriminate]. destruct (K _ _ Ec) as (c' & Ec' & _).
  assert (Es : dget p (comps H1) = Some c') by (subst F; cbn in Ec'; eapply drop_sub; [|exact Ec']; apply (i_good _ _ _ I)).
  pose proof (held_loop _ _ _ _ _ _ _ E1 p) as L. unfold own_attr in L |- *. rewrite Ec' . rewrite Es, Ec in L. apply L. clear - Ec. rewrite pre_get in Ec. destruct (stack p _) as [|sp l]; [discriminate|]. injection Ec as <-. cbn [own].
  assert (Q : forall sps first o, (first = false -> dget CHILD_ORDER o <> None) -> (sps <> [] \/ first = false) -> dget CHILD_ORDER (overloads p first sps o) <> None).
  { induction sps as [|x sps IH]; intros first o Ho Hs; cbn [overloads]; [destruct Hs; [contradiction|auto]|]. apply IH; [|now right]. intros _.
    assert (O : forall n, dget CHILD_ORDER (overload p n x) = dget CHILD_ORDER n) by (intros n; rewrite overload_plain by (apply plain_internal; apply str_in_In; reflexivity); reflexivity).
    destruct (str_eqb p WORLD); [rewrite O|rewrite dget_dset, str_eqb_refl; discriminate]. destruct first; [rewrite dget_dset, str_eqb_refl; discriminate|auto]. }
  apply Q; [discriminate|left]. intros R. cbn [rev] in R. now apply app_eq_nil in R as (_ & R).
Qed.

(** *** The two stages *)
Section Stages.
Variables (layers layers' : list (list layer_row)) (H H' : heap) (ps : list pystr) (nm : pystr) (d : data) (st wk : list data).
Let cs := ps ++ [nm].
Let p := abs_path cs.
Hypotheses (Rg : regular layers) (Rg' : regular layers') (B : stage_of layers H) (B' : stage_of layers' H').
Hypothesis Hc : names cs.
Hypothesis Eo : opinions cs layers = st ++ d :: wk.
Hypothesis Eo' : opinions cs layers' = st ++ wk.
Hypothesis more : st ++ wk <> [].
Hypothesis Else : forall es, names es -> es <> cs -> said_alike layers layers' es.
Hypothesis Sil : silent INSTANCE_PATH (opinions cs layers).
Hypothesis leaf : forall xs, names xs -> xs <> [] -> ~ in_stage H (cs ++ xs).
Hypothesis unseen : forall es, ~ points H es cs.
Let wf := r_fits layers Rg.
Let Gl := r_gapless layers Rg.
Let Pu := r_pure layers Rg.
Let wf' := r_fits layers' Rg'.
Let Gl' := r_gapless layers' Rg'.
Let Pu' := r_pure layers' Rg'.

Lemma Ho : opinions cs layers <> []. Proof. rewrite Eo. destruct st; discriminate. Qed.
Lemma Ho' : opinions cs layers' <> []. Proof. rewrite Eo'. exact more. Qed.
Lemma first_new : exists m l, opinions cs layers' = m :: l.
Proof. generalize Ho'. generalize (opinions cs layers'). intros [|m l] N; [contradiction|eauto]. Qed.
Lemma Sil' : silent INSTANCE_PATH (opinions cs layers').
Proof. intros m Hm. apply Sil. rewrite Eo' in Hm. rewrite Eo. apply in_app_or in Hm. apply in_or_app. destruct Hm; [now left|right; now right]. Qed.
Lemma cs_here : in_stage H cs. Proof. exact (C32_conserved layers H wf B cs Hc Ho). Qed.
Lemma cs_here' : in_stage H' cs. Proof. exact (C32_conserved layers' H' wf' B' cs Hc Ho'). Qed.
Lemma nil_cs : [] <> cs. Proof. unfold cs. destruct ps; discriminate. Qed.
Lemma ps_cs : ps <> cs. Proof. unfold cs. intros E. apply (f_equal (@length _)) in E. rewrite app_length in E. cbn in E. lia. Qed.
Lemma Hps : names ps. Proof. now apply names_snoc in Hc. Qed.
Lemma Hnm : plain_name nm. Proof. now apply names_snoc in Hc. Qed.
Lemma worlds : opinions [] layers = [] <-> opinions [] layers' = [].
Proof. exact (alike_nil _ _ (Else [] (Forall_nil _) nil_cs)). Qed.
Lemma no_source ts : ~ instances H cs ts.
Proof.
  intros (Ht & Htn & _ & E). apply (C34_instance_path layers H wf B cs ts Hc (one_pure layers Rg cs Hc) Ho Ht Htn) in E as (m & (a & b & E & S & _) & _). apply (Sil m); [|exact S]. rewrite E. apply in_or_app. right. now left.
Qed.
Lemma no_source_now ts : ~ instances H' cs ts.
Proof.
  intros (Ht & Htn & _ & E). apply (C34_instance_path layers' H' wf' B' cs ts Hc (one_pure layers' Rg' cs Hc) Ho' Ht Htn) in E as (m & (a & b & E & S & _) & _). apply (Sil' m); [|exact S]. rewrite E. apply in_or_app. right. now left.
Qed.

(** Every other node of the new stage was there, instancing the same. *)
Lemma into : forall k es, tall H' (Co (abs_path es)) < k -> names es -> in_stage H' es -> es <> cs ->
  in_stage H es /\ forall ts, names ts -> ts <> [] -> reads H' es INSTANCE_PATH = Some (VStr (abs_path ts)) -> reads H es INSTANCE_PATH = Some (VStr (abs_path ts)).
Proof.
  induction k as [|k IH]; intros es Hk He Hh Ne; [lia|]. pose proof (Else es He Ne) as Al. destruct (opinions es layers') as [|m l] eqn:Em.
  - destruct (removelast_snoc' es) as [->|(qs & nm' & ->)]; [exfalso; now apply (proj1 (one_root layers' H' Rg' B')) in Hh|].
    destruct (one_proxy layers' H' Rg' B' qs nm' He Hh Em) as (ts & Hq & K & I & I' & _). pose proof (parent_names H' _ _ He K) as (Hqn & _).
    assert (T1 : tall H' (Co (abs_path qs)) < k) by (pose proof (one_parent_tall layers' H' Rg' B' _ _ He Hh K); lia). pose proof (one_source_tall layers' H' Rg' B' _ _ Hq I) as T2. pose proof (one_source_tall layers' H' Rg' B' _ _ Hh I') as T3.
    pose proof I as (Ht & Htn & Hth & Et). pose proof I' as (Ht' & _ & Hth' & Et').
    assert (Hx : names [nm']) by (unfold names in *; apply Forall_app in He as (_ & He'); exact He').
    assert (Nq : qs <> cs) by (intros Eq; rewrite Eq in I; exact (no_source_now ts I)).
    destruct (IH qs T1 Hqn Hq Nq) as (Q1 & Q2). specialize (Q2 ts Ht Htn Et).
    assert (Nt : ts <> cs) by (intros ->; apply (unseen qs); repeat split; auto). destruct (IH ts ltac:(lia) Ht Hth Nt) as (R1 & _).
    assert (I0 : instances H qs ts) by (repeat split; auto).
    assert (S1 : in_stage H (ts ++ [nm'])). { destruct (list_eq_dec (list_eq_dec N.eq_dec) (ts ++ [nm']) cs) as [E|N]; [rewrite E; exact cs_here|]. now apply (IH (ts ++ [nm']) ltac:(lia) Ht' Hth' N). }
    destruct (C43_mirror layers H wf B Gl Pu qs ts Hqn Q1 I0 (one_not_above layers H Rg B qs ts Hqn Q1 I0) [nm'] Hx) as (M1 & M2). apply M1 in S1. split; [exact S1|].
    intros us Hu Hun Eu. rewrite Et' in Eu. injection Eu as Eu. rewrite <- Eu. apply M2, S1.
  - assert (Hoe' : opinions es layers' <> []) by (rewrite Em; discriminate). assert (Hoe : opinions es layers <> []) by (intros Q; apply Hoe'; now apply (alike_nil _ _ Al)). split; [now apply (C32_conserved layers H wf B)|]. intros ts Ht Htn E.
    apply (C34_instance_path layers' H' wf' B' es ts He (one_pure layers' Rg' es He) Hoe' Ht Htn) in E. apply (C34_instance_path layers H wf B es ts He (one_pure layers Rg es He) Hoe Ht Htn).
    now apply (alike_source layers' layers es ts (said_sym _ _ _ Al)).
Qed.
Lemma was_there es : names es -> in_stage H' es -> in_stage H es.
Proof.
  intros He Hh. destruct (list_eq_dec (list_eq_dec N.eq_dec) es cs) as [->|Ne]; [exact cs_here|]. exact (proj1 (into (S (tall H' (Co (abs_path es)))) es (Nat.lt_succ_diag_r _) He Hh Ne)).
Qed.
Lemma child_not es : names es -> in_stage H es -> ~ parent H es cs.
Proof.
  intros He Hh (k & K1 & K2 & _). rewrite <- (firstn_skipn k es) in Hh. rewrite <- K2 in Hh. revert Hh. apply leaf.
  - unfold names in *. rewrite <- (firstn_skipn k es) in He. now apply Forall_app in He.
  - intros Q. apply (f_equal (@length _)) in Q. rewrite skipn_length in Q. cbn in Q. lia.
Qed.
Lemma no_draw es fs : draws H es fs -> names es -> in_stage H es -> es <> cs -> fs <> cs.
Proof.
  induction 1 as [es|es qs fs K D IH|es ts fs I D IH]; intros He Hh Ne; [exact Ne| |].
  - destruct (parent_names H es qs He K) as (Hq & Hqh). apply IH; auto. intros ->. exact (child_not es He Hh K).
  - pose proof I as (Ht & _ & Hth & E). apply IH; auto. intros ->. apply (unseen es). repeat split; auto.
Qed.
Lemma else_al es : names es -> in_stage H es -> es <> cs -> forall fs, draws H es fs -> said_alike layers layers' fs.
Proof. intros He Hh Ne fs D. apply Else; [now apply (draws_names H es fs D)|]. exact (no_draw es fs D He Hh Ne). Qed.
Lemma else_new es : names es -> in_stage H es -> es <> cs -> forall fs ts, draws H es fs -> names ts -> ts <> [] -> reads H fs INSTANCE_PATH = Some (VStr (abs_path ts)) -> in_stage H' ts -> in_stage H ts.
Proof. intros He Hh Ne fs ts _ Ht _ _ Hth. now apply was_there. Qed.
Lemma else_same es fs : names es -> in_stage H es -> es <> cs -> draws H es fs -> same layers H H' fs.
Proof. intros He Hh Ne D. exact (all_same layers layers' H H' Rg Rg' B B' worlds es He Hh (else_al es He Hh Ne) (else_new es He Hh Ne) fs D). Qed.
Lemma is_there es : names es -> in_stage H es -> in_stage H' es.
Proof. intros He Hh. destruct (list_eq_dec (list_eq_dec N.eq_dec) es cs) as [->|Ne]; [exact cs_here'|]. exact (LocalProofs.s_here _ _ _ _ (else_same es es He Hh Ne (draws_self H es))). Qed.
Lemma else_reads es a : names es -> in_stage H es -> es <> cs -> asked a -> reads H' es a = reads H es a.
Proof.
  intros He Hh Ne Ha. destruct (C61_local layers layers' H H' es Rg Rg' B B' He Hh worlds (else_al es He Hh Ne) (else_new es He Hh Ne)) as (_ & _ & _ & C & _). now apply C.
Qed.
Lemma quiet_p : dirties H p = [].
Proof. apply (no_reliers layers H Rg B cs Hc); [intros E; now apply nil_cs|exact unseen]. Qed.
(** The parent instances nothing. *)
Hypothesis apart_world : reads H ps INSTANCE_PATH <> Some (VStr (lit "/")).
Lemma free_parent : inst_of H (abs_path ps) = None \/ inst_of H (abs_path ps) = Some [].
Proof.
  destruct (stage_parts layers H wf B) as (H1 & F & P). destruct (inst_of H (abs_path ps)) as [s|] eqn:Ei; [|now left]. right. f_equal. pose proof Ei as Ei0. unfold inst_of in Ei0. rewrite (fin_untouched layers H1 F H P _ _ untouched_inst) in Ei0. fold (inst_of F (abs_path ps)) in Ei0.
  destruct (t_inst _ (fin_tree layers H1 F H P) _ _ Ei0) as [->|(rs & Hr & ->)]; [reflexivity|exfalso].
  assert (W : ps <> []). { intros E. rewrite E in Ei0. change (abs_path []) with WORLD in Ei0. rewrite (t_world _ (fin_tree layers H1 F H P)) in Ei0. discriminate. }
  destruct (Gl ps nm Hc Ho) as [E|Hop]; [contradiction|]. pose proof (C32_conserved layers H wf B ps Hps Hop) as Hp.
  assert (Rd : reads H ps INSTANCE_PATH = Some (VStr (abs_path rs))). { rewrite (view_internal layers H1 F H wf P ps _ Hp inst_key). f_equal. unfold inst_of in Ei. destruct (attr H (abs_path ps) INSTANCE_PATH); try discriminate Ei. cbn [as_str] in Ei. congruence. }
  destruct rs as [|x l] eqn:El; [apply apart_world; exact Rd|]. rewrite <- El in *. assert (Hrn : rs <> []) by (rewrite El; discriminate).
  apply (C34_instance_path layers H wf B ps rs Hps (one_pure layers Rg ps Hps) Hop Hr Hrn) in Rd. apply (r_pure layers Rg ps [nm] rs Hc) in Rd; auto; [discriminate|exact Ho].
Qed.


(** *** The stage after the run and a new composition *)
Hypothesis World : forall m, In m (opinions [] layers) -> value m NAME = VStr (lit "/").
Hypothesis Pl : plainly_said (st ++ wk).
Variables (i : nat) (real : pystr) (home : option nat).
Hypothesis Ereal : value d SOURCE_LAYER = VStr real.
Hypothesis Eoth : forall m, In m (st ++ wk) -> exists s, value m SOURCE_LAYER = VStr s /\ s <> real.
Hypothesis Enth : nth_error (bases_in (comps H) (Co p)) (length st) = Some (Sp i).
Variables H1 F H1' F' : heap.
Hypotheses (P : parts layers H1 F H) (P' : parts layers' H1' F' H').
Let par := if here H (abs_path ps) then [Co (abs_path ps)] else [].

Lemma cut_eq {A} (a b c e : list A) : length a = length b -> a ++ c = b ++ e -> a = b /\ c = e.
Proof. revert b. induction a as [|x a IH]; intros [|y b] L E; try discriminate; [auto|]. cbn [app] in E. injection E as -> E. injection L as L. destruct (IH b L E) as (-> & ->). auto. Qed.
Lemma b_up : ps = [] \/ in_stage H ps. Proof. exact (C43_parent_there layers H wf B (r_gapless _ Rg) ps nm Hc cs_here). Qed.
Lemma b_layers : exists is1 is2, layers_of F p = map Sp (is1 ++ i :: is2) /\ bs H (Co p) = map Sp (is1 ++ i :: is2) ++ par /\
  (forall j, In j (is1 ++ i :: is2) -> j < length (specs H)) /\ spec_nodes (specs H) (map Sp (is1 ++ i :: is2)) = opinions cs layers /\
  spec_nodes (specs H) (map Sp (is1 ++ is2)) = st ++ wk /\ NoDup (is1 ++ i :: is2).
Proof.
  destruct (fin_layers layers H1 F H wf P cs Hc Ho) as (is & El & L & Sn).
  destruct (bases_form layers H H1 F Rg B P cs Hc cs_here) as (rest & Eb & Rs). fold p in El, Eb. rewrite El in Eb.
  assert (Er : rest = par).
  { unfold par. destruct Rs as [N _|ds K _|ts _ I|ds ts _ I|ds ts _ I]; try (now destruct (no_source ts I)).
    - assert (Q : here H (abs_path ps) = false) by (apply not_true_iff_false; intros Q; apply (N ps); apply (one_parent layers H Rg B ps nm ps Hc cs_here); auto). now rewrite Q.
    - apply (one_parent layers H Rg B ps nm ds Hc cs_here) in K as (-> & K). unfold in_stage in K. now rewrite K. }
  subst rest.
  assert (Len : length is = length (st ++ d :: wk)) by (rewrite <- Eo, <- Sn; symmetry; now apply spec_nodes_length).
  assert (Q : nth_error is (length st) = Some i).
  { change (bases_in (comps H) (Co p)) with (bs H (Co p)) in Enth. rewrite Eb in Enth. rewrite nth_error_app1 in Enth by (rewrite map_length, Len, app_length; cbn; lia). rewrite nth_error_map in Enth. destruct (nth_error is (length st)) as [j|]; [|discriminate]. now injection Enth as ->. }
  pose proof Q as Q2. apply nth_error_split in Q2 as (is1 & is2 & E & Ln). subst is. exists is1, is2. split; [exact El|]. split; [exact Eb|]. split; [exact L|]. split; [exact Sn|]. split.
  - rewrite Eo in Sn. unfold spec_nodes in *. rewrite map_app, flat_map_app in *. cbn [map flat_map] in Sn. assert (Ei : nth_error (specs H) i = Some d). { rewrite (nth_spec (specs H) (is1 ++ i :: is2) (st ++ d :: wk) L) with (k := length st); [rewrite nth_error_app2 by lia; now rewrite Nat.sub_diag| |exact Q]. unfold spec_nodes. rewrite map_app, flat_map_app. exact Sn. }
    rewrite Ei in Sn. cbn [app] in Sn. assert (Ll : length (spec_nodes (specs H) (map Sp is1)) = length st) by (rewrite <- Ln; apply spec_nodes_length; intros j Hj; apply L; apply in_or_app; now left). destruct (cut_eq _ _ _ _ Ll Sn) as (E1 & E2). injection E2 as E2. unfold spec_nodes in E1. now rewrite E1, E2.
  - destruct (flat_bases _ F (p_good _ _ _ _ P) p) as (is & El2 & Nd & _). change (bs F (Co p)) with (layers_of F p) in El2. rewrite El in El2. assert (G : forall l m, map Sp l = map Sp m -> l = m). { clear. induction l as [|x l IH]; intros [|y m] E; try discriminate; [reflexivity|]. cbn [map] in E. injection E as -> E. now rewrite (IH m E). }
    apply G in El2. rewrite El2. exact Nd.
Qed.
Lemma b_owned q j : In (Sp j) (bs H (Co q)) -> In (Sp j) (layers_of F q).
Proof. intros Hj. destruct (look_owned _ F H (p_good _ _ _ _ P) (p_post _ _ _ _ P)) as (O1 & _). destruct (O1 q) as (rest & E & Hrest). rewrite E in Hj. apply in_app_or in Hj as [Hj|Hj]; [exact Hj|]. destruct (Hrest _ Hj) as (x & Q). discriminate. Qed.
Lemma b_nobody q : ~ In (Co p) (bs H (Co q)).
Proof.
  intros Hi. destruct (here H q) eqn:Hq; [|unfold bs, bases_in in Hi; unfold here, dmem in Hq; destruct (dget q (comps H)); [discriminate|destruct Hi]].
  destruct (fin_path layers H1 F H P q Hq) as (es & He & ->). destruct (view_up_co layers H1 F H wf P es p He Hq Hi) as (ds & E & [K|I]).
  - destruct (parent_names H es ds He K) as (Hd & _). apply path_inj in E; [|exact Hc|exact Hd]. subst ds. exact (child_not es He Hq K).
  - pose proof I as (Hd & _ & _ & E2). apply path_inj in E; [|exact Hc|exact Hd]. subst ds. apply (unseen es). repeat split; auto.
Qed.
Lemma b_reach q es : q = Co (abs_path es) -> names es -> in_stage H es -> es <> cs -> ~ up H q (Co p).
Proof. intros -> He Hh Ne U. destruct (up_draws layers H1 F H wf P _ _ U es p eq_refl eq_refl He Hh) as (fs & E & D). destruct (draws_names H _ _ D He Hh) as (Hf & _). apply path_inj in E; [|exact Hc|exact Hf]. subst fs. exact (no_draw es cs D He Hh Ne eq_refl). Qed.
Lemma b_par_up : here H' (abs_path ps) = here H (abs_path ps).
Proof.
  destruct (here H (abs_path ps)) eqn:E; [exact (is_there ps Hps E)|]. apply not_true_iff_false. intros Q. apply (was_there ps Hps) in Q. unfold in_stage in Q. congruence.
Qed.

Section Got.
Variables (is1 is2 : list nat).
Let is := is1 ++ i :: is2.
Let js := is1 ++ is2.
Hypothesis El : layers_of F p = map Sp is.
Hypothesis Eb : bs H (Co p) = map Sp is ++ par.
Hypothesis L : forall j, In j is -> j < length (specs H).
Hypothesis Sn : spec_nodes (specs H) (map Sp is) = opinions cs layers.
Hypothesis Sj : spec_nodes (specs H) (map Sp js) = st ++ wk.
Hypothesis Nd : NoDup is.
Lemma js_is j : In j js -> In j is. Proof. unfold js, is. rewrite !in_app_iff. cbn [In]. tauto. Qed.
Lemma Lj j : In j js -> j < length (specs H). Proof. intros Hj. apply L. now apply js_is. Qed.
Lemma i_out : ~ In i is1 /\ ~ In i is2. Proof. apply NoDup_remove_2 in Nd. rewrite in_app_iff in Nd. tauto. Qed.
Lemma Ndj : NoDup js. Proof. now apply NoDup_remove_1 in Nd. Qed.
Lemma jsn : js <> []. Proof. intros E. apply more. rewrite <- Sj, E. reflexivity. Qed.
Definition LX (es : list pystr) : list ref := if list_eq_dec (list_eq_dec N.eq_dec) es cs then map Sp js else layers_of F (abs_path es).
Lemma LX_cs : LX cs = map Sp js. Proof. unfold LX. destruct (list_eq_dec (list_eq_dec N.eq_dec) cs cs); [reflexivity|contradiction]. Qed.
Lemma LX_else es : es <> cs -> LX es = layers_of F (abs_path es). Proof. intros N. unfold LX. destruct (list_eq_dec (list_eq_dec N.eq_dec) es cs); [contradiction|reflexivity]. Qed.
Lemma LX_in es j : In (Sp j) (LX es) -> In (Sp j) (layers_of F (abs_path es)).
Proof. unfold LX. destruct (list_eq_dec (list_eq_dec N.eq_dec) es cs) as [->|_]; [|auto]. fold p. rewrite El. intros Hj. apply in_map_iff in Hj as (k & [= <-] & Hk). apply in_map. now apply js_is. Qed.
Lemma LX_once es k k' j : nth_error (LX es) k = Some (Sp j) -> nth_error (LX es) k' = Some (Sp j) -> k = k'.
Proof.
  unfold LX. destruct (list_eq_dec (list_eq_dec N.eq_dec) es cs) as [->|_]; [|apply (nth_once _ F (p_good _ _ _ _ P))]. intros E E'. assert (N : NoDup (map Sp js)) by (apply FinFun.Injective_map_NoDup; [intros x y; congruence|exact Ndj]).
  apply (proj1 (NoDup_nth_error _) N); [apply nth_error_Some; congruence|congruence].
Qed.

(** The classes after the run and those of the new stage, side by side. *)
Inductive twin : ref -> ref -> Prop :=
| twin_node es : names es -> in_stage H es -> twin (Co (abs_path es)) (Co (abs_path es))
| twin_layer es k j j' : names es -> in_stage H es -> nth_error (LX es) k = Some (Sp j) -> nth_error (layers_of F' (abs_path es)) k = Some (Sp j') -> twin (Sp j') (Sp j).
Lemma twin_one x y x' y' : twin x x' -> twin y y' -> (x = y <-> x' = y').
Proof.
  intros A A'. pose proof (proj2 (proj2 (flat_owned _ F (p_good _ _ _ _ P)))) as O. pose proof (proj2 (proj2 (flat_owned _ F' (p_good _ _ _ _ P')))) as O'.
  destruct A as [es D1 D2|es k j j' D1 D2 E E'], A' as [fs D3 D4|fs k2 l l' D3 D4 E2 E2']; try (split; congruence).
  split; intros Q; injection Q as ->.
  - pose proof (O' _ _ l' (nth_error_In _ _ E') (nth_error_In _ _ E2')) as Q. apply path_inj in Q; auto. subst fs. rewrite (nth_once _ F' (p_good _ _ _ _ P') _ _ _ _ E' E2') in *. congruence.
  - pose proof (O _ _ l (LX_in _ _ (nth_error_In _ _ E)) (LX_in _ _ (nth_error_In _ _ E2))) as Q. apply path_inj in Q; auto. subst fs. rewrite (LX_once _ _ _ _ E E2) in *. congruence.
Qed.
Lemma new_layers : exists is', layers_of F' p = map Sp is' /\ (forall j, In j is' -> j < length (specs H')) /\ spec_nodes (specs H') (map Sp is') = st ++ wk.
Proof. destruct (fin_layers layers' H1' F' H' wf' P' cs Hc Ho') as (is' & El' & L' & Sn'). rewrite Eo' in Sn'. eauto. Qed.
Lemma twin_bases Y : (forall q, q <> p -> bs Y (Co q) = bs H (Co q)) -> bs Y (Co p) = map Sp js ++ par -> forall x x', twin x x' -> Forall2 twin (bs H' x) (bs Y x').
Proof.
  intros Eq Ep x x' T. destruct T as [es He Hh|es k j j' He Hh E E']; [|constructor]. destruct (list_eq_dec (list_eq_dec N.eq_dec) es cs) as [->|Ne].
  - fold p. rewrite Ep. destruct (bases_form layers' H' H1' F' Rg' B' P' cs Hc cs_here') as (rest' & Eb' & Rs'). fold p in Eb'. rewrite Eb'. apply Forall2_app.
    + destruct new_layers as (is' & El' & L' & Sn'). rewrite El'.
      assert (Len : length js = length is'). { rewrite <- (spec_nodes_length (specs H) js Lj), <- (spec_nodes_length (specs H') is' L'). now rewrite Sj, Sn'. }
      assert (G : forall k j j', nth_error js k = Some j -> nth_error is' k = Some j' -> twin (Sp j') (Sp j)). { intros k j j' E E'. apply twin_layer with cs k; [exact Hc|exact cs_here|rewrite LX_cs; exact (map_nth_error Sp k js E)|fold p; rewrite El'; exact (map_nth_error Sp k is' E')]. }
      clear - Len G. clearbody js. revert is' Len G. induction js as [|x l IH]; intros [|x' is'] Len G; try discriminate; constructor; [now apply (G 0)|]. apply IH; [now injection Len|]. intros k. apply (G (S k)).
    + destruct Rs' as [N _|ds K _|ts _ I|ds ts _ I|ds ts _ I]; try (now destruct (no_source_now ts I)); unfold par; rewrite <- b_par_up.
      * assert (Q : here H' (abs_path ps) = false). { apply not_true_iff_false. intros Q. apply (N ps). apply (one_parent layers' H' Rg' B' ps nm ps Hc cs_here'). auto. } rewrite Q. constructor.
      * apply (one_parent layers' H' Rg' B' ps nm ds Hc cs_here') in K as (-> & K). unfold in_stage in K. rewrite K. constructor; [|constructor]. apply twin_node; [exact Hps|]. now apply (was_there ps Hps).
  - rewrite (Eq (abs_path es)) by (intros Q; apply path_inj in Q; auto).
    pose proof (paired_bases layers layers' H H' Rg Rg' B B' worlds es He Hh (else_al es He Hh Ne) (else_new es He Hh Ne) H1 F H1' F' P P' _ _ (paired_node H es F F' es (draws_self H es))) as Pb.
    revert Pb. apply flip2. intros y y' [fs D|fs k j j' D E E']; destruct (draws_names H es fs D He Hh) as (Hf & Hfh); [now apply twin_node|]. apply twin_layer with fs k; auto. rewrite LX_else; [exact E|]. exact (no_draw es fs D He Hh Ne).
Qed.
Lemma b_valid Y : length (specs Y) = length (specs H) -> dkeys (comps Y) = dkeys (comps H) ->
  (forall q, q <> p -> bs Y (Co q) = bs H (Co q)) -> bs Y (Co p) = map Sp js ++ par -> valid Y.
Proof.
  intros Ls Ks Eq Ep. assert (Hq : forall q, here Y q = here H q). { intros q. destruct (here H q) eqn:E; [|apply not_true_iff_false; apply not_true_iff_false in E]; rewrite here_In in *; now rewrite Ks. }
  apply valid_bs. intros q r Hh Hi. rewrite Hq in Hh. destruct (str_eqb q p) eqn:E.
  - apply str_eqb_eq in E as ->. rewrite Ep in Hi. apply in_app_or in Hi as [Hi|Hi]; [apply in_map_iff in Hi as (j & <- & Hj); rewrite Ls; now apply Lj|].
    unfold par in Hi. destruct (here H (abs_path ps)) eqn:Hp; [|destruct Hi]. destruct Hi as [<-|[]]. now rewrite Hq.
  - apply str_eqb_neq in E. rewrite (Eq q E) in Hi. pose proof (proj1 (valid_bs H) (proj1 (one_sound layers H Rg B)) q r Hh Hi) as K. destruct r as [j|x]; [now rewrite Ls|now rewrite Hq].
Qed.
Lemma twin_mro Y es : (forall q, q <> p -> bs Y (Co q) = bs H (Co q)) -> bs Y (Co p) = map Sp js ++ par -> valid Y -> names es -> in_stage H es ->
  exists l l', mro_of H' (Co (abs_path es)) = Some l' /\ mro_of Y (Co (abs_path es)) = Some l /\ Forall2 twin l' l.
Proof.
  intros Eq Ep V He Hh. destruct (one_sound layers' H' Rg' B') as (_ & So'). destruct (So' (abs_path es) (is_there es He Hh)) as (l' & El'). pose proof (mro_short _ _ _ _ El') as Es. change (bases_in (comps H')) with (bs H') in Es.
  pose proof (mro_alike ref_eqb ref_eqb_eq twin twin_one (bs H') (bs Y) (twin_bases Y Eq Ep) (length l') _ _ (twin_node es He Hh)) as M. rewrite Es in M. unfold RO in M. destruct (mro ref_eqb (bs Y) (length l') (Co (abs_path es))) as [l|] eqn:EY; [|destruct M].
  exists l, l'. split; [exact El'|]. split; [exact (mro_enough Y _ _ _ V EY)|exact M].
Qed.

Lemma look_same {V} (f g : ref -> option V) l : (forall x, In x l -> f x = g x) -> lookup_in f l = lookup_in g l.
Proof. induction l as [|x l IH]; intros E; [reflexivity|]. cbn [lookup_in]. rewrite (E x) by now left. rewrite IH by (intros y Hy; apply E; now right). reflexivity. Qed.
Lemma b_run : exists X, delete_opinion H home i real p = Some (Ok (X, [p])) /\ reach H ps nm is1 is2 X /\ specs X = specs (name_out_of_layer H home nm) /\
  (own_attr X CHILD_ORDER (Co p) = Some (VStrs (merged_orders (name_out_of_layer H home nm) p (map Sp js ++ par))) \/
   order_of (name_out_of_layer H home nm) p = merged_orders (name_out_of_layer H home nm) p (map Sp js ++ par) /\ own_attr X CHILD_ORDER (Co p) = own_attr H CHILD_ORDER (Co p)) /\
  (forall a, In a SIX -> a <> INSTANCE_PATH -> own_attr X a (Co p) = Some (picked H js a)) /\
  (own_attr X INSTANCE_PATH (Co p) = Some (picked H js INSTANCE_PATH) \/ own_attr X INSTANCE_PATH (Co p) = own_attr H INSTANCE_PATH (Co p)).
Proof.
  pose proof cs_here as Hh. destruct (at_place layers H wf B ps nm Hc Hh) as (Ap & An). fold cs p in Ap, An.
  apply (run_form H home ps nm i real is1 is2).
  - exact (one_sound layers H Rg B).
  - exact Hc.
  - exact Hh.
  - exact quiet_p.
  - exact b_up.
  - exact Ap.
  - exact An.
  - exact Eb.
  - exact (proj1 i_out).
  - exact (proj2 i_out).
  - exact jsn.
  - exact b_nobody.
  - intros Hp. exact (check_comp layers H wf B World ps Hps Hp).
  - intros j Hj. apply (check_spec layers H wf B ps nm j Hc Hh). change (In (Sp j) (bs H (Co p))). rewrite Eb. apply in_or_app. left. now apply in_map.
  - intros j a Hj Ha. fold cs p. unfold own_attr. destruct (nth_error (specs H) j) as [m|] eqn:Em; [|apply nth_error_None in Em; specialize (Lj j Hj); lia].
    assert (Hm : In m (opinions cs layers)). { rewrite <- Sn. unfold spec_nodes. apply in_flat_map. exists (Sp j). split; [apply in_map; now apply js_is|]. rewrite Em. now left. }
    destruct (opinion_at layers wf ps nm m Hc Hm) as (V1 & V2 & _). assert (Ka : In a internal_keys) by (repeat destruct Ha as [<-|Ha]; try destruct Ha; apply str_in_In; reflexivity). pose proof (opinion_keys layers wf cs m a Hc Hm Ka) as K. unfold value in V1, V2.
    repeat destruct Ha as [<-|Ha]; try destruct Ha; [rewrite Ap; destruct (dget PARENT_PATH m); [now f_equal|contradiction]|rewrite An; destruct (dget NAME m); [now f_equal|contradiction]].
  - fold cs p. rewrite Eb. assert (Q0 : exists j0 js', js = j0 :: js'). { pose proof jsn as N. clearbody js. clear - N. destruct js as [|j0 js']; [contradiction|eauto]. } destruct Q0 as (j0 & js' & Ej).
    assert (Hj : In j0 js) by (rewrite Ej; now left). destruct (nth_error (specs H) j0) as [m|] eqn:Em; [|apply nth_error_None in Em; specialize (Lj j0 Hj); lia].
    assert (Hm : In m (st ++ wk)). { rewrite <- Sj. unfold spec_nodes. apply in_flat_map. exists (Sp j0). split; [now apply in_map|]. rewrite Em. now left. }
    destruct (Eoth m Hm) as (s & Es & Ns). intros Q. assert (G : forall l r, In j0 l -> In (Sp j0) (other_specs H real (map Sp l ++ r))).
    { assert (Rf : ref_attr H (Sp j0) SOURCE_LAYER = VStr s) by (unfold ref_attr; rewrite Em; exact Es). clear - Rf Ns. induction l as [|x l IH]; intros r Hl; [destruct Hl|]. cbn [map app other_specs]. apply in_or_app. destruct Hl as [->|Hl]; [left|right; now apply IH].
      rewrite Rf. cbn [str_of]. assert (E : str_eqb s real = false) by (now apply str_eqb_neq). rewrite E. now left. }
    specialize (G is par (js_is j0 Hj)). rewrite Q in G. destruct G.
  - exact free_parent.
  - intros Y R. pose proof (b_valid Y (y_len _ _ _ _ _ _ R) (y_keys _ _ _ _ _ _ R) (y_bs _ _ _ _ _ _ R) (y_bsp _ _ _ _ _ _ R)) as V.
    destruct (twin_mro Y cs (y_bs _ _ _ _ _ _ R) (y_bsp _ _ _ _ _ _ R) V Hc Hh) as (l & _ & _ & M & _). exists l. exact M.
Qed.

Section After.
Variable X : heap.
Hypothesis R : reach H ps nm is1 is2 X.
Lemma x_here q : here X q = here H q. Proof. exact (y_here H ps nm is1 is2 X R q). Qed.
Lemma x_bs q : q <> p -> bs X (Co q) = bs H (Co q). Proof. exact (y_bs _ _ _ _ _ _ R q). Qed.
Lemma x_bsp : bs X (Co p) = map Sp js ++ par. Proof. exact (y_bsp _ _ _ _ _ _ R). Qed.
Lemma x_valid : valid X. Proof. exact (b_valid X (y_len _ _ _ _ _ _ R) (y_keys _ _ _ _ _ _ R) x_bs x_bsp). Qed.
Lemma x_spec j a : a <> CHILD_ORDER -> own_attr X a (Sp j) = own_attr H a (Sp j). Proof. exact (y_spec _ _ _ _ _ _ R j a). Qed.
Lemma x_own a : ~ moved a -> own_attr X a (Co p) = own_attr H a (Co p). Proof. exact (y_own _ _ _ _ _ _ R a). Qed.
Lemma x_own_else q a : q <> p -> own_attr X a (Co q) = own_attr H a (Co q). Proof. exact (y_else _ _ _ _ _ _ R q a). Qed.
Lemma x_still es : names es -> es <> cs -> mro_of X (Co (abs_path es)) = mro_of H (Co (abs_path es)).
Proof.
  intros He Ne. apply (still_mro H ps nm is1 is2); [exact b_up|exact b_nobody|exact (fun Hp => check_comp layers H wf B World ps Hps Hp)|exact R|]. intros [= Q]. apply path_inj in Q; auto.
Qed.
Lemma x_else es a : names es -> in_stage H es -> es <> cs -> a <> CHILD_ORDER -> reads X es a = reads H es a.
Proof.
  intros He Hh Ne Na. unfold reads, getattr. rewrite (x_still es He Ne). destruct (mro_of H (Co (abs_path es))) as [l|] eqn:E; [|reflexivity]. f_equal. apply look_same. intros x Hx. assert (U : up H (Co (abs_path es)) x) by (now apply (mro_laws ref_eqb ref_eqb_eq _ _ _ _ E) in Hx).
  destruct x as [j|q]; [now apply x_spec|]. apply x_own_else. intros ->. exact (b_reach _ es eq_refl He Hh Ne U).
Qed.
Lemma x_first : exists j0 l r, mro_of X (Co p) = Some (Co p :: Sp j0 :: l) /\ bs X (Co p) = Sp j0 :: r /\ hd_error js = Some j0.
Proof.
  assert (Q0 : exists j0 js', js = j0 :: js'). { pose proof jsn as N. clearbody js. clear - N. destruct js as [|j0 js']; [contradiction|eauto]. } destruct Q0 as (j0 & js' & Eis).
  destruct (twin_mro X cs x_bs x_bsp x_valid Hc cs_here) as (l & l' & E' & E & T0). fold p in E, E'.
  destruct (first_layer layers' H' cs wf' B' cs_here') as (k & l2 & r2 & M & Q). fold p in M, Q. rewrite M in E'. injection E' as <-. inversion T0 as [|x y t t' T1 T2 Q1 Q2]. rewrite <- Q2 in E. inversion T2 as [|x2 y2 t2 t3 T3 T4 Q3 Q4]. rewrite <- Q4 in E.
  assert (Y1 : y = Co p). { apply (twin_one (Co p) (Co p) y (Co p) T1 (twin_node cs Hc cs_here)). reflexivity. }
  assert (TB := twin_bases X x_bs x_bsp _ _ (twin_node cs Hc cs_here)). fold p in TB. pose proof x_bsp as EB. rewrite Eis in EB. cbn [map app] in EB. rewrite Q, EB in TB. inversion TB as [|b b' tb tb' B1 B2].
  assert (Y2 : y2 = Sp j0). { apply (twin_one (Sp k) (Sp k) y2 (Sp j0)); auto. }
  rewrite Y1, Y2 in E. exists j0, t3. eexists. split; [exact E|]. split; [exact EB|]. now rewrite Eis.
Qed.
Lemma head_in j0 : hd_error js = Some j0 -> exists m l, st ++ wk = m :: l /\ nth_error (specs H) j0 = Some m.
Proof.
  intros Hd. assert (I0 : nth_error js 0 = Some j0) by (destruct js; [discriminate|exact Hd]). pose proof (nth_spec _ js _ Lj Sj 0 j0 I0) as E. assert (Hl : j0 < length (specs H)) by (apply Lj; now apply nth_error_In in I0). apply nth_error_Some in Hl. destruct (nth_error (specs H) j0) as [m|] eqn:Em; [|contradiction].
  destruct (st ++ wk) as [|m' l]; [discriminate|]. cbn [nth_error] in E. injection E as <-. eauto.
Qed.
Lemma rest_in m : In m (st ++ wk) -> In m (opinions cs layers).
Proof. rewrite Eo, !in_app_iff. cbn [In]. tauto. Qed.
(** What is not the node's own is read from the strongest remaining layer. *)
Lemma first_read a : In a internal_keys -> a <> CHILD_ORDER -> own_attr X a (Co p) = None -> exists m l, st ++ wk = m :: l /\ reads X cs a = Some (value m a).
Proof.
  intros Ka Nc E. destruct x_first as (j0 & l & r & M & _ & Hd). destruct (head_in j0 Hd) as (m & l0 & Em & En). exists m, l0. split; [exact Em|]. unfold reads, getattr. fold p. rewrite M. cbn [lookup_in]. rewrite E, x_spec by exact Nc. unfold own_attr. rewrite En.
  assert (Hm : In m (opinions cs layers)) by (apply rest_in; rewrite Em; now left). pose proof (opinion_keys layers wf cs m a Hc Hm Ka) as K. unfold value. now destruct (dget a m).
Qed.
Lemma own_read a w : own_attr X a (Co p) = Some w -> reads X cs a = Some w.
Proof. intros E. destruct x_first as (j0 & l & r & M & _). unfold reads, getattr. fold p. rewrite M. cbn [lookup_in]. now rewrite E. Qed.
Lemma x_place a : In a [NAME; PARENT_PATH; SOURCE_LAYER; PROXY] -> reads X cs a = reads H' cs a.
Proof.
  intros Ha. assert (Nm : ~ moved a) by (intros [->|M]; [apply str_in_In in Ha; vm_compute in Ha; discriminate Ha|]; repeat destruct Ha as [<-|Ha]; try destruct Ha; apply str_in_In in M; vm_compute in M; discriminate M).
  assert (Ka : In a internal_keys) by (repeat destruct Ha as [<-|Ha]; try destruct Ha; apply str_in_In; reflexivity). assert (Nc : a <> CHILD_ORDER) by (intros ->; apply Nm; now left).
  destruct (own_attr X a (Co p)) as [w|] eqn:E.
  - rewrite (own_read a w E). rewrite (x_own a Nm) in E. assert (En : a = NAME). { destruct Ha as [Ha|Ha]; [now symmetry|]. assert (Q : own_attr H a (Co p) = None) by (apply (composed_own layers H1 F H cs a wf P Hc Ho); cbn [In] in Ha |- *; tauto). congruence. } subst a.
    destruct first_new as (m & l & Em). rewrite (C32_identity layers' H' wf' B' cs m l NAME Hc Em Ha). assert (Hm : In m (opinions cs layers)) by (apply rest_in; rewrite <- Eo', Em; now left).
    rewrite (proj1 (opinion_at layers wf ps nm m Hc Hm)). destruct (at_place layers H wf B ps nm Hc cs_here) as (_ & An). fold cs p in An. rewrite attr_own, E in An. now rewrite An.
  - destruct (first_read a Ka Nc E) as (m & l & Em & ->). rewrite <- Eo' in Em. now rewrite (C32_identity layers' H' wf' B' cs m l a Hc Em Ha).
Qed.
Lemma picked_spoken a : forall l ops, spec_nodes (specs H) (map Sp l) = ops -> (forall j, In j l -> j < length (specs H)) -> forall m, speaks_first a ops m -> picked H l a = value m a.
Proof.
  induction l as [|j l IH]; intros ops E Lw m (x & y & Q & S1 & S2); [subst ops; cbn in Q; destruct x; discriminate|]. cbn [map spec_nodes flat_map] in E. fold (spec_nodes (specs H) (map Sp l)) in E. cbn [picked]. cbv zeta. unfold ref_attr.
  destruct (nth_error (specs H) j) as [n|] eqn:En; [|apply nth_error_None in En; specialize (Lw j (or_introl eq_refl)); lia]. cbn [app] in E. change (attr_or_none n a) with (value n a). destruct x as [|x0 x]; cbn [app] in Q; rewrite <- E in Q; injection Q as Q1 Q2.
  - subst n. apply has_opinion_says in S1. now rewrite S1.
  - subst x0. assert (O : has_opinion (value n a) = false) by (apply no_opinion_says; apply S2; now left). rewrite O. apply (IH _ eq_refl); [intros k Hk; apply Lw; now right|]. exists x, y. split; [exact Q2|]. split; [exact S1|]. intros m0 Hm. apply S2. now right.
Qed.
Lemma picked_silent a : silent a (st ++ wk) -> picked H js a = default_of a.
Proof.
  intros Si. apply picked_none. intros j Hj. unfold ref_attr. destruct (nth_error (specs H) j) as [n|] eqn:En; [|reflexivity]. apply no_opinion_says. apply Si. rewrite <- Sj. unfold spec_nodes. apply in_flat_map. exists (Sp j). split; [now apply in_map|]. rewrite En. now left.
Qed.
Hypothesis Own6 : forall a, In a SIX -> a <> INSTANCE_PATH -> own_attr X a (Co p) = Some (picked H js a).
Hypothesis OwnI : own_attr X INSTANCE_PATH (Co p) = Some (picked H js INSTANCE_PATH) \/ own_attr X INSTANCE_PATH (Co p) = own_attr H INSTANCE_PATH (Co p).
Lemma x_tracked a : In a tracked -> reads X cs a = reads H' cs a.
Proof.
  intros Ha. assert (A6 : In a SIX) by (apply str_in_In; repeat destruct Ha as [<-|Ha]; try destruct Ha; reflexivity). assert (Ni : a <> INSTANCE_PATH) by (intros ->; apply str_in_In in Ha; vm_compute in Ha; discriminate Ha).
  rewrite (own_read a _ (Own6 a A6 Ni)). destruct (speak_or_silent a (st ++ wk)) as [(m & Sm)|Si].
  - rewrite (picked_spoken a js _ Sj Lj m Sm). rewrite <- Eo' in Sm. now rewrite (proj1 (C32_strongest layers' H' wf' B' cs a m Hc Ha Sm)).
  - rewrite (picked_silent a Si). pose proof Si as Si'. rewrite <- Eo' in Si'. destruct first_new as (m & l & E). rewrite (proj1 (C32_silent layers' H' wf' B' cs a m l Hc Ha E Si' (or_intror no_source_now))).
    assert (Hm : In m (st ++ wk)) by (rewrite <- Eo', E; now left). destruct (Pl m a Hm Ha) as [Q|Q]; [now destruct (Si m Hm)|]. rewrite Q. f_equal. repeat destruct Ha as [<-|Ha]; try destruct Ha; reflexivity.
Qed.
Lemma twin_own a x x' : ~ In a internal_keys -> twin x x' -> own_attr H' a x = own_attr X a x'.
Proof.
  intros Ha T. assert (Nc : a <> CHILD_ORDER) by (intros ->; apply Ha; apply str_in_In; reflexivity). assert (Nm : ~ moved a) by (intros [Q|Q]; [contradiction|]; apply Ha; repeat destruct Q as [<-|Q]; try destruct Q; apply str_in_In; reflexivity). destruct T as [es He Hh|es k j j' He Hh E E'].
  - rewrite (own_co _ F' H' (p_good _ _ _ _ P') (p_post _ _ _ _ P') a Ha). destruct (str_eqb (abs_path es) p) eqn:Q.
    + apply str_eqb_eq in Q. rewrite Q. rewrite (x_own a Nm). symmetry. exact (own_co _ F H (p_good _ _ _ _ P) (p_post _ _ _ _ P) a Ha p).
    + apply str_eqb_neq in Q. rewrite (x_own_else _ a Q). symmetry. exact (own_co _ F H (p_good _ _ _ _ P) (p_post _ _ _ _ P) a Ha _).
  - rewrite (x_spec _ _ Nc). destruct (list_eq_dec (list_eq_dec N.eq_dec) es cs) as [Q|Ne].
    + rewrite Q in E, E'. change (abs_path cs) with p in E'. rewrite LX_cs in E. destruct new_layers as (is' & El' & L' & Sn'). rewrite El' in E'. rewrite nth_error_map in E, E'. destruct (nth_error js k) as [j0|] eqn:Ej; [|discriminate]. destruct (nth_error is' k) as [j0'|] eqn:Ej'; [|discriminate]. injection E as ->. injection E' as ->.
      unfold own_attr. now rewrite (nth_spec _ js _ Lj Sj k j Ej), (nth_spec _ is' _ L' Sn' k j' Ej').
    + rewrite (LX_else _ Ne) in E. symmetry. exact (paired_own layers layers' H H' Rg Rg' B B' worlds es He Hh (else_al es He Hh Ne) (else_new es He Hh Ne) H1 F H1' F' P P' a _ _ Ha (paired_layer H es F F' es k j j' (draws_self H es) E E')).
Qed.
Lemma x_user es a : ~ In a internal_keys -> names es -> in_stage H es -> reads X es a = reads H' es a.
Proof.
  intros Ha He Hh. destruct (twin_mro X es x_bs x_bsp x_valid He Hh) as (l & l' & E' & E & T). unfold reads, getattr. rewrite E, E'. symmetry. apply (lookup_alike twin _ _ (fun x x' => twin_own a x x' Ha) l' l T).
Qed.
Lemma asked_order a : asked a -> a <> CHILD_ORDER.
Proof. intros [Ha|Ha] ->; [apply str_in_In in Ha; vm_compute in Ha; discriminate Ha|]. apply Ha. apply str_in_In. reflexivity. Qed.
Lemma x_all es a : names es -> in_stage H es -> asked a -> reads X es a = reads H' es a.
Proof.
  intros He Hh Ha. destruct (list_eq_dec (list_eq_dec N.eq_dec) es cs) as [->|Ne]; [|rewrite x_else by (auto using asked_order); symmetry; now apply else_reads]. destruct Ha as [Ha|Ha]; [|now apply x_user]. apply in_app_or in Ha as [Ha|Ha]; [now apply x_place|now apply x_tracked].
Qed.
Lemma x_none ts : ~ instances X cs ts.
Proof.
  intros (Ht & Htn & Hth & E). assert (Si : silent INSTANCE_PATH (st ++ wk)) by (intros m Hm; apply Sil; now apply rest_in). assert (Sy : says (VStr (abs_path ts))) by (split; discriminate). destruct OwnI as [O|O].
  - rewrite (own_read _ _ O), (picked_silent _ Si) in E. discriminate.
  - destruct (own_attr X INSTANCE_PATH (Co p)) as [w|] eqn:Ow.
    + rewrite (own_read _ _ Ow) in E. injection E as ->. apply (no_source ts). split; [exact Ht|]. split; [exact Htn|]. split; [unfold in_stage in *; now rewrite <- x_here|]. rewrite (view_internal layers H1 F H wf P cs _ cs_here inst_key). fold p. rewrite attr_own, <- O. reflexivity.
    + destruct (first_read INSTANCE_PATH inst_key) as (m & l & Em & Er); [discriminate|exact Ow|]. rewrite Er in E. injection E as E. apply (Si m); [rewrite Em; now left|]. now rewrite E.
Qed.
Lemma x_inst es ts : names es -> in_stage H es -> instances X es ts <-> instances H' es ts.
Proof.
  intros He Hh. destruct (list_eq_dec (list_eq_dec N.eq_dec) es cs) as [->|Ne].
  - split; intros K; [now destruct (x_none ts)|now destruct (no_source_now ts)].
  - pose proof (LocalProofs.s_inst _ _ _ _ (else_same es es He Hh Ne (draws_self H es)) ts) as S1. rewrite <- S1. unfold instances, in_stage. rewrite x_here, x_else by (auto; discriminate). tauto.
Qed.
(** The names in the node's order of children come from the remaining layers. *)
Let Kh := name_out_of_layer H home nm.
Hypothesis Sx : specs X = specs Kh.
Hypothesis OwnO : own_attr X CHILD_ORDER (Co p) = Some (VStrs (merged_orders Kh p (map Sp js ++ par))) \/
  order_of Kh p = merged_orders Kh p (map Sp js ++ par) /\ own_attr X CHILD_ORDER (Co p) = own_attr H CHILD_ORDER (Co p).
Lemma layer_said j x : In j js -> In x (listed (own_attr Kh CHILD_ORDER (Sp j))) -> exists m, In m (st ++ wk) /\ In x (listed (dget CHILD_ORDER m)).
Proof.
  intros Hj Hx. destruct (nth_error (specs H) j) as [m|] eqn:Em; [|apply nth_error_None in Em; specialize (Lj j Hj); lia].
  exists m. split; [rewrite <- Sj; unfold spec_nodes; apply in_flat_map; exists (Sp j); split; [now apply in_map|rewrite Em; now left]|].
  assert (E : own_attr H CHILD_ORDER (Sp j) = dget CHILD_ORDER m) by (unfold own_attr; now rewrite Em). rewrite <- E. destruct (proj2 (proj2 (proj2 (proj2 (name_out_spec H home nm)))) j) as [Q|(l & _ & -> & Q)]; fold Kh in Q; rewrite Q in Hx; [exact Hx|].
  cbn [listed] in Hx. rewrite as_strs_VStrs in Hx. now apply ChildCacheProofs.in_try_remove in Hx.
Qed.
Lemma x_order x : In x (listed (reads X cs CHILD_ORDER)) -> exists m, In m (st ++ wk) /\ In x (listed (dget CHILD_ORDER m)).
Proof.
  destruct (at_place layers H wf B ps nm Hc cs_here) as (Ap & An).
  assert (N : In x (merged_orders Kh p (map Sp js ++ par)) -> exists m, In m (st ++ wk) /\ In x (listed (dget CHILD_ORDER m))).
  { intros Hx. destruct (order_said H home ps nm is1 is2 Hc Ap An (fun Hp => check_comp layers H wf B World ps Hps Hp) x Hx) as (j & Hj & Q). apply (layer_said j x Hj). rewrite ref_sp in Q. fold Kh in Q. now destruct (own_attr Kh CHILD_ORDER (Sp j)). }
  destruct OwnO as [O|(On & O)]; [rewrite (own_read _ _ O); cbn [listed]; rewrite as_strs_VStrs; exact N|]. destruct (own_attr X CHILD_ORDER (Co p)) as [w|] eqn:Ow.
  - rewrite (own_read _ _ Ow). cbn [listed]. intros Hx. apply N. rewrite <- On. unfold order_of. rewrite attr_own. assert (Q : own_attr Kh CHILD_ORDER (Co p) = Some w) by (rewrite O; unfold own_attr, Kh; now rewrite (proj1 (name_out_spec H home nm))). now rewrite Q.
  - destruct x_first as (j0 & l & r & M & _ & Hd). destruct (head_in j0 Hd) as (m & l0 & Em & En). intros Hx. assert (Hj : In j0 js) by (destruct js; [discriminate|injection Hd as ->; now left]). apply (layer_said j0 x Hj). revert Hx.
    assert (Q : own_attr X CHILD_ORDER (Sp j0) = own_attr Kh CHILD_ORDER (Sp j0)) by (unfold own_attr; now rewrite Sx). unfold reads, getattr. fold p. rewrite M. cbn [lookup_in]. rewrite Ow, Q. destruct (own_attr Kh CHILD_ORDER (Sp j0)) as [w|] eqn:Ek; [exact (fun e => e)|exfalso].
    assert (Hm : In m (opinions cs layers)) by (apply rest_in; rewrite Em; now left). assert (Ko : In CHILD_ORDER internal_keys) by (apply str_in_In; reflexivity). apply (opinion_keys layers wf cs m CHILD_ORDER Hc Hm Ko).
    destruct (proj2 (proj2 (proj2 (proj2 (name_out_spec H home nm)))) j0) as [Q2|(l1 & _ & _ & Q2)]; fold Kh in Q2; rewrite Ek in Q2; [|discriminate]. unfold own_attr in Q2. now rewrite En in Q2.
Qed.
Lemma kh_arc j : In j js -> get_arc Kh p (Sp j) = Some Reference.
Proof.
  intros Hj. assert (Hb : In (Sp j) (bases_in (comps H) (Co p))) by (change (In (Sp j) (bs H (Co p))); rewrite Eb; apply in_or_app; left; apply in_map; now apply js_is).
  unfold get_arc. cbv zeta. assert (E1 : path_of Kh (Co p) = p) by (transitivity (path_of H (Co p)); [|exact (comp_place layers H wf B ps nm Hc cs_here)]; unfold path_of, ref_attr, Kh; rewrite !(K_attr H home nm) by discriminate; reflexivity).
  assert (E2 : check_path Kh (Sp j) = p) by (transitivity (check_path H (Sp j)); [|exact (check_spec layers H wf B ps nm j Hc cs_here Hb)]; unfold check_path; rewrite !ref_sp; unfold Kh; rewrite !(K_spec H home nm) by discriminate; reflexivity).
  now rewrite E1, E2, str_eqb_refl.
Qed.
Lemma x_orders x : x <> nm -> (exists m, In m (st ++ wk) /\ In x (listed (dget CHILD_ORDER m))) -> In x (listed (reads X cs CHILD_ORDER)).
Proof.
  intros Nx (m & Hm & Hx). rewrite <- Sj in Hm. unfold spec_nodes in Hm. apply in_flat_map in Hm as (r & Hr & Hm). apply in_map_iff in Hr as (j & <- & Hj). destruct (nth_error (specs H) j) as [m'|] eqn:Em; [destruct Hm as [->|[]]|destruct Hm].
  assert (Hk : In x (as_strs (ref_attr Kh (Sp j) CHILD_ORDER))).
  { rewrite ref_sp. assert (E : own_attr H CHILD_ORDER (Sp j) = dget CHILD_ORDER m) by (unfold own_attr; now rewrite Em). destruct (proj2 (proj2 (proj2 (proj2 (name_out_spec H home nm)))) j) as [Q|(l & _ & El' & Q)]; fold Kh in Q; rewrite Q.
    - rewrite E. now destruct (dget CHILD_ORDER m).
    - rewrite as_strs_VStrs. apply keep_in; [congruence|]. rewrite El', E. exact Hx. }
  assert (N : In x (merged_orders Kh p (map Sp js ++ par))).
  { unfold merged_orders. rewrite fold_left_app. assert (Gk : forall l acc, In x acc -> In x (fold_left (fun acc b => match get_arc Kh p b with Some Parent => acc | _ => merged (as_strs (ref_attr Kh b CHILD_ORDER)) acc end) l acc)).
    { induction l as [|b l IH]; intros acc Ha; [exact Ha|]. cbn [fold_left]. apply IH. destruct (get_arc Kh p b) as [[]|]; try exact Ha; apply merged_in; now right. }
    apply Gk. pose proof kh_arc as A. revert Hj A. generalize js as l. generalize (@nil pystr) as acc. intros acc l. revert acc. induction l as [|k l IH]; intros acc Hl A; [destruct Hl|destruct Hl as [->|Hl]]; cbn [map fold_left].
    - rewrite (A j) by now left. apply Gk. apply merged_in. now left.
    - apply IH; [exact Hl|]. intros k' Hk'. apply A. now right. }
  destruct OwnO as [O|(On & O)]; [rewrite (own_read _ _ O); cbn [listed]; now rewrite as_strs_VStrs|]. pose proof (order_own layers H cs wf B Hc (Ho)) as Oh. fold p in Oh. rewrite <- O in Oh.
  destruct (own_attr X CHILD_ORDER (Co p)) as [w|] eqn:Ow; [|contradiction]. rewrite (own_read _ _ Ow). cbn [listed]. rewrite <- On in N. unfold order_of in N. rewrite attr_own in N.
  assert (Q : own_attr Kh CHILD_ORDER (Co p) = Some w) by (rewrite O; unfold own_attr, Kh; now rewrite (proj1 (name_out_spec H home nm))). now rewrite Q in N.
Qed.
Lemma x_specs j n : nth_error (specs H) j = Some n -> exists n', nth_error (specs X) j = Some n' /\
  (home <> Some j -> n' = n) /\ (forall a, a <> CHILD_ORDER -> dget a n' = dget a n) /\
  (home = Some j -> NoDup (listed (dget CHILD_ORDER n)) -> forall x, In x (listed (dget CHILD_ORDER n')) <-> x <> nm /\ In x (listed (dget CHILD_ORDER n))).
Proof. intros E. rewrite Sx. pose proof (X_specs H home ps nm j n E) as Q. unfold DelNodeProofs.X in Q. rewrite remove_comp_specs in Q. exact Q. Qed.
End After.
End Got.

Lemma over_final : exists X, delete_opinion H home i real p = Some (Ok (X, [p])) /\
  (forall es, names es -> in_stage X es <-> in_stage H' es) /\
  (forall es, names es -> in_stage X es -> (forall a, asked a -> reads X es a = reads H' es a) /\ forall ts, instances X es ts <-> instances H' es ts) /\
  (forall x, In x (listed (reads X cs CHILD_ORDER)) -> exists m, In m (st ++ wk) /\ In x (listed (dget CHILD_ORDER m))) /\
  (forall x, x <> nm -> (exists m, In m (st ++ wk) /\ In x (listed (dget CHILD_ORDER m))) -> In x (listed (reads X cs CHILD_ORDER))) /\
  (forall j n, nth_error (specs H) j = Some n -> exists n', nth_error (specs X) j = Some n' /\
     (home <> Some j -> n' = n) /\ (forall a, a <> CHILD_ORDER -> dget a n' = dget a n) /\
     (home = Some j -> NoDup (listed (dget CHILD_ORDER n)) -> forall x, In x (listed (dget CHILD_ORDER n')) <-> x <> nm /\ In x (listed (dget CHILD_ORDER n)))).
Proof.
  destruct b_layers as (is1 & is2 & El & Eb & L & Sn & Sj & Nd). destruct (b_run is1 is2 El Eb L Sn Sj Nd) as (X & E & R & Sx & Oo & O6 & Oi). exists X. split; [exact E|].
  assert (Hx : forall q, here X q = here H q) by (intros q; exact (x_here is1 is2 X R q)).
  split; [intros es He; unfold in_stage; rewrite Hx; split; [now apply is_there|now apply was_there]|]. split.
  { intros es He Hh. unfold in_stage in Hh. rewrite Hx in Hh. split; [intros a Ha|intros ts]; [eapply x_all; eauto|eapply x_inst; eauto]. }
  split; [intros x; eapply x_order; eauto|]. split; [intros x; eapply x_orders; eauto|intros j n; eapply x_specs; eauto].
Qed.
End Stages.

(** *** The layers without the node *)
Lemma less_said cs d st wk layers layers' : one_less cs d st wk layers layers' -> opinions cs layers = st ++ d :: wk /\ opinions cs layers' = st ++ wk.
Proof.
  intros [above rows rows' kept kept' below -> -> F1 F2 E -> ->]. change (at_ cs (concat [rows ++ rows']) = []) in E. cbn [concat] in E. rewrite app_nil_r, at_app in E. apply app_eq_nil in E as (E1 & E2).
  assert (K1 : at_ cs kept = []) by (pose proof (at_alike cs _ _ F1) as A; rewrite E1 in A; now inversion A). assert (K2 : at_ cs kept' = []) by (pose proof (at_alike cs _ _ F2) as A; rewrite E2 in A; now inversion A).
  assert (One : at_ cs ((ns_of cs, d) :: rows') = [d]) by (change ((ns_of cs, d) :: rows') with ([(ns_of cs, d)] ++ rows'); rewrite at_app, E2; unfold at_; cbn [filter fst]; destruct (list_eq_dec (list_eq_dec N.eq_dec) (ns_of cs) (ns_of cs)); [reflexivity|contradiction]).
  change (opinions cs above) with (at_ cs (concat above)). change (opinions cs below) with (at_ cs (concat below)). split.
  - change (at_ cs (concat (above ++ (rows ++ (ns_of cs, d) :: rows') :: below)) = at_ cs (concat above) ++ d :: at_ cs (concat below)). rewrite concat_app. cbn [concat]. rewrite !at_app, E1, One. reflexivity.
  - change (at_ cs (concat (above ++ (kept ++ kept') :: below)) = at_ cs (concat above) ++ at_ cs (concat below)). rewrite concat_app. cbn [concat]. now rewrite !at_app, K1, K2.
Qed.
Lemma less_elsewhere cs d st wk layers layers' : names cs -> one_less cs d st wk layers layers' -> forall es, names es -> es <> cs -> said_alike layers layers' es.
Proof.
  intros Hc [above rows rows' kept kept' below -> -> F1 F2 _ _ _] es He Ne. unfold said_alike. change (Forall2 near (at_ es (concat (above ++ (rows ++ (ns_of cs, d) :: rows') :: below))) (at_ es (concat (above ++ (kept ++ kept') :: below)))).
  assert (Z : at_ es ((ns_of cs, d) :: rows') = at_ es rows'). { unfold at_. cbn [filter fst]. destruct (list_eq_dec (list_eq_dec N.eq_dec) (ns_of cs) (ns_of es)) as [Q|_]; [|reflexivity]. apply ns_of_inj in Q; auto. congruence. }
  rewrite !concat_app. cbn [concat]. rewrite !at_app, Z. apply Forall2_app; [apply near_refl|]. apply Forall2_app; [|apply near_refl]. apply Forall2_app; now apply at_alike.
Qed.
