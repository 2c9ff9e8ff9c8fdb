(** Proofs about adding a node to a composed stage. *)

From Coq Require Import String List NArith ZArith Bool Arith Lia Relations.
From Verif Require Import PyStr PyStrFacts NxtPath PathSpec PathProofs Dict DictFacts ListMerger SortRows Layer PyVal NodeIO NodeIOProofs PyClass PyClassSpec PyClassProofs
  Comp CompSpec CompProofs CompProxyProofs CompPostProofs CompLookProofs CompTreeProofs CompOrderProofs CompStageProofs StageView StageViewProofs DirtyStageSpec DirtyStageProofs
  Props_Comp LocalSpec MroRelProofs LocalProofs Props_Local Props_Dirty Live Arcs ArcsProofs AddNode AddNodeSpec.
From Verif Require MergeProofs.
Import ListNotations.

(** *** A stage and one more node *)
Record grown (H X : heap) (p : pystr) (sp : node) : Prop := {
  g_here : forall q, here X q = str_eqb q p || here H q;
  g_bs : forall q, q <> p -> bs X (Co q) = bs H (Co q);
  g_own : forall q a, q <> p -> a <> CHILD_ORDER -> own_attr X a (Co q) = own_attr H a (Co q);
  g_sp : forall i a, i < length (specs H) -> a <> CHILD_ORDER -> own_attr X a (Sp i) = own_attr H a (Sp i);
  g_new : forall a, own_attr X a (Sp (length (specs H))) = dget a sp;
  g_specs : length (specs X) = S (length (specs H));
  g_comps : length (comps X) = S (length (comps H));
  g_dirty : dirty X = dirty H }.

Lemma attr_own H q a : attr H q a = match own_attr H a (Co q) with Some v => v | None =>
  match bs H (Co q) with Sp i :: _ => match own_attr H a (Sp i) with Some v => v | None => VNone end | _ => VNone end end.
Proof.
  unfold attr, own_attr, bs, bases_in, node_attr. destruct (dget q (comps H)) as [c|]; [|reflexivity]. destruct (dget a (own c)); [reflexivity|].
  destruct (cbases c) as [|[i|r] l]; try reflexivity. unfold attr_or_none. now destruct (nth_error (specs H) i).
Qed.
Lemma own_change X p f q a : own_attr (with_comps X (change p f (comps X))) a (Co q) = if str_eqb q p then match dget q (comps X) with Some c => dget a (own (f c)) | None => None end else own_attr X a (Co q).
Proof. unfold own_attr. cbn [comps with_comps]. rewrite dget_change. destruct (str_eqb q p); [|reflexivity]. now destruct (dget q (comps X)). Qed.
Lemma grown_change H X p sp f : grown H X p sp -> grown H (with_comps X (change p f (comps X))) p sp.
Proof.
  intros [A B C D E F G J]. constructor; auto.
  - intros q. rewrite here_with. apply A.
  - intros q Hq. rewrite bs_with. destruct (str_eqb q p) eqn:Eq; [apply str_eqb_eq in Eq; contradiction|]. now apply B.
  - intros q a Hq Ha. rewrite own_change. destruct (str_eqb q p) eqn:Eq; [apply str_eqb_eq in Eq; contradiction|]. now apply C.
  - cbn [comps with_comps]. rewrite change_length. exact G.
Qed.
Lemma with_spec_length X j n : j < length (specs X) -> length (specs (with_spec X j n)) = length (specs X).
Proof. intros L. cbn [specs with_spec]. rewrite app_length. cbn [length]. rewrite firstn_length, skipn_length. lia. Qed.
Lemma with_spec_nth X j n i : j < length (specs X) -> nth_error (specs (with_spec X j n)) i = if Nat.eqb i j then Some n else nth_error (specs X) i.
Proof.
  intros L. cbn [specs with_spec]. destruct (Nat.eqb i j) eqn:E.
  - apply Nat.eqb_eq in E as ->. rewrite nth_error_app2; rewrite firstn_length; [|lia]. replace (j - Nat.min j (length (specs X))) with 0 by lia. reflexivity.
  - apply Nat.eqb_neq in E. destruct (Nat.lt_ge_cases i j) as [Hi|Hi].
    + rewrite nth_error_app1 by (rewrite firstn_length; lia). clear -Hi. revert i Hi. generalize (specs X). induction j as [|j IH]; intros l i Hi; [lia|]. destruct l; [now destruct i|]. destruct i; [reflexivity|]. cbn. apply IH. lia.
    + rewrite nth_error_app2; rewrite firstn_length; [|lia]. destruct (i - Nat.min j (length (specs X))) as [|k] eqn:Ek; [lia|]. cbn [nth_error].
      assert (K : i = S j + k) by lia. subst i. clear. generalize (specs X). induction j as [|j IH]; intros l; [destruct l; [now destruct k|reflexivity]|]. destruct l; [now destruct k|]. cbn. apply IH.
Qed.
(** The child order of a layer's node does not matter for the rest. *)
Lemma name_in_layer_spec H home nm : comps (name_in_layer H home nm) = comps H /\ dirty (name_in_layer H home nm) = dirty H /\ length (specs (name_in_layer H home nm)) = length (specs H) /\
  forall i a, a <> CHILD_ORDER -> own_attr (name_in_layer H home nm) a (Sp i) = own_attr H a (Sp i).
Proof.
  unfold name_in_layer. destruct home as [j|]; [|now repeat split]. destruct (nth_error (specs H) j) as [n|] eqn:E; [|now repeat split]. cbv zeta. destruct (_ && _); [|now repeat split].
  assert (L : j < length (specs H)) by (apply nth_error_Some; congruence). split; [reflexivity|]. split; [reflexivity|]. split; [now apply with_spec_length|]. intros i a Ha. unfold own_attr. rewrite with_spec_nth by exact L.
  destruct (Nat.eqb i j) eqn:Ei; [|reflexivity]. apply Nat.eqb_eq in Ei as ->. rewrite E. rewrite dget_dset. destruct (str_eqb CHILD_ORDER a) eqn:Ea; [apply str_eqb_eq in Ea; congruence|reflexivity].
Qed.
Lemma nth_last {A} (l : list A) x : nth_error (l ++ [x]) (length l) = Some x.
Proof. rewrite nth_error_app2 by lia. now rewrite Nat.sub_diag. Qed.

Lemma name_in_order H home nm i x : x <> nm ->
  In x (as_strs match own_attr (name_in_layer H home nm) CHILD_ORDER (Sp i) with Some v => v | None => VNone end) <-> In x (as_strs match own_attr H CHILD_ORDER (Sp i) with Some v => v | None => VNone end).
Proof.
  intros Hx. unfold name_in_layer. destruct home as [j|]; [|reflexivity]. destruct (nth_error (specs H) j) as [n|] eqn:En; [|reflexivity]. cbv zeta. destruct (_ && _); [|reflexivity].
  unfold own_attr. rewrite with_spec_nth by (apply nth_error_Some; congruence). destruct (Nat.eqb i j) eqn:Ei; [|reflexivity]. apply Nat.eqb_eq in Ei as ->. rewrite En, dget_dset_same, as_strs_VStrs, merged_in. cbn [In].
  unfold attr_or_none. destruct (dget CHILD_ORDER n); split; try tauto; intros [Q|[Q|[]]]; auto; congruence.
Qed.

Section Added.
Variables (H : heap) (home : option nat) (sp : node) (ps : list pystr) (nm : pystr).
Let p := abs_path (ps ++ [nm]).
Let H0 := name_in_layer H home nm.
Let Xb := add_comp H0 p sp.
Hypothesis Hn : names (ps ++ [nm]).
Hypothesis new : here H p = false.
Hypothesis Enm : value sp NAME = VStr nm.
Hypothesis Epp : value sp PARENT_PATH = VStr (abs_path ps).

Lemma add_ns : names ps. Proof. now apply Forall_app in Hn as (Hp & _). Qed.
Lemma pp_neq : abs_path ps <> p.
Proof. unfold p. intros E. apply path_inj in E; [|apply add_ns|exact Hn]. apply (f_equal (@length _)) in E. rewrite app_length in E. cbn in E. lia. Qed.
Definition bare := {| specs := specs H0 ++ [sp]; comps := comps H0 ++ [(p, {| own := []; cbases := [Sp (length (specs H0))] |})]; dirty := dirty H0 |}.
Lemma bare_dget q : dget q (comps bare) = if str_eqb q p then Some {| own := []; cbases := [Sp (length (specs H))] |} else dget q (comps H).
Proof.
  destruct (name_in_layer_spec H home nm) as (C & _ & L & _). unfold bare. cbn [comps]. fold H0 in C, L. rewrite C, L, dget_app.
  destruct (str_eqb q p) eqn:E.
  - apply str_eqb_eq in E as ->. apply here_false in new. rewrite new. cbn. now rewrite str_eqb_refl.
  - destruct (dget q (comps H)); [reflexivity|]. cbn. rewrite str_eqb_sym in E. now rewrite E.
Qed.
Lemma bare_grown : grown H bare p sp /\ bs bare (Co p) = [Sp (length (specs H))] /\ forall a, own_attr bare a (Co p) = None.
Proof.
  destruct (name_in_layer_spec H home nm) as (C & D & L & O). fold H0 in C, D, L, O. split; [constructor|split].
  - intros q. unfold here, dmem. rewrite bare_dget. now destruct (str_eqb q p).
  - intros q Hq. unfold bs, bases_in. rewrite bare_dget. destruct (str_eqb q p) eqn:E; [apply str_eqb_eq in E; contradiction|reflexivity].
  - intros q a Hq Ha. unfold own_attr. rewrite bare_dget. destruct (str_eqb q p) eqn:E; [apply str_eqb_eq in E; contradiction|reflexivity].
  - intros i a Hi Ha. rewrite <- (O i a Ha). unfold own_attr, bare. cbn [specs]. rewrite nth_error_app1 by (rewrite L; exact Hi). reflexivity.
  - intros a. unfold own_attr, bare. cbn [specs]. rewrite <- L. now rewrite nth_last.
  - unfold bare. cbn [specs]. rewrite app_length, L. cbn. lia.
  - unfold bare. cbn [comps]. rewrite app_length, C. cbn. lia.
  - exact D.
  - unfold bs, bases_in. rewrite bare_dget, str_eqb_refl. reflexivity.
  - intros a. unfold own_attr. rewrite bare_dget, str_eqb_refl. reflexivity.
Qed.
Lemma Xb_form : Xb = bare \/ (here H (abs_path ps) = true /\ exists o, In nm o /\ Xb = set_order bare (abs_path ps) o).
Proof.
  unfold Xb, add_comp. fold bare. cbv zeta. change (attr_or_none sp PARENT_PATH) with (value sp PARENT_PATH). change (attr_or_none sp NAME) with (value sp NAME). rewrite Epp, Enm. cbn [str_of].
  destruct (here bare (abs_path ps) && negb (str_in nm (order_of bare (abs_path ps)))) eqn:E; [right|now left]. apply andb_prop in E as (E & _).
  rewrite (g_here _ _ _ _ (proj1 bare_grown)) in E. destruct (str_eqb (abs_path ps) p) eqn:Ep; [apply str_eqb_eq in Ep; now apply pp_neq in Ep|]. split; [exact E|]. eexists. split; [|reflexivity].
  apply merged_in. right. now left.
Qed.
Lemma set_order_grown X q o : grown H X p sp -> q <> p -> grown H (set_order X q o) p sp.
Proof.
  intros [A B C D E F G J] Hq. constructor; auto.
  - intros x. unfold set_order. rewrite here_set_attr. apply A.
  - intros x Hx. unfold set_order, set_attr. rewrite bs_with. rewrite <- (B x Hx). unfold bs, bases_in. destruct (str_eqb x q); [|reflexivity]. now destruct (dget x (comps X)).
  - intros x a Hx Ha. unfold set_order, set_attr. rewrite own_change. rewrite <- (C x a Hx Ha). unfold own_attr. destruct (str_eqb x q); [|reflexivity]. destruct (dget x (comps X)) as [c|]; [|reflexivity]. cbn [own].
    rewrite dget_dset. destruct (str_eqb CHILD_ORDER a) eqn:Ea; [apply str_eqb_eq in Ea; congruence|reflexivity].
  - cbn [set_order set_attr comps with_comps]. rewrite change_length. exact G.
Qed.
Lemma Xb_grown : grown H Xb p sp /\ bs Xb (Co p) = [Sp (length (specs H))] /\ forall a, own_attr Xb a (Co p) = None.
Proof.
  destruct Xb_form as [->|(_ & o & _ & ->)]; [exact bare_grown|]. destruct bare_grown as (G & E & O). split; [apply set_order_grown; [exact G|exact pp_neq]|].
  assert (N : str_eqb p (abs_path ps) = false) by (destruct (str_eqb p (abs_path ps)) eqn:Q; [apply str_eqb_eq in Q; symmetry in Q; now apply pp_neq in Q|reflexivity]). split.
  - unfold set_order, set_attr. rewrite bs_with, N. exact E.
  - intros a. unfold set_order, set_attr. rewrite own_change, N. apply O.
Qed.

(** The parent lists the new name. *)
Lemma order_change X q f x : q <> x -> order_of (with_comps X (change q f (comps X))) x = order_of X x.
Proof. intros N. unfold order_of. rewrite !attr_own, own_change, bs_with. destruct (str_eqb x q) eqn:E; [apply str_eqb_eq in E; congruence|reflexivity]. Qed.
Lemma Xb_listed : here H (abs_path ps) = true -> In nm (order_of Xb (abs_path ps)).
Proof.
  intros Hp. unfold Xb, add_comp. fold bare. cbv zeta. change (attr_or_none sp PARENT_PATH) with (value sp PARENT_PATH). change (attr_or_none sp NAME) with (value sp NAME). rewrite Epp, Enm. cbn [str_of].
  assert (Hb : here bare (abs_path ps) = true) by (rewrite (g_here _ _ _ _ (proj1 bare_grown)), Hp; apply orb_true_r). rewrite Hb. cbn [andb].
  destruct (str_in nm (order_of bare (abs_path ps))) eqn:E; cbn [negb]; [now apply str_in_In|].
  unfold order_of at 1. rewrite attr_own. unfold set_order, set_attr. rewrite own_change, str_eqb_refl. unfold here, dmem in Hb. destruct (dget (abs_path ps) (comps bare)); [|discriminate]. cbn [own]. rewrite dget_dset_same.
  rewrite as_strs_VStrs. apply merged_in. right. now left.
Qed.

(** Method resolution orders. *)
Section Orders.
Hypothesis So : sound H.
Variable X : heap.
Hypothesis G : grown H X p sp.
Definition old (x y : ref) : Prop := x = y /\ match x with Sp i => i < length (specs H) | Co q => here H q = true end.
Lemma old_not_new q : here H q = true -> q <> p. Proof. intros E ->. congruence. Qed.
Lemma old_one x y x' y' : old x x' -> old y y' -> (x = y <-> x' = y').
Proof. intros (-> & _) (-> & _). tauto. Qed.
Lemma old_bases x x' : old x x' -> Forall2 old (bs H x) (bs X x').
Proof.
  intros (<- & K). destruct x as [i|q]; [constructor|]. rewrite (g_bs _ _ _ _ G q) by now apply old_not_new. assert (V : forall r, In r (bs H (Co q)) -> old r r).
  { intros r Hr. split; [reflexivity|]. apply (proj1 (valid_bs H)) with (p := q); [apply So|exact K|exact Hr]. }
  induction (bs H (Co q)) as [|r l IH]; constructor; [apply V; now left|]. apply IH. intros r' Hr'. apply V. now right.
Qed.
Lemma RL_eq l l' : Forall2 old l l' -> l = l'.
Proof. induction 1 as [|x y l l' (-> & _) _ ->]; reflexivity. Qed.
Lemma old_mro q l : here H q = true -> mro_of H (Co q) = Some l -> mro_of X (Co q) = Some l /\ Forall2 old l l.
Proof.
  intros Hq El. unfold mro_of in *. pose proof (mro_alike ref_eqb ref_eqb_eq old old_one (bases_in (comps H)) (bases_in (comps X)) old_bases (S (length (specs H) + length (comps H))) (Co q) (Co q) (conj eq_refl Hq)) as M. rewrite El in M.
  destruct (mro ref_eqb (bases_in (comps X)) _ (Co q)) as [l'|] eqn:E'; [|contradiction]. cbn [RO] in M. pose proof (RL_eq _ _ M). subst l'. split; [|exact M].
  eapply mro_le; [|exact E']. rewrite (g_specs _ _ _ _ G), (g_comps _ _ _ _ G). lia.
Qed.
Lemma old_reads cs a : in_stage H cs -> a <> CHILD_ORDER -> reads X cs a = reads H cs a.
Proof.
  intros Hh Ha. destruct So as (_ & M). destruct (M _ Hh) as (l & El). destruct (old_mro _ l Hh El) as (El' & R). unfold reads, getattr. rewrite El, El'. symmetry.
  apply (lookup_alike old); [|exact R]. intros x x' (<- & K). destruct x as [i|q]; [now rewrite (g_sp _ _ _ _ G)|]. rewrite (g_own _ _ _ _ G); auto. now apply old_not_new.
Qed.
(** The new node, with and without a parent. *)
Lemma new_fresh q l : here H q = true -> mro_of H (Co q) = Some l -> ~ In (Sp (length (specs H))) l /\ ~ In (Co p) l.
Proof.
  intros Hq El. destruct (old_mro q l Hq El) as (_ & R). assert (A : forall r, In r l -> old r r). { clear -R. induction l as [|x l IH]; [intros r []|]. inversion R; subst. intros r [<-|Hr]; auto. }
  split; intros I; apply A in I as (_ & I); [lia|congruence].
Qed.
Lemma no_dup_mro q l : mro_of H (Co q) = Some l -> NoDup l.
Proof. intros E. now apply (mro_laws ref_eqb ref_eqb_eq _ _ _ _ E). Qed.
Lemma new_mro_alone : bs X (Co p) = [Sp (length (specs H))] -> mro_of X (Co p) = Some [Co p; Sp (length (specs H))].
Proof.
  intros E. unfold mro_of. rewrite (g_specs _ _ _ _ G), (g_comps _ _ _ _ G). apply (mro_front_only ref_eqb ref_eqb_eq); [exact E|constructor; [now intros []|constructor]|]. intros x [<-|[]]. reflexivity.
Qed.
Lemma new_mro_parent q l : here H q = true -> mro_of H (Co q) = Some l -> bs X (Co p) = [Sp (length (specs H)); Co q] -> mro_of X (Co p) = Some (Co p :: Sp (length (specs H)) :: l).
Proof.
  intros Hq El E. destruct (old_mro q l Hq El) as (El' & _). destruct (new_fresh q l Hq El) as (N1 & N2). pose proof (no_dup_mro q l El) as Nd.
  pose proof (mro_laws ref_eqb ref_eqb_eq _ _ _ _ El) as ((t & El2) & _).
  assert (V : valid X).
  { apply valid_bs. intros x r Hx Hr. destruct (str_eqb x p) eqn:Ex.
    - apply str_eqb_eq in Ex as ->. rewrite E in Hr. destruct Hr as [<-|[<-|[]]]; [rewrite (g_specs _ _ _ _ G); lia|]. rewrite (g_here _ _ _ _ G), Hq. apply orb_true_r.
    - rewrite (g_here _ _ _ _ G), Ex in Hx. cbn in Hx. rewrite (g_bs _ _ _ _ G) in Hr by now apply old_not_new. pose proof (proj1 (valid_bs H) (proj1 So) x r Hx Hr) as K.
      destruct r as [i|y]; [rewrite (g_specs _ _ _ _ G); lia|]. rewrite (g_here _ _ _ _ G), K. apply orb_true_r. }
  unfold mro_of in El'. apply (mro_enough X (S (S (length (specs X) + length (comps X))))); [exact V|]. apply (mro_unfold ref_eqb). exists [[Sp (length (specs H))]; l], (Sp (length (specs H)) :: l).
  change (bs X (Co p)) with (bs X (Co p)). rewrite E. split; [|split; [|reflexivity]].
  - cbn [map]. rewrite (mro_no_bases ref_eqb (bs X)) by reflexivity. f_equal. f_equal. exact El'.
  - subst l. pose proof (c3_front ref_eqb ref_eqb_eq [Sp (length (specs H))] [Co q :: t] [Co q]) as C. cbn [map app] in C |- *. rewrite C.
    + now rewrite (c3_single_base ref_eqb ref_eqb_eq).
    + constructor; [now intros []|constructor].
    + intros x [<-|[]]. split; [intros [Q|[]]; discriminate|]. intros l' [<-|[]]. exact N1.
Qed.
Lemma grown_mros : (exists l, mro_of X (Co p) = Some l) -> all_mros X = true.
Proof.
  intros Np. apply all_mros_spec. intros q Hq. rewrite (g_here _ _ _ _ G) in Hq. destruct (str_eqb q p) eqn:E; [apply str_eqb_eq in E as ->; exact Np|]. cbn in Hq.
  destruct So as (_ & M). destruct (M _ Hq) as (l & El). exists l. now apply old_mro.
Qed.
End Orders.

(** *** The run *)
Section Run.
Hypothesis So : sound H.
Hypothesis quiet_parent : dirties H (abs_path ps) = [].
Hypothesis quiet_new : dirties H p = [].
Hypothesis no_inst : value sp INSTANCE_PATH = VNone \/ value sp INSTANCE_PATH = VStr [].
Hypothesis no_proxy : value sp PROXY = VBool false.
Hypothesis linked : ps = [] \/ here H (abs_path ps) = true.
Hypothesis checked : here H (abs_path ps) = true -> check_path H (Co (abs_path ps)) = abs_path ps.
Definition rest := if here H (abs_path ps) then [Co (abs_path ps)] else [].

Lemma dirties_same X q : dirty X = dirty H -> dirties X q = dirties H q.
Proof. unfold dirties. now intros ->. Qed.
Lemma new_attr X a : grown H X p sp -> own_attr X a (Co p) = None -> (exists r, bs X (Co p) = Sp (length (specs H)) :: r) -> attr X p a = value sp a.
Proof. intros G O (r & E). rewrite attr_own, O, E, (g_new _ _ _ _ G). reflexivity. Qed.
Lemma not_world nm' : plain_name nm' -> str_eqb nm' WORLD = false. Proof. apply name_not_world. Qed.
Lemma plain_nm : plain_name nm. Proof. apply Forall_app in Hn as (_ & Hn'). now inversion Hn'. Qed.
Lemma join_p : join_node_paths (abs_path ps) nm = p.
Proof. apply join_node_paths_abs. apply names_comp, Hn. Qed.
Lemma pp_neqb : str_eqb (abs_path ps) p = false.
Proof. destruct (str_eqb (abs_path ps) p) eqn:E; [apply str_eqb_eq in E; now apply pp_neq in E|reflexivity]. Qed.

Lemma proxies_step top one fuel : targeted_proxies top one fuel Xb p = Some (Ok (Xb, [(p, (found H (abs_path ps), None))])).
Proof.
  destruct Xb_grown as (G & E & O). unfold targeted_proxies. cbv zeta.
  assert (A : forall a, attr Xb p a = value sp a) by (intros a; apply new_attr; eauto).
  assert (Par : parent_of Xb p = abs_path ps) by (unfold parent_of; now rewrite A, Epp).
  rewrite Par, !(dirties_same Xb _ (g_dirty _ _ _ _ G)), quiet_parent, quiet_new. cbn [fold_left].
  assert (Src : new_source Xb p = None).
  { unfold new_source, inst_of. rewrite A. destruct no_inst as [-> | ->]; reflexivity. }
  rewrite Src. do 4 f_equal. unfold new_parent. rewrite Par. rewrite abs_not_empty. do 2 f_equal.
  assert (N : nearest (S (length (abs_path ps))) Xb (abs_path ps) = abs_path ps).
  { cbn [nearest]. rewrite (g_here _ _ _ _ G), pp_neqb. cbn [orb]. destruct linked as [->| ->]; [|reflexivity]. destruct (here H (abs_path [])); reflexivity. }
  rewrite N. unfold found. rewrite (g_here _ _ _ _ G), pp_neqb. reflexivity.
Qed.

(** After the bases are set. *)
Definition Xc := if here H (abs_path ps) then with_comps Xb (change p (fun c => {| own := own c; cbases := [Sp (length (specs H)); Co (abs_path ps)] |}) (comps Xb)) else Xb.
Lemma here_p X : grown H X p sp -> here X p = true.
Proof. intros G. rewrite (g_here _ _ _ _ G), str_eqb_refl. reflexivity. Qed.
Lemma Xc_grown : grown H Xc p sp /\ bs Xc (Co p) = Sp (length (specs H)) :: rest /\ forall a, own_attr Xc a (Co p) = None.
Proof.
  destruct Xb_grown as (G & E & O). unfold Xc, rest. destruct (here H (abs_path ps)); [|auto]. split; [now apply grown_change|]. pose proof (here_p Xb G) as Hp. unfold here, dmem in Hp. split.
  - rewrite bs_with, str_eqb_refl. destruct (dget p (comps Xb)); [reflexivity|discriminate].
  - intros a. specialize (O a). unfold own_attr in O. rewrite own_change, str_eqb_refl. destruct (dget p (comps Xb)); [exact O|reflexivity].
Qed.
Lemma Xc_mros : all_mros Xc = true.
Proof.
  destruct Xc_grown as (G & E & _). apply (grown_mros So Xc G). unfold rest in E. destruct (here H (abs_path ps)) eqn:Hp.
  - destruct So as (_ & M). destruct (M _ Hp) as (l & El). eexists. now apply (new_mro_parent So Xc G (abs_path ps) l).
  - eexists. now apply new_mro_alone.
Qed.
Lemma Xc_attr a : attr Xc p a = value sp a.
Proof. destruct Xc_grown as (G & E & O). apply new_attr; eauto. Qed.
Lemma Xc_path : join_node_paths (parent_of Xc p) (name_of Xc p) = p.
Proof. unfold parent_of, name_of. rewrite !Xc_attr, Epp, Enm. apply join_p. Qed.

Lemma add_parent : here H (abs_path ps) = true -> safe_add Xb p (abs_path ps) = Ok Xc.
Proof.
  intros Hp. destruct Xb_grown as (G & E & O). unfold safe_add. cbv zeta. change (bases_in (comps Xb) (Co p)) with (bs Xb (Co p)). rewrite E. cbn [isin existsb ref_eqb orb].
  assert (Sb : safe_bases Xb [Sp (length (specs H))] (abs_path ps) = [Sp (length (specs H))]).
  { unfold safe_bases. cbn [filter]. destruct (existsb _ _) eqn:Ex; [|reflexivity]. exfalso. apply existsb_exists in Ex as (b & Hb & Ib). change (bases_in (comps Xb) (Co (abs_path ps))) with (bs Xb (Co (abs_path ps))) in Hb.
    rewrite (g_bs _ _ _ _ G _ pp_neq) in Hb. pose proof (proj1 (valid_bs H) (proj1 So) _ _ Hp Hb) as V. destruct b as [i|q].
    - unfold mro_of in Ib. cbn in Ib. rewrite orb_false_r in Ib. apply Nat.eqb_eq in Ib. lia.
    - destruct So as (_ & M). destruct (M _ V) as (l & El). destruct (old_mro So Xb G q l V El) as (El' & _). rewrite El' in Ib. apply (isin_In ref_eqb ref_eqb_eq) in Ib. exact (proj1 (new_fresh So Xb G q l V El) Ib). }
  rewrite Sb. cbn [app]. unfold set_bases. pose proof Xc_mros as M. unfold Xc in *. rewrite Hp in *. now rewrite M.
Qed.
Lemma post_step : targeted_post Xb [(p, (found H (abs_path ps), None))] = Ok (update_inherited [Parent; Instance] Xc p, [p]).
Proof.
  destruct Xb_grown as (G & E & O). pose proof add_parent as AP. pose proof Xc_grown as XG. assert (A : forall a, attr Xb p a = value sp a) by (intros a; apply new_attr; eauto).
  assert (Pb : join_node_paths (parent_of Xb p) (name_of Xb p) = p) by (unfold parent_of, name_of; rewrite !A, Epp, Enm; apply join_p).
  assert (P1 : post_arc false (Xb, []) (p, (found H (abs_path ps), None)) = Ok (Xc, [p])).
  { unfold post_arc. cbv zeta. rewrite Pb. cbn [str_in existsb app]. unfold found. destruct (here H (abs_path ps)) eqn:Hp.
    - cbv iota beta. rewrite (AP eq_refl). cbn [bind]. rewrite (dirties_same Xc _ (g_dirty _ _ _ _ (proj1 XG))), quiet_new. reflexivity.
    - unfold Xc. now rewrite Hp. }
  unfold targeted_post. cbn [fold_res]. rewrite P1. cbn [bind]. unfold post_arc. cbv zeta. rewrite Xc_path. cbn [str_in existsb]. rewrite str_eqb_refl. cbn [orb bind dkeys map fst snd fold_left]. reflexivity.
Qed.

(** The inherited attributes. *)
Lemma update_idle b l : forall X handled, NoDup l -> (forall a, In a l -> ~ In a handled) ->
  fold_left (update_attr p b false) l (X, handled) = (X, handled ++ filter (fun a => has_opinion (ref_attr X b a)) l).
Proof.
  induction l as [|a l IH]; intros X hd Nd D; cbn [fold_left filter]; [now rewrite app_nil_r|]. inversion Nd as [|? ? Na Nd']; subst. unfold update_attr at 2. cbv iota.
  destruct (str_in a hd) eqn:E; [apply str_in_In in E; exfalso; apply (D a); [now left|exact E]|]. destruct (has_opinion (ref_attr X b a)).
  - rewrite IH; [now rewrite <- app_assoc|exact Nd'|]. intros x Hx. rewrite in_app_iff. intros [F|[F|[]]]; [apply (D x); [now right|exact F]|subst; contradiction].
  - apply IH; [exact Nd'|]. intros x Hx. apply D. now right.
Qed.
Definition fill (handled : list pystr) (l : list pystr) (X : heap) : heap := fold_left (fun X a => if str_in a handled then X else set_attr X p a (default_of a)) l X.
Lemma fill_spec handled l : forall X, grown H X p sp -> grown H (fill handled l X) p sp /\ bs (fill handled l X) (Co p) = bs X (Co p) /\
  forall a, own_attr (fill handled l X) a (Co p) = if str_in a l && negb (str_in a handled) then Some (default_of a) else own_attr X a (Co p).
Proof.
  induction l as [|x l IH]; intros X G; [split; [exact G|split; [reflexivity|intros; reflexivity]]|]. cbn [fill fold_left]. destruct (str_in x handled) eqn:Ex.
  - destruct (IH X G) as (A & B & C). split; [exact A|]. split; [exact B|]. intros a. unfold fill in C. rewrite C. change (str_in a (x :: l)) with (str_eqb a x || str_in a l). destruct (str_eqb a x) eqn:Exa; [|reflexivity].
    apply str_eqb_eq in Exa as ->. rewrite Ex. cbn [negb]. now rewrite !andb_false_r.
  - assert (G' : grown H (set_attr X p x (default_of x)) p sp) by now apply grown_change. destruct (IH _ G') as (A & B & C). pose proof (here_p X G) as Hp. unfold here, dmem in Hp. split; [exact A|]. split.
    + unfold fill in B. rewrite B. unfold set_attr. rewrite bs_with, str_eqb_refl. unfold bs, bases_in. now destruct (dget p (comps X)).
    + intros a. unfold fill in C. rewrite C. unfold set_attr. rewrite own_change, str_eqb_refl. unfold own_attr at 1. destruct (dget p (comps X)) as [c|] eqn:Ec; [|discriminate]. cbn [own]. rewrite dget_dset. change (str_in a (x :: l)) with (str_eqb a x || str_in a l). rewrite (str_eqb_sym x a).
      destruct (str_eqb a x) eqn:Exa.
      * apply str_eqb_eq in Exa as ->. rewrite Ex. cbn [orb negb andb]. now destruct (str_in x l && true).
      * reflexivity.
Qed.
Lemma fill_order handled l x : p <> x -> forall X, order_of (fill handled l X) x = order_of X x.
Proof. intros N. induction l as [|a l IH]; intros X; [reflexivity|]. cbn [fill fold_left]. fold (fill handled l). unfold fill in IH. rewrite IH. destruct (str_in a handled); [reflexivity|]. now apply order_change. Qed.
Lemma arc_new : get_arc Xc p (Sp (length (specs H))) = Some Reference.
Proof.
  destruct Xc_grown as (G & E & O). unfold get_arc. cbv zeta. assert (C : path_of Xc (Co p) = p) by (unfold path_of, ref_attr; rewrite !Xc_attr, Epp, Enm; apply join_p).
  assert (R : forall a, ref_attr Xc (Sp (length (specs H))) a = value sp a). { intros a. pose proof (g_new _ _ _ _ G a) as N. unfold own_attr in N. unfold ref_attr, value. rewrite <- N. now destruct (nth_error (specs Xc) (length (specs H))). }
  assert (K : check_path Xc (Sp (length (specs H))) = p). { unfold check_path. cbv zeta. rewrite !R, Epp, Enm. cbn [str_of]. rewrite (not_world nm plain_nm), abs_not_empty. apply join_p. }
  rewrite C, K, str_eqb_refl. reflexivity.
Qed.
Lemma arc_up : here H (abs_path ps) = true -> get_arc Xc p (Co (abs_path ps)) = Some Parent.
Proof.
  intros Hp. destruct Xc_grown as (G & E & O). unfold get_arc. cbv zeta. assert (C : path_of Xc (Co p) = p) by (unfold path_of, ref_attr; rewrite !Xc_attr, Epp, Enm; apply join_p).
  assert (A : forall a, a <> CHILD_ORDER -> attr Xc (abs_path ps) a = attr H (abs_path ps) a).
  { intros a Ha. rewrite !attr_own, (g_own _ _ _ _ G _ _ pp_neq Ha), (g_bs _ _ _ _ G _ pp_neq). destruct (own_attr H a (Co (abs_path ps))); [reflexivity|]. destruct (bs H (Co (abs_path ps))) as [|[i|q] l] eqn:Eb; try reflexivity.
    rewrite (g_sp _ _ _ _ G); [reflexivity| |exact Ha]. apply (proj1 (valid_bs H) (proj1 So) (abs_path ps) (Sp i) Hp). rewrite Eb. now left. }
  assert (K : check_path Xc (Co (abs_path ps)) = abs_path ps). { rewrite <- (checked Hp) at 2. unfold check_path, ref_attr. rewrite !A by discriminate. reflexivity. }
  rewrite C, K. rewrite str_eqb_sym, pp_neqb. rewrite Xc_attr, Epp. cbn [str_of]. rewrite str_eqb_refl.
  assert (An : is_ancestor p (abs_path ps) = true). { apply is_ancestor_abs; [apply names_comp, Hn|apply names_comp, add_ns|]. right. exists [nm]. split; [discriminate|reflexivity]. }
  rewrite An. reflexivity.
Qed.
Lemma update_step : exists handled, update_inherited [Parent; Instance] Xc p = fill handled INSTANCE_ATTRS Xc /\
  forall a, In a INSTANCE_ATTRS -> str_in a handled = has_opinion (value sp a).
Proof.
  destruct Xc_grown as (G & E & O). unfold update_inherited. cbv zeta. rewrite Xc_attr, no_proxy. cbn [truthy].
  assert (R : forall a, ref_attr Xc (Sp (length (specs H))) a = value sp a). { intros a. pose proof (g_new _ _ _ _ G a) as N. unfold own_attr in N. unfold ref_attr, value. rewrite <- N. now destruct (nth_error (specs Xc) (length (specs H))). }
  set (handled := filter (fun a => has_opinion (value sp a)) (arc_attrs (Some Reference))). exists handled.
  assert (U : update_base p [Parent; Instance] (Xc, [], []) (Sp (length (specs H))) = (Xc, handled, [Some Reference])).
  { unfold update_base. rewrite arc_new. change (has_arc [Parent; Instance] (Some Reference)) with false. rewrite update_idle.
    - cbn [app]. do 2 f_equal. unfold handled. apply filter_ext. intros a. now rewrite R.
    - repeat constructor; vm_compute; intuition discriminate.
    - intros a _ []. }
  change (bases_in (comps Xc) (Co p)) with (bs Xc (Co p)). rewrite E. cbn [fold_left]. rewrite U. split.
  - pose proof arc_up as AU. unfold rest. destruct (here H (abs_path ps)) eqn:Hp.
    + cbn [fold_left]. unfold update_base. rewrite (AU eq_refl). cbn [arc_attrs fold_left app]. reflexivity.
    + cbn [fold_left]. reflexivity.
  - intros a Ha. unfold handled. destruct (has_opinion (value sp a)) eqn:Eo.
    + apply str_in_In. apply filter_In. split; [|exact Eo]. cbn in Ha |- *. tauto.
    + destruct (str_in a _) eqn:Ei; [|reflexivity]. apply str_in_In, filter_In in Ei as (_ & Ei). congruence.
Qed.

(** The layers' nodes, and the order of the parent's children. *)
Lemma fill_specs handled l : forall X, specs (fill handled l X) = specs X.
Proof. induction l as [|a l IH]; intros X; [reflexivity|]. cbn [fill fold_left]. fold (fill handled l). unfold fill in IH. rewrite IH. now destruct (str_in a handled). Qed.
Lemma Xc_specs : specs Xc = specs H0 ++ [sp].
Proof. assert (E : specs Xb = specs H0 ++ [sp]) by (destruct Xb_form as [->|(_ & o & _ & ->)]; reflexivity). unfold Xc. now destruct (here H (abs_path ps)). Qed.
Lemma bare_order x : here H (abs_path ps) = true -> x <> nm -> In x (order_of bare (abs_path ps)) <-> In x (order_of H (abs_path ps)).
Proof.
  intros Hp Hx. destruct bare_grown as (G & _ & _). unfold order_of. rewrite !attr_own. rewrite (g_bs _ _ _ _ G _ pp_neq).
  assert (E1 : own_attr bare CHILD_ORDER (Co (abs_path ps)) = own_attr H CHILD_ORDER (Co (abs_path ps))). { unfold own_attr. rewrite bare_dget. destruct (str_eqb (abs_path ps) p) eqn:E; [apply str_eqb_eq in E; now apply pp_neq in E|reflexivity]. }
  rewrite E1. destruct (own_attr H CHILD_ORDER (Co (abs_path ps))); [reflexivity|]. destruct (bs H (Co (abs_path ps))) as [|[i|r] l] eqn:Eb; try reflexivity.
  assert (L : i < length (specs H)). { apply (proj1 (valid_bs H) (proj1 So) (abs_path ps) (Sp i) Hp). rewrite Eb. now left. }
  assert (E2 : own_attr bare CHILD_ORDER (Sp i) = own_attr H0 CHILD_ORDER (Sp i)). { unfold own_attr, bare. cbn [specs]. rewrite nth_error_app1; [reflexivity|]. unfold H0. now rewrite (proj1 (proj2 (proj2 (name_in_layer_spec H home nm)))). }
  rewrite E2. exact (name_in_order H home nm i x Hx).
Qed.
Lemma Xb_order x : here H (abs_path ps) = true -> In x (order_of Xb (abs_path ps)) <-> x = nm \/ In x (order_of H (abs_path ps)).
Proof.
  intros Hp. destruct (list_eq_dec N.eq_dec x nm) as [->|Hx]; [split; [now left|intros _; now apply Xb_listed]|]. rewrite <- (bare_order x Hp Hx). 
  unfold Xb, add_comp. fold bare. cbv zeta. change (attr_or_none sp PARENT_PATH) with (value sp PARENT_PATH). change (attr_or_none sp NAME) with (value sp NAME). rewrite Epp, Enm. cbn [str_of].
  assert (Hb : here bare (abs_path ps) = true) by (rewrite (g_here _ _ _ _ (proj1 bare_grown)), Hp; apply orb_true_r). rewrite Hb. cbn [andb].
  destruct (str_in nm (order_of bare (abs_path ps))); cbn [negb]; [split; [now right|intros [Q|Q]; [congruence|exact Q]]|].
  unfold order_of at 1. rewrite attr_own. unfold set_order, set_attr. rewrite own_change, str_eqb_refl. unfold here, dmem in Hb. destruct (dget (abs_path ps) (comps bare)); [|discriminate]. cbn [own]. rewrite dget_dset_same.
  rewrite as_strs_VStrs, merged_in. cbn [In]. split; [intros [Q|[Q|[]]]; [now right|congruence]|intros [Q|Q]; [congruence|now left]].
Qed.

Lemma run_form top one fuel : exists X, add_node top one fuel H home sp = Some (Ok (X, [p])) /\ grown H X p sp /\ bs X (Co p) = Sp (length (specs H)) :: rest /\
  (forall a, own_attr X a (Co p) = if str_in a INSTANCE_ATTRS && negb (has_opinion (value sp a)) then Some (default_of a) else None) /\
  (here H (abs_path ps) = true -> In nm (order_of X (abs_path ps))) /\ specs X = specs (name_in_layer H home nm) ++ [sp] /\
  (here H (abs_path ps) = true -> forall x, In x (order_of X (abs_path ps)) <-> x = nm \/ In x (order_of H (abs_path ps))).
Proof.
  destruct update_step as (handled & U & Hh). destruct Xc_grown as (G & E & O). destruct (fill_spec handled INSTANCE_ATTRS Xc G) as (G' & E' & O'). exists (fill handled INSTANCE_ATTRS Xc).
  split; [|split; [exact G'|split; [now rewrite E'|split; [|split; [|split]]]]].
  - unfold add_node. cbv zeta. change (attr_or_none sp PARENT_PATH) with (value sp PARENT_PATH). change (attr_or_none sp NAME) with (value sp NAME). rewrite Epp, Enm. cbn [str_of]. rewrite join_p. fold H0.
    assert (Hw : here H0 p = false). { unfold here, dmem, H0. rewrite (proj1 (name_in_layer_spec H home nm)). exact new. }
    rewrite Hw. fold Xb. rewrite proxies_step. cbn [bind fst snd]. rewrite post_step, U. reflexivity.
  - intros a. rewrite O', O. destruct (str_in a INSTANCE_ATTRS) eqn:Ea; [|reflexivity]. apply str_in_In in Ea. now rewrite (Hh a Ea).
  - intros Hp. rewrite fill_order by (intros Q; now apply pp_neq). unfold Xc. rewrite Hp, order_change by (intros Q; now apply pp_neq). now apply Xb_listed.
  - rewrite fill_specs. exact Xc_specs.
  - intros Hp x. rewrite fill_order by (intros Q; now apply pp_neq). rewrite <- (Xb_order x Hp). unfold Xc. rewrite Hp, order_change by (intros Q; now apply pp_neq). reflexivity.
Qed.

(** What the new node shows. *)
Lemma run_reads X a : grown H X p sp -> bs X (Co p) = Sp (length (specs H)) :: rest ->
  reads X (ps ++ [nm]) a = match own_attr X a (Co p) with Some v => Some v | None => match dget a sp with Some v => Some v | None => if here H (abs_path ps) then reads X ps a else None end end.
Proof.
  intros G E. unfold reads, getattr. unfold rest in E. destruct (here H (abs_path ps)) eqn:Hp.
  - destruct So as (_ & M). destruct (M _ Hp) as (l & El). fold p. rewrite (new_mro_parent So X G (abs_path ps) l Hp El E). destruct (old_mro So X G _ l Hp El) as (-> & _). cbn [lookup_in]. rewrite (g_new _ _ _ _ G).
    destruct (own_attr X a (Co p)); [reflexivity|]. now destruct (dget a sp).
  - fold p. rewrite (new_mro_alone X G E). cbn [lookup_in]. rewrite (g_new _ _ _ _ G). destruct (own_attr X a (Co p)); [reflexivity|]. now destruct (dget a sp).
Qed.
End Run.
End Added.

(** *** The layers with the node *)
Definition at_ (cs : list pystr) (rows : list layer_row) : list data :=
  map snd (filter (fun r => if list_eq_dec (list_eq_dec N.eq_dec) (fst r) (ns_of cs) then true else false) rows).
Lemma at_app cs a b : at_ cs (a ++ b) = at_ cs a ++ at_ cs b.
Proof. unfold at_. now rewrite filter_app, map_app. Qed.
Lemma at_alike cs rows rows' : Forall2 row_alike rows rows' -> Forall2 near (at_ cs rows) (at_ cs rows').
Proof.
  induction 1 as [|r r' l l' (E & N) _ IH]; [constructor|]. unfold at_ in *. cbn [filter]. destruct r as [x n], r' as [x' n']. cbn [fst snd] in *. subst x'.
  destruct (list_eq_dec (list_eq_dec N.eq_dec) x (ns_of cs)); [|exact IH]. constructor; [exact N|exact IH].
Qed.
Lemma near_refl l : Forall2 near l l. Proof. induction l; [constructor|constructor; [intros a' _; reflexivity|assumption]]. Qed.
Section More.
Variables (layers layers' : list (list layer_row)) (ps : list pystr) (nm : pystr) (sp : data).
Let new := ps ++ [nm].
Hypothesis Hn : names new.
Hypothesis M : one_more new sp layers layers'.
Lemma more_new : opinions new layers' = [sp] /\ opinions new layers = [].
Proof.
  destruct M as [L0 rows rows' L1 -> -> F E]. split; [|exact E]. change (opinions new (L0 ++ rows :: L1)) with (at_ new (concat (L0 ++ rows :: L1))) in E. change (at_ new (concat (L0 ++ (rows' ++ [(ns_of new, sp)]) :: L1)) = [sp]).
  rewrite concat_app in *. cbn [concat] in *. rewrite !at_app in *. apply app_eq_nil in E as (-> & E). apply app_eq_nil in E as (E & ->). pose proof (at_alike new _ _ F) as A. rewrite E in A. inversion A. cbn [app].
  unfold at_. cbn [filter fst]. destruct (list_eq_dec (list_eq_dec N.eq_dec) (ns_of new) (ns_of new)); [reflexivity|contradiction].
Qed.
Lemma more_elsewhere es : names es -> es <> new -> said_alike layers layers' es.
Proof.
  intros He Ne. destruct M as [L0 rows rows' L1 -> -> F E]. unfold said_alike. change (Forall2 near (at_ es (concat (L0 ++ rows :: L1))) (at_ es (concat (L0 ++ (rows' ++ [(ns_of new, sp)]) :: L1)))).
  rewrite !concat_app. cbn [concat]. rewrite !at_app. apply Forall2_app; [apply near_refl|]. apply Forall2_app; [|apply near_refl].
  assert (Z : at_ es [(ns_of new, sp)] = []). { unfold at_. cbn [filter fst]. destruct (list_eq_dec (list_eq_dec N.eq_dec) (ns_of new) (ns_of es)) as [Q|_]; [|reflexivity]. apply ns_of_inj in Q; auto. congruence. }
  rewrite Z, app_nil_r. now apply at_alike.
Qed.
Lemma more_said es : names es -> es <> new -> opinions es layers' = [] -> opinions es layers = [].
Proof. intros He Ne E. apply (alike_nil _ _ (more_elsewhere es He Ne)). exact E. Qed.
Lemma more_said' es : names es -> es <> new -> opinions es layers = [] -> opinions es layers' = [].
Proof. intros He Ne E. apply (alike_nil _ _ (more_elsewhere es He Ne)). exact E. Qed.
Lemma up_not_new : ps <> new. Proof. unfold new. intros E. apply (f_equal (@length _)) in E. rewrite app_length in E. cbn in E. lia. Qed.

Variables H H' : heap.
Hypotheses (Rg : regular layers) (Rg' : regular layers') (B : stage_of layers H) (B' : stage_of layers' H').
Hypothesis no_inst : value sp INSTANCE_PATH = VNone \/ value sp INSTANCE_PATH = VStr [].
Hypothesis unseen_parent : ps = [] \/ forall es, ~ points H es ps.
Hypothesis unseen_new : forall es, ~ points H es new.
Let wf := r_fits layers Rg.
Let wf' := r_fits layers' Rg'.

Lemma ps_names : names ps. Proof. now apply Forall_app in Hn as (Hp & _). Qed.
Lemma nil_not_new : [] <> new. Proof. unfold new. destruct ps; discriminate. Qed.
Lemma parent_said : ps = [] \/ opinions ps layers <> [].
Proof.
  destruct (r_gapless layers' Rg' ps nm Hn) as [E|E]; [change (opinions new layers' <> []); rewrite (proj1 more_new); discriminate|now left|]. right. intros Q. apply E. apply more_said'; [apply ps_names|exact up_not_new|exact Q].
Qed.
Lemma not_yet : ~ in_stage H new.
Proof.
  intros Hh. destruct (one_proxy layers H Rg B ps nm Hn Hh (proj2 more_new)) as (rs & Hp & _ & I & _). pose proof I as (Hr & Hrn & _ & Er). destruct parent_said as [Eps|Ho].
  - apply (one_world layers H Rg B rs); rewrite Eps in *; auto.
  - apply (C34_instance_path layers H wf B ps rs ps_names (one_pure layers Rg ps ps_names) Ho Hr Hrn) in Er. apply (alike_source layers layers' ps rs (more_elsewhere ps ps_names up_not_new)) in Er.
    apply (r_pure layers' Rg' ps [nm] rs Hn) in Er; auto; [discriminate|]. change (opinions new layers' <> []). rewrite (proj1 more_new). discriminate.
Qed.
Lemma new_no_source rs : names rs -> rs <> [] -> reads H' new INSTANCE_PATH <> Some (VStr (abs_path rs)).
Proof.
  intros Hr Hrn E. apply (C34_instance_path layers' H' wf' B' new rs Hn (one_pure layers' Rg' new Hn)) in E; auto; [|rewrite (proj1 more_new); discriminate]. destruct E as (n & (a & b & E1 & _) & E2). rewrite (proj1 more_new) in E1.
  destruct a as [|x a]; cbn [app] in E1; [|injection E1 as _ E1; destruct a; discriminate]. injection E1 as <- _. destruct no_inst as [Q|Q]; rewrite Q in E2; [discriminate|]. injection E2 as E2. symmetry in E2. now apply path_not_empty in E2.
Qed.
(** Every other node of the new stage was there, instancing the same. *)
Lemma nothing_else : forall k cs, tall H' (Co (abs_path cs)) < k -> names cs -> in_stage H' cs -> cs <> new ->
  in_stage H cs /\ forall rs, names rs -> rs <> [] -> reads H' cs INSTANCE_PATH = Some (VStr (abs_path rs)) -> reads H cs INSTANCE_PATH = Some (VStr (abs_path rs)).
Proof.
  induction k as [|k IH]; intros cs Hk Hc Hh Ne; [lia|]. pose proof (more_elsewhere cs Hc Ne) as Al. destruct (opinions cs layers') as [|d l] eqn:Eo.
  - destruct (removelast_snoc' cs) as [->|(qs & nm' & ->)]; [exfalso; now apply (proj1 (one_root layers' H' Rg' B')) in Hh|].
    destruct (one_proxy layers' H' Rg' B' qs nm' Hc Hh Eo) as (rs & Hq & K & I & I' & _). pose proof (parent_names H' _ _ Hc K) as (Hqn & _).
    assert (T1 : tall H' (Co (abs_path qs)) < k) by (pose proof (one_parent_tall layers' H' Rg' B' _ _ Hc Hh K); lia). pose proof (one_source_tall layers' H' Rg' B' _ _ Hq I) as T2. pose proof (one_source_tall layers' H' Rg' B' _ _ Hh I') as T3.
    pose proof I as (Hr & Hrn & Hrh & Er). pose proof I' as (Hr' & _ & Hrh' & Er').
    assert (Nq : qs <> new) by (intros ->; now apply (new_no_source rs Hr Hrn)).
    destruct (IH qs T1 Hqn Hq Nq) as (Q1 & Q2). specialize (Q2 rs Hr Hrn Er).
    assert (Nr : rs <> new) by (intros ->; apply (unseen_new qs); repeat split; auto). destruct (IH rs ltac:(lia) Hr Hrh Nr) as (R1 & _).
    assert (I0 : instances H qs rs) by (repeat split; auto).
    assert (Nr' : rs ++ [nm'] <> new). { unfold new. intros E. apply app_inj_tail in E as (-> & _). destruct unseen_parent as [->|U]; [contradiction|]. apply (U qs). repeat split; auto. }
    destruct (IH (rs ++ [nm']) ltac:(lia) Hr' Hrh' Nr') as (S1 & _).
    assert (Hx : names [nm']) by (unfold names in *; apply Forall_app in Hc as (_ & Hc'); exact Hc').
    destruct (C43_mirror layers H wf B (r_gapless _ Rg) (r_pure _ Rg) qs rs Hqn Q1 I0 (one_not_above layers H Rg B qs rs Hqn Q1 I0) [nm'] Hx) as (M1 & M2). apply M1 in S1. split; [exact S1|].
    intros ts Ht Htn Et. rewrite Er' in Et. injection Et as Et. rewrite <- Et. apply M2, S1.
  - assert (Ho' : opinions cs layers' <> []) by (rewrite Eo; discriminate). assert (Ho : opinions cs layers <> []) by (intros Q; apply Ho'; now apply more_said'). split; [now apply (C32_conserved layers H wf B)|]. intros rs Hr Hrn E.
    apply (C34_instance_path layers' H' wf' B' cs rs Hc (one_pure layers' Rg' cs Hc) Ho' Hr Hrn) in E. apply (C34_instance_path layers H wf B cs rs Hc (one_pure layers Rg cs Hc) Ho Hr Hrn).
    now apply (alike_source layers' layers cs rs (said_sym _ _ _ Al)).
Qed.
Lemma others cs : names cs -> in_stage H' cs -> cs <> new -> in_stage H cs.
Proof. intros Hc Hh Ne. exact (proj1 (nothing_else (S (tall H' (Co (abs_path cs)))) cs (Nat.lt_succ_diag_r _) Hc Hh Ne)). Qed.
Lemma others_same cs : names cs -> in_stage H cs -> in_stage H' cs /\ forall a, asked a -> reads H' cs a = reads H cs a.
Proof.
  intros Hc Hh. destruct (C61_local layers layers' H H' cs Rg Rg' B B' Hc Hh) as (A & _ & _ & C & _).
  - apply (alike_nil _ _ (more_elsewhere [] (Forall_nil _) nil_not_new)).
  - intros es D. destruct (draws_names H cs es D Hc Hh) as (He & Hee). apply more_elsewhere; [exact He|]. intros ->. now apply not_yet.
  - intros es rs D Hr Hrn E Hrh. destruct (draws_names H cs es D Hc Hh) as (He & Hee). apply others; auto. intros ->. apply (unseen_new es). repeat split; auto.
  - auto.
Qed.
Lemma new_there : in_stage H' new.
Proof. apply (C32_conserved layers' H' wf' B'); [exact Hn|]. rewrite (proj1 more_new). discriminate. Qed.

(** The dependants of the parent and of the new path. *)
Lemma no_reliers cs : names cs -> cs <> [] -> (forall es, ~ points H es cs) -> dirties H (abs_path cs) = [].
Proof.
  intros Hc Hcn U. destruct (dirties H (abs_path cs)) as [|d l] eqn:E; [reflexivity|]. exfalso.
  assert (I : In d (dirties H (abs_path cs))) by (rewrite E; now left). apply (C58_dirties layers H cs d wf (r_gapless _ Rg) (r_pure _ Rg) (r_low _ Rg) B Hc Hcn) in I as (es & _ & _ & R).
  unfold relies in R. apply clos_trans_tn1 in R. destruct R as [y Q|y z Q _]; exact (U _ Q).
Qed.
Lemma world_reliers : dirties H WORLD = [].
Proof.
  destruct (dirties H WORLD) as [|d l] eqn:E; [reflexivity|]. exfalso. assert (I : In d (dirties H WORLD)) by (rewrite E; now left). apply dirties_spec in I. apply clos_trans_t1n in I.
  destruct B as (fuel & top & one & Bu).
  assert (K : dget WORLD (dirty H) = None).
  { refine (keep_build (fun m => dget WORLD m = None) top one _ fuel layers H eq_refl Bu). intros b s t m Q. unfold DirtyMap.extend_dirty_map. destruct (str_eqb s WORLD || str_eqb t WORLD) eqn:Ew; [exact Q|].
    apply orb_false_elim in Ew as (Ew & _). cbv zeta. assert (D : forall v (m' : dict (list pystr)), dget WORLD m' = None -> dget WORLD (dset s v m') = None) by (intros v m' Q'; rewrite dget_dset, Ew; exact Q').
    destruct (dget_def s [] m); destruct (_ && _); auto. }
  inversion I as [y (l0 & Q & _)|y z (l0 & Q & _) _]; subst; rewrite K in Q; discriminate.
Qed.
End More.

(** *** The new node's spec node *)
Lemma create_added data rp ps nm sp : names (ps ++ [nm]) -> dget (lit "name") data = Some (VStr nm) -> dget (lit "enabled") data <> Some (VList []) -> create_node data rp (abs_path ps) false = Ok sp ->
  value sp PROXY = VBool false /\ value sp SOURCE_LAYER = rp /\ (forall a, In a passed_on -> ~ says (value sp a) -> value sp a = default_of a) /\
  (forall a, In a tracked -> dget (source_of a) sp = Some (VTuple [value sp SOURCE_LAYER; VStr (abs_path (ps ++ [nm]))])).
Proof.
  intros Hn En Ee E. destruct (create_ok _ _ _ _ E) as (nm' & attrs & co & En' & Eu & Ec). rewrite En in En'. injection En' as <-.
  destruct (create_get data rp (abs_path ps) nm attrs co En Eu Ec) as (n' & E' & _ & G). rewrite E in E'. injection E' as <-.
  assert (L : value sp SOURCE_LAYER = rp) by (unfold value; rewrite G; reflexivity).
  split; [unfold value; rewrite G; reflexivity|]. split; [exact L|]. split.
  - assert (V : forall a, In a passed_on -> value sp a = load_val data a) by (intros a [<-|[<-|[<-|[]]]]; unfold value; rewrite G; reflexivity).
    intros a Ha. rewrite (V a Ha). intros Q. apply no_opinion_says in Q. unfold load_val in Q |- *. cbv zeta in *. destruct (has_opinion match dget (as_save_key a) data with Some v => v | None => VNone end) eqn:Eo.
    + cbn [negb andb] in Q |- *. congruence.
    + cbn [negb andb] in Q |- *. destruct Ha as [<-|[<-|[<-|[]]]]; try reflexivity. change (as_save_key ENABLED) with (lit "enabled") in *. change (negb (str_in ENABLED ALLOW_NO_OPINION)) with false. cbv iota.
      destruct (dget (lit "enabled") data) as [[| | | |[|x l]| | |]|]; try discriminate Eo; [reflexivity|congruence|reflexivity].
  - intros a Ha. rewrite G, L. assert (S : str_in (source_of a) (map (fun a => a ++ META_SOURCE) TRACKED) = true) by (repeat destruct Ha as [<-|Ha]; try destruct Ha; reflexivity). rewrite S.
    unfold src_of. rewrite join_node_paths_abs by now apply names_comp. reflexivity.
Qed.

(** A child order read through the classes. *)
Lemma listed_reads X q i l r nm : mro_of X (Co (abs_path q)) = Some (Co (abs_path q) :: Sp i :: l) -> bs X (Co (abs_path q)) = Sp i :: r -> In nm (order_of X (abs_path q)) -> In nm (listed (reads X q CHILD_ORDER)).
Proof.
  intros Em Eb. unfold order_of. rewrite attr_own, Eb. unfold reads, getattr. rewrite Em. cbn [lookup_in]. destruct (own_attr X CHILD_ORDER (Co (abs_path q))); [auto|].
  destruct (own_attr X CHILD_ORDER (Sp i)); [auto|]. intros [].
Qed.
Lemma first_layer layers H cs : well_formed layers -> stage_of layers H -> in_stage H cs -> exists i l r, mro_of H (Co (abs_path cs)) = Some (Co (abs_path cs) :: Sp i :: l) /\ bs H (Co (abs_path cs)) = Sp i :: r.
Proof.
  intros wf B Hh. destruct (stage_parts layers H wf B) as (H1 & F & P). unfold in_stage in Hh. rewrite (fin_here layers H1 F H P) in Hh.
  destruct (node_bases _ F H (p_good _ _ _ _ P) (p_post _ _ _ _ P) _ Hh) as (rest & Eb & Hr & _). destruct (node_mro _ F H (p_good _ _ _ _ P) (p_post _ _ _ _ P) _ rest Hh Eb Hr) as (ls & m & _ & _ & Em).
  destruct (flat_bases _ F (p_good _ _ _ _ P) (abs_path cs)) as (is & El & _ & Hne & _). specialize (Hne Hh). destruct is as [|i is]; [congruence|]. change (bs F (Co (abs_path cs))) with (layers_of F (abs_path cs)) in El.
  rewrite El in Em, Eb. cbn [map app] in Em, Eb. eauto.
Qed.

Lemma nil_not_new' (ps : list pystr) nm : [] <> ps ++ [nm]. Proof. destruct ps; discriminate. Qed.
Lemma up_not_new' (ps : list pystr) nm : ps <> ps ++ [nm]. Proof. intros E. apply (f_equal (@length _)) in E. rewrite app_length in E. cbn in E. lia. Qed.
(** *** The stage and a new composition *)
Section Both.
Variables (layers layers' : list (list layer_row)) (H H' : heap) (data : dict pyval) (rp : pyval) (ps : list pystr) (nm : pystr) (sp : node).
Let new := ps ++ [nm].
Let p := abs_path new.
Hypotheses (Rg : regular layers) (Rg' : regular layers') (B : stage_of layers H) (B' : stage_of layers' H').
Hypothesis World : forall m, In m (opinions [] layers) -> value m NAME = VStr (lit "/").
Hypothesis Hn : names new.
Hypothesis En : dget (lit "name") data = Some (VStr nm).
Hypothesis Ei : dget (lit "instance") data = None \/ dget (lit "instance") data = Some VNone \/ dget (lit "instance") data = Some (VStr []).
Hypothesis Ee : dget (lit "enabled") data <> Some (VList []).
Hypothesis Ec : create_node data rp (abs_path ps) false = Ok sp.
Hypothesis M : one_more new sp layers layers'.
Hypothesis unseen_parent : ps = [] \/ forall es, ~ points H es ps.
Hypothesis unseen_new : forall es, ~ points H es new.

Lemma both_inst : value sp INSTANCE_PATH = VNone \/ value sp INSTANCE_PATH = VStr [].
Proof. destruct (create_reads _ _ _ _ Ec) as (_ & _ & _ & -> & _). unfold load_val. change (as_save_key INSTANCE_PATH) with (lit "instance"). destruct Ei as [-> |[-> | ->]]; [now left|now left|right; reflexivity]. Qed.
Lemma both_up : ps = [] \/ in_stage H ps.
Proof. destruct (parent_said layers layers' ps nm sp Hn M Rg') as [->|Ho]; [now left|right]. apply (C32_conserved layers H (r_fits _ Rg) B); [|exact Ho]. now apply Forall_app in Hn as (Hp & _). Qed.
Lemma both_run top one fuel home : exists X, add_node top one fuel H home sp = Some (Ok (X, [p])) /\ grown H X p sp /\ bs X (Co p) = Sp (length (specs H)) :: rest H ps /\
  (forall a, own_attr X a (Co p) = if str_in a INSTANCE_ATTRS && negb (has_opinion (value sp a)) then Some (default_of a) else None) /\
  (here H (abs_path ps) = true -> In nm (order_of X (abs_path ps))) /\ specs X = specs (name_in_layer H home nm) ++ [sp] /\
  (here H (abs_path ps) = true -> forall x, In x (order_of X (abs_path ps)) <-> x = nm \/ In x (order_of H (abs_path ps))).
Proof.
  destruct (create_reads _ _ _ _ Ec) as (_ & (nm' & En' & Q1) & Q2 & _ & _). rewrite En in En'. injection En' as <-.
  assert (Hp : names ps) by now apply Forall_app in Hn as (Hp & _).
  apply (run_form H home sp ps nm Hn); auto.
  - apply not_true_iff_false. exact (not_yet layers layers' ps nm sp Hn M H Rg Rg' B unseen_parent).
  - exact (one_sound layers H Rg B).
  - destruct unseen_parent as [->|U]; [exact (world_reliers layers H B)|]. destruct ps as [|x l] eqn:E; [exact (world_reliers layers H B)|]. rewrite <- E in *. apply (no_reliers layers H Rg B ps Hp); [rewrite E; discriminate|exact U].
  - apply (no_reliers layers H Rg B); [exact Hn|unfold new; destruct ps; discriminate|exact unseen_new].
  - exact both_inst.
  - exact (proj1 (create_added data rp ps nm sp Hn En Ee Ec)).
  - exact both_up.
  - intros Hh. exact (check_comp layers H (r_fits _ Rg) B World ps Hp Hh).
Qed.

Variable X : heap.
Hypothesis G : grown H X p sp.
Hypothesis Eb : bs X (Co p) = Sp (length (specs H)) :: rest H ps.
Hypothesis Eo : forall a, own_attr X a (Co p) = if str_in a INSTANCE_ATTRS && negb (has_opinion (value sp a)) then Some (default_of a) else None.
Hypothesis El : here H (abs_path ps) = true -> In nm (order_of X (abs_path ps)).

Lemma both_here : here H p = false. Proof. apply not_true_iff_false. exact (not_yet layers layers' ps nm sp Hn M H Rg Rg' B unseen_parent). Qed.
Lemma both_old cs a : in_stage H cs -> a <> CHILD_ORDER -> reads X cs a = reads H cs a.
Proof. exact (old_reads H sp ps nm both_here (one_sound layers H Rg B) X G cs a). Qed.
Lemma both_new a : reads X new a = match own_attr X a (Co p) with Some v => Some v | None => match dget a sp with Some v => Some v | None => if here H (abs_path ps) then reads H ps a else None end end.
Proof.
  destruct (str_eqb a CHILD_ORDER) eqn:E.
  - apply str_eqb_eq in E as ->. unfold new. rewrite (run_reads H sp ps nm both_here (one_sound layers H Rg B) both_up (check_comp layers H (r_fits _ Rg) B World ps (proj1 (proj1 (Forall_app _ _ _) Hn))) X _ G Eb). change (abs_path (ps ++ [nm])) with p.
    destruct (own_attr X CHILD_ORDER (Co p)); [reflexivity|]. destruct (dget CHILD_ORDER sp) eqn:Q; [reflexivity|]. destruct (create_reads _ _ _ _ Ec) as (K & _). exfalso. apply (K CHILD_ORDER); [apply str_in_In; reflexivity|exact Q].
  - apply str_eqb_neq in E. unfold new. rewrite (run_reads H sp ps nm both_here (one_sound layers H Rg B) both_up (check_comp layers H (r_fits _ Rg) B World ps (proj1 (proj1 (Forall_app _ _ _) Hn))) X _ G Eb). change (abs_path (ps ++ [nm])) with p.
    destruct (here H (abs_path ps)) eqn:Hp; [|reflexivity]. now rewrite (both_old ps a Hp E).
Qed.
Lemma both_in cs : names cs -> in_stage X cs <-> cs = new \/ in_stage H cs.
Proof.
  intros Hc. unfold in_stage. rewrite (g_here _ _ _ _ G). rewrite orb_true_iff, str_eqb_eq. unfold p. split; (intros [Q|Q]; [left|now right]); [now apply path_inj in Q|now subst].
Qed.
Lemma both_stage cs : names cs -> in_stage X cs <-> in_stage H' cs.
Proof.
  intros Hc. rewrite (both_in cs Hc). split.
  - intros [->|Hh]; [exact (new_there layers layers' ps nm sp Hn M H' Rg' B')|]. exact (proj1 (others_same layers layers' ps nm sp Hn M H H' Rg Rg' B B' both_inst unseen_parent unseen_new cs Hc Hh)).
  - intros Hh. destruct (list_eq_dec (list_eq_dec N.eq_dec) cs new) as [->|Ne]; [now left|right]. exact (others layers layers' ps nm sp Hn M H H' Rg Rg' B B' both_inst unseen_parent unseen_new cs Hc Hh Ne).
Qed.
Lemma both_spec a : In a internal_keys -> (In a passed_on -> says (value sp a)) -> reads X new a = Some (value sp a).
Proof.
  intros Ha Hs. rewrite both_new, Eo. assert (Q : str_in a INSTANCE_ATTRS && negb (has_opinion (value sp a)) = false).
  { destruct (str_in a INSTANCE_ATTRS) eqn:E; [|reflexivity]. apply str_in_In in E. apply Hs, has_opinion_says in E. now rewrite E. }
  rewrite Q. destruct (create_reads _ _ _ _ Ec) as (K & _). specialize (K a Ha). unfold value. destruct (dget a sp); [reflexivity|congruence].
Qed.
Lemma both_tracked a : In a tracked -> reads X new a = reads H' new a /\ reads X new (source_of a) = reads H' new (source_of a).
Proof.
  intros Ha. destruct (more_new layers layers' ps nm sp M) as (Q & _). fold new in Q. destruct (tracked_key a Ha) as (K1 & K2). destruct (create_added data rp ps nm sp Hn En Ee Ec) as (_ & _ & D & Ss). fold new in Ss.
  assert (Es : reads X new (source_of a) = Some (VTuple [value sp SOURCE_LAYER; VStr p])).
  { rewrite both_spec; [unfold value; rewrite (Ss a Ha); reflexivity|exact K2|]. intros Z. exfalso. repeat destruct Ha as [<-|Ha]; try destruct Ha; apply str_in_In in Z; vm_compute in Z; discriminate Z. }
  rewrite Es. destruct (has_opinion (value sp a)) eqn:Eh.
  - apply has_opinion_says in Eh. destruct (C32_strongest layers' H' (r_fits _ Rg') B' new a sp Hn Ha) as (-> & ->).
    { exists [], []. split; [exact Q|]. split; [exact Eh|intros m []]. }
    split; [|reflexivity]. apply both_spec; auto.
  - apply no_opinion_says in Eh. destruct (C32_silent layers' H' (r_fits _ Rg') B' new a sp [] Hn Ha Q) as (-> & ->).
    + intros m Hm. rewrite Q in Hm. destruct Hm as [<-|[]]. exact Eh.
    + right. intros rs (R1 & R2 & _ & R3). exact (new_no_source layers layers' ps nm sp Hn M H' Rg' B' both_inst rs R1 R2 R3).
    + split; [|unfold value; now rewrite (Ss a Ha)]. destruct (str_in a INSTANCE_ATTRS) eqn:Ep.
      * rewrite both_new, Eo, Ep. apply no_opinion_says in Eh. rewrite Eh. cbn [negb andb]. apply no_opinion_says in Eh. now rewrite (D a (proj1 (str_in_In _ _) Ep) Eh).
      * apply both_spec; [exact K1|]. intros Z. apply str_in_In in Z. change passed_on with INSTANCE_ATTRS in Z. congruence.
Qed.
Lemma both_user a : ~ In a internal_keys -> reads X new a = reads H' new a.
Proof.
  intros Ha. destruct (more_new layers layers' ps nm sp M) as (Q & _). fold new in Q. rewrite both_new, Eo.
  assert (Ep : str_in a INSTANCE_ATTRS = false). { destruct (str_in a INSTANCE_ATTRS) eqn:E; [|reflexivity]. apply str_in_In in E. exfalso. apply Ha. apply tracked_key, passed_tracked. exact E. }
  rewrite Ep. cbn [andb]. pose proof (new_there layers layers' ps nm sp Hn M H' Rg' B') as Hh. assert (Hp : names ps) by now apply Forall_app in Hn as (Hp & _).
  destruct (dget a sp) as [v|] eqn:E.
  - symmetry. apply (C33_strongest_layer layers' H' (r_fits _ Rg') B' a Ha new v Hn). exists [], sp, []. split; [exact Q|]. split; [exact E|intros m []].
  - assert (No : none_in layers' a new) by (intros d Hd; rewrite Q in Hd; destruct Hd as [<-|[]]; exact E).
    assert (Ni : forall rs, ~ instances H' new rs) by (intros rs (R1 & R2 & _ & R3); exact (new_no_source layers layers' ps nm sp Hn M H' Rg' B' both_inst rs R1 R2 R3)).
    destruct (here H (abs_path ps)) eqn:Eh.
    + destruct (others_same layers layers' ps nm sp Hn M H H' Rg Rg' B B' both_inst unseen_parent unseen_new ps Hp Eh) as (A & C). rewrite <- (C a (or_intror Ha)). symmetry.
      apply (C33_parent layers' H' (r_fits _ Rg') B' a Ha new ps Hn Hh No Ni). now apply (one_parent layers' H' Rg' B' ps nm ps Hn Hh).
    + symmetry. apply (C33_alone layers' H' (r_fits _ Rg') B' a Ha new Hn Hh No Ni). intros ds K. apply (one_parent layers' H' Rg' B' ps nm ds Hn Hh) in K as (_ & K).
      assert (Z : in_stage H ps); [|unfold in_stage in Z; congruence]. apply (both_stage ps Hp) in K. apply (both_in ps Hp) in K as [K|K]; [|exact K]. exfalso. revert K. apply up_not_new'.
Qed.
Lemma both_asked cs a : names cs -> in_stage X cs -> asked a -> reads X cs a = reads H' cs a.
Proof.
  intros Hc Hh Ha. apply (both_in cs Hc) in Hh as [->|Hh].
  - destruct Ha as [Ha|Ha]; [|now apply both_user]. apply in_app_or in Ha as [Ha|Ha]; [|now apply both_tracked].
    destruct (more_new layers layers' ps nm sp M) as (Q & _). rewrite (C32_identity layers' H' (r_fits _ Rg') B' new sp [] a Hn Q Ha).
    apply both_spec; [repeat destruct Ha as [<-|Ha]; try destruct Ha; apply str_in_In; reflexivity|]. intros Z. exfalso. repeat destruct Ha as [<-|Ha]; try destruct Ha; apply str_in_In in Z; vm_compute in Z; discriminate Z.
  - destruct (others_same layers layers' ps nm sp Hn M H H' Rg Rg' B B' both_inst unseen_parent unseen_new cs Hc Hh) as (_ & C). rewrite (C a Ha). apply both_old; [exact Hh|].
    intros ->. destruct Ha as [Ha|Ha]; [apply str_in_In in Ha; vm_compute in Ha; discriminate Ha|]. apply Ha. apply str_in_In. reflexivity.
Qed.
Lemma both_instances cs rs : names cs -> in_stage X cs -> instances X cs rs <-> instances H' cs rs.
Proof.
  intros Hc Hh. apply (both_in cs Hc) in Hh as [->|Hh].
  - split; [|intros (R1 & R2 & _ & R3); destruct (new_no_source layers layers' ps nm sp Hn M H' Rg' B' both_inst rs R1 R2 R3)].
    intros (R1 & R2 & _ & R3). exfalso. rewrite both_spec in R3; [|apply str_in_In; reflexivity|intros Z; apply str_in_In in Z; vm_compute in Z; discriminate Z]. injection R3 as R3.
    destruct both_inst as [Z|Z]; rewrite Z in R3; [discriminate|]. injection R3 as R3. symmetry in R3. now apply path_not_empty in R3.
  - assert (Z : instances H' cs rs <-> instances H cs rs).
    { apply (C61_local layers layers' H H' cs Rg Rg' B B' Hc Hh).
      - apply (alike_nil _ _ (more_elsewhere layers layers' ps nm sp Hn M [] (Forall_nil _) (nil_not_new' ps nm))).
      - intros es D. destruct (draws_names H cs es D Hc Hh) as (He & Hee). apply (more_elsewhere layers layers' ps nm sp Hn M); [exact He|]. intros ->. exact (not_yet layers layers' ps nm sp Hn M H Rg Rg' B unseen_parent Hee).
      - intros es ts D Ht Htn E Hth. destruct (draws_names H cs es D Hc Hh) as (He & Hee). apply (others layers layers' ps nm sp Hn M H H' Rg Rg' B B' both_inst unseen_parent unseen_new); auto. intros ->. apply (unseen_new es). repeat split; auto. }
    rewrite Z. unfold instances. rewrite (both_old cs INSTANCE_PATH Hh) by discriminate. split; intros (R1 & R2 & R3 & R4); (split; [exact R1|split; [exact R2|split; [|exact R4]]]).
    + apply (both_in rs R1) in R3 as [->|R3]; [|exact R3]. exfalso. apply (unseen_new cs). repeat split; auto.
    + apply (both_in rs R1). now right.
Qed.
Lemma both_listed : in_stage X ps -> In nm (listed (reads X ps CHILD_ORDER)).
Proof.
  intros Hh. assert (Hp : names ps) by now apply Forall_app in Hn as (Hp & _). apply (both_in ps Hp) in Hh as [Hh|Hh]; [exfalso; revert Hh; apply up_not_new'|].
  destruct (first_layer layers H ps (r_fits _ Rg) B Hh) as (i & l & r & Em & Ebs). apply (listed_reads X ps i l r).
  - exact (proj1 (old_mro H sp ps nm both_here (one_sound layers H Rg B) X G _ _ Hh Em)).
  - rewrite (g_bs _ _ _ _ G); [exact Ebs|]. apply (pp_neq ps nm Hn).
  - now apply El.
Qed.
Lemma both_order home : specs X = specs (name_in_layer H home nm) ++ [sp] -> (here H (abs_path ps) = true -> forall x, In x (order_of X (abs_path ps)) <-> x = nm \/ In x (order_of H (abs_path ps))) ->
  in_stage H ps -> forall x, In x (listed (reads X ps CHILD_ORDER)) <-> x = nm \/ In x (listed (reads H ps CHILD_ORDER)).
Proof.
  intros Esp Ex Hh. assert (Hp : names ps) by now apply Forall_app in Hn as (Hp & _). pose proof (r_fits _ Rg) as wf. destruct (stage_parts layers H wf B) as (H1 & F & P). destruct (first_layer layers H ps wf B Hh) as (i & l & r & Em & Ebs).
  assert (Rd : listed (reads H ps CHILD_ORDER) = order_of H (abs_path ps)) by (rewrite (view_internal layers H1 F H wf P ps CHILD_ORDER Hh) by (apply str_in_In; reflexivity); reflexivity).
  assert (L : i < length (specs H)). { apply (proj1 (valid_bs H) (proj1 (one_sound layers H Rg B)) (abs_path ps) (Sp i) Hh). rewrite Ebs. now left. }
  assert (No : own_attr H CHILD_ORDER (Sp i) <> None).
  { assert (Ho : opinions ps layers <> []) by (destruct (parent_said layers layers' ps nm sp Hn M Rg') as [E|Ho]; [rewrite E in *; now apply (one_root layers H Rg B)|exact Ho]).
    pose proof Hh as Hf. unfold in_stage in Hf. rewrite (fin_here layers H1 F H P) in Hf. destruct (node_bases _ F H (p_good _ _ _ _ P) (p_post _ _ _ _ P) _ Hf) as (rest & Eb' & Hr & _).
    destruct (fin_layers layers H1 F H wf P ps Hp Ho) as (is & Eis & L' & Sn). rewrite Eb', Eis in Ebs. assert (Hi : In i is).
    { destruct is as [|j is]; [|injection Ebs as -> _; now left]. exfalso. apply Ho. rewrite <- Sn. reflexivity. }
    unfold own_attr. destruct (nth_error (specs H) i) as [d0|] eqn:Ed; [|apply nth_error_None in Ed; lia]. apply (opinion_keys layers wf ps d0 CHILD_ORDER Hp); [|apply str_in_In; reflexivity].
    rewrite <- Sn. unfold spec_nodes. apply in_flat_map. exists (Sp i). split; [now apply in_map|]. rewrite Ed. now left. }
  assert (Up : abs_path ps <> p) by exact (pp_neq ps nm Hn).
  assert (Rx : listed (reads X ps CHILD_ORDER) = order_of X (abs_path ps)).
  { assert (Em' : mro_of X (Co (abs_path ps)) = Some (Co (abs_path ps) :: Sp i :: l)) by exact (proj1 (old_mro H sp ps nm both_here (one_sound layers H Rg B) X G _ _ Hh Em)).
    assert (Eb2 : bs X (Co (abs_path ps)) = Sp i :: r) by (rewrite (g_bs _ _ _ _ G); [exact Ebs|exact Up]).
    assert (No' : own_attr X CHILD_ORDER (Sp i) <> None).
    { unfold own_attr. rewrite Esp, nth_error_app1 by (rewrite (proj1 (proj2 (proj2 (name_in_layer_spec H home nm)))); exact L). unfold name_in_layer. unfold own_attr in No. destruct home as [j|]; [|exact No].
      destruct (nth_error (specs H) j) as [n|] eqn:En'; [|exact No]. cbv zeta. destruct (_ && _); [|exact No]. rewrite with_spec_nth by (apply nth_error_Some; congruence). destruct (Nat.eqb i j); [|exact No]. rewrite dget_dset_same. discriminate. }
    unfold order_of. rewrite attr_own, Eb2. unfold reads, getattr. rewrite Em'. cbn [lookup_in]. destruct (own_attr X CHILD_ORDER (Co (abs_path ps))); [reflexivity|].
    destruct (own_attr X CHILD_ORDER (Sp i)); [reflexivity|congruence]. }
  intros x. rewrite Rd, Rx. now apply Ex.
Qed.
End Both.

(** *** The nodes of the layers *)
Lemma added_specs H X home nm sp : specs X = specs (name_in_layer H home nm) ++ [sp] ->
  length (specs X) = S (length (specs H)) /\ nth_error (specs X) (length (specs H)) = Some sp /\
  forall i n, nth_error (specs H) i = Some n -> exists n', nth_error (specs X) i = Some n' /\
    (home <> Some i -> n' = n) /\ (forall a, a <> CHILD_ORDER -> dget a n' = dget a n) /\
    (home = Some i -> (In nm (listed (dget CHILD_ORDER n)) -> n' = n) /\
       (NoDup (listed (dget CHILD_ORDER n)) -> ~ In nm (listed (dget CHILD_ORDER n)) -> truthy (value n PROXY) = false -> listed (dget CHILD_ORDER n') = listed (dget CHILD_ORDER n) ++ [nm])).
Proof.
  intros E. pose proof (proj1 (proj2 (proj2 (name_in_layer_spec H home nm)))) as L. rewrite E. split; [rewrite app_length, L; cbn; lia|]. split; [rewrite <- L; apply nth_last|].
  intros i n En. assert (Li : i < length (specs H)) by (apply nth_error_Some; congruence). rewrite nth_error_app1 by (rewrite L; exact Li). clear E L.
  assert (W : forall m, listed (dget CHILD_ORDER m) = as_strs (attr_or_none m CHILD_ORDER)) by (intros m; unfold attr_or_none, listed; now destruct (dget CHILD_ORDER m)).
  unfold name_in_layer. destruct home as [j|]; [|exists n; split; [exact En|]; split; [reflexivity|]; split; [reflexivity|discriminate]].
  destruct (nth_error (specs H) j) as [m|] eqn:Ej; [|exists n; split; [exact En|]; split; [reflexivity|]; split; [reflexivity|intros [= ->]; congruence]]. cbv zeta.
  destruct (negb (str_in nm (as_strs (attr_or_none m CHILD_ORDER))) && negb (truthy (attr_or_none m PROXY))) eqn:Et.
  - rewrite with_spec_nth by (apply nth_error_Some; congruence). destruct (Nat.eqb i j) eqn:Ei.
    + apply Nat.eqb_eq in Ei as ->. rewrite Ej in En. injection En as ->. apply andb_prop in Et as (Et & _). apply negb_true_iff in Et. eexists. split; [reflexivity|]. split; [congruence|]. split.
      * intros a Ha. rewrite dget_dset. destruct (str_eqb CHILD_ORDER a) eqn:Ea; [apply str_eqb_eq in Ea; congruence|reflexivity].
      * intros _. split; [intros I; rewrite W in I; apply str_in_In in I; congruence|]. intros Nd Ni _. rewrite dget_dset_same, !W. rewrite W in Nd, Ni. cbn [listed]. rewrite as_strs_VStrs. unfold merged.
        rewrite MergeProofs.list_merger_disjoint; [reflexivity|exact Nd|repeat constructor; now intros []|]. intros x [<-|[]]. exact Ni.
    + apply Nat.eqb_neq in Ei. exists n. split; [exact En|]. split; [auto|]. split; [auto|]. intros [= ->]. congruence.
  - exists n. split; [exact En|]. split; [auto|]. split; [auto|]. intros [= ->]. split; [auto|]. intros Nd Ni Hp. exfalso. rewrite Ej in En. injection En as ->. apply andb_false_iff in Et as [Et|Et]; apply negb_false_iff in Et.
    + apply str_in_In in Et. apply Ni. now rewrite W.
    + unfold value in Hp. unfold attr_or_none in Et. destruct (dget PROXY n); congruence.
Qed.
