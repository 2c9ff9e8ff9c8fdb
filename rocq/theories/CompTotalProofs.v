(** Building a stage whose layers instance nothing always succeeds: parents
    alone always have an MRO. *)

From Coq Require Import String List NArith ZArith Bool Arith Lia Permutation.
From Verif Require Import PyStr PyStrFacts NxtPath PathSpec PathProofs Dict DictFacts ListMerger SortRows Layer PyVal NodeIO PyClass PyClassSpec PyClassProofs Comp CompSpec CompProofs CompProxyProofs CompPostProofs CompTreeProofs CompStageProofs.
Import ListNotations.

Section Forest.
Variables (n : nat) (F : heap).
Hypothesis G : good n F.
Hypothesis T : tree F.

Record forest (H : heap) : Prop := {
  f_specs : specs H = specs F;
  f_here : forall p, here H p = here F p;
  f_bases : forall p, here F p = true -> exists rest, bs H (Co p) = layers_of F p ++ rest /\ (rest = [] \/ rest = par F p)
}.

Lemma forest_gone H p : forest H -> here F p = false -> bs H (Co p) = [].
Proof. intros Fo Hp. rewrite <- (f_here H Fo) in Hp. apply here_false in Hp. unfold bs, bases_in. now rewrite Hp. Qed.
Lemma layers_sp p r : In r (layers_of F p) -> exists i, r = Sp i /\ i < length (specs F).
Proof. intros Hr. destruct (flat_bases n F G p) as (is & E & _ & _ & L). rewrite E in Hr. apply in_map_iff in Hr as (i & <- & Hi). eauto. Qed.
Lemma par_form cs : names cs -> here F (abs_path cs) = true -> par F (abs_path cs) = [] \/
  exists ds, par F (abs_path cs) = [Co (abs_path ds)] /\ names ds /\ here F (abs_path ds) = true /\ length ds < length cs.
Proof.
  intros Hc Hh. destruct (par_spec F cs T Hc Hh) as [(E & _)|(ds & E & (k & K1 & K2 & K3 & _))]; [now left|right]. exists ds. split; [exact E|]. split; [|split; [exact K3|]]; subst ds.
  - unfold names in *. apply Forall_forall. intros x Hx. rewrite Forall_forall in Hc. apply Hc. rewrite <- (firstn_skipn k cs). apply in_or_app. now left.
  - rewrite firstn_length. lia.
Qed.
Lemma par_shorter cs r : names cs -> here F (abs_path cs) = true -> In r (par F (abs_path cs)) ->
  exists ds, r = Co (abs_path ds) /\ names ds /\ here F (abs_path ds) = true /\ length ds < length cs.
Proof. intros Hc Hh Hr. destruct (par_form cs Hc Hh) as [E|(ds & E & A)]; rewrite E in Hr; [destruct Hr|]. destruct Hr as [<-|[]]. eauto. Qed.
Lemma forest_valid H : forest H -> valid H.
Proof.
  intros Fo. apply valid_bs. intros p r Hp Hr. rewrite (f_here H Fo) in Hp. destruct (f_bases H Fo p Hp) as (rest & E & Er). rewrite E in Hr. apply in_app_or in Hr as [Hr|Hr].
  - destruct (layers_sp p r Hr) as (i & -> & L). now rewrite (f_specs H Fo).
  - destruct Er as [->| ->]; [destruct Hr|]. destruct (par_here _ _ _ Hr) as (q & -> & Hq). now rewrite (f_here H Fo).
Qed.
Lemma forest_owned H : forest H -> owned (layers_of F) H.
Proof.
  intros Fo. destruct (flat_owned n F G) as (_ & O2 & O3). split; [|split; assumption]. intros p. destruct (here F p) eqn:Hp.
  - destruct (f_bases H Fo p Hp) as (rest & E & Er). exists rest. split; [exact E|]. intros r Hr. destruct Er as [->| ->]; [destruct Hr|]. destruct (par_here _ _ _ Hr) as (q & -> & _). eauto.
  - exists []. split; [|intros ? []]. rewrite (forest_gone H p Fo Hp). unfold layers_of, bs, bases_in. apply here_false in Hp. now rewrite Hp.
Qed.
(** Going up makes paths shorter. *)
Lemma forest_up H : forest H -> forall x y, up H x y -> forall cs q, x = Co (abs_path cs) -> y = Co q -> names cs -> here F (abs_path cs) = true ->
  exists es, q = abs_path es /\ names es /\ length es <= length cs.
Proof.
  intros Fo. induction 1 as [c|c b d Hb U IH]; intros cs q Ex Ey Hc Hh.
  - subst c. injection Ey as <-. exists cs. auto.
  - subst c d. destruct (f_bases H Fo _ Hh) as (rest & E & Er). change (bases_in (comps H)) with (bs H) in Hb. rewrite E in Hb. apply in_app_or in Hb as [Hb|Hb].
    + destruct (layers_sp _ _ Hb) as (i & -> & _). inversion U as [|? ? ? Hb']; subst. destruct Hb'.
    + destruct Er as [->| ->]; [destruct Hb|]. destruct (par_shorter cs b Hc Hh Hb) as (ds & -> & Hd & Hdh & L). destruct (IH ds q eq_refl eq_refl Hd Hdh) as (es & -> & He & L'). exists es. split; [reflexivity|]. split; [exact He|lia].
Qed.
Lemma forest_mro H : forest H -> forall k cs, length cs <= k -> names cs -> here F (abs_path cs) = true -> exists f l, mro ref_eqb (bs H) (S (S f)) (Co (abs_path cs)) = Some (Co (abs_path cs) :: l).
Proof.
  intros Fo. assert (Alone : forall cs, bs H (Co (abs_path cs)) = layers_of F (abs_path cs) -> exists f l, mro ref_eqb (bs H) (S (S f)) (Co (abs_path cs)) = Some (Co (abs_path cs) :: l)).
  { intros cs E. exists 0, (layers_of F (abs_path cs)). destruct (flat_bases n F G (abs_path cs)) as (is & El & Nd & _). apply (mro_front_only ref_eqb ref_eqb_eq); [exact E| |].
    - rewrite El. apply FinFun.Injective_map_NoDup; [intros x y; congruence|exact Nd].
    - intros x Hx. destruct (layers_sp _ _ Hx) as (i & -> & _). reflexivity. }
  induction k as [|k IH]; intros cs L Hc Hh; destruct (f_bases H Fo _ Hh) as (rest & E & Er).
  - apply Alone. destruct Er as [->| ->]; [now rewrite app_nil_r in E|]. destruct (par F (abs_path cs)) as [|r t] eqn:Ep; [now rewrite app_nil_r in E|].
    destruct (par_shorter cs r Hc Hh) as (ds & _ & _ & _ & L'); [rewrite Ep; now left|lia].
  - assert (Cases : rest = [] \/ exists ds, rest = [Co (abs_path ds)] /\ names ds /\ here F (abs_path ds) = true /\ length ds < length cs).
    { destruct Er as [->| ->]; [now left|]. exact (par_form cs Hc Hh). }
    destruct Cases as [->|(ds & -> & Hd & Hdh & L')]; [apply Alone; now rewrite app_nil_r in E|]. destruct (IH ds) as (f & l & El); [lia|exact Hd|exact Hdh|].
    set (front := layers_of F (abs_path cs)) in *. exists (S f), (front ++ Co (abs_path ds) :: l). apply (mro_unfold ref_eqb (bs H)). exists (map (fun s => [s]) front ++ [Co (abs_path ds) :: l]), (front ++ Co (abs_path ds) :: l).
    destruct (mro_laws ref_eqb ref_eqb_eq _ _ _ _ El) as (_ & Hn & Hin & _). split; [|split; [|reflexivity]].
    + rewrite E, map_app, map_app, map_map. f_equal; [|cbn [map]; now rewrite El]. apply map_ext_in. intros x Hx. destruct (layers_sp _ _ Hx) as (i & -> & _). apply mro_no_bases. reflexivity.
    + rewrite E, <- app_assoc. rewrite (c3_front ref_eqb ref_eqb_eq front [Co (abs_path ds) :: l] [Co (abs_path ds)]).
      * cbn [app]. rewrite (c3_single_base ref_eqb ref_eqb_eq) by exact Hn. reflexivity.
      * unfold front. destruct (flat_bases n F G (abs_path cs)) as (is & -> & Nd & _). apply FinFun.Injective_map_NoDup; [intros x y; congruence|exact Nd].
      * intros x Hx. destruct (layers_sp _ _ Hx) as (i & -> & _). split; [intros [[=]|[]]|]. intros m [<-|[]] Hi. apply Hin in Hi.
        destruct (owner (layers_of F) H _ i (abs_path cs) (forest_owned H Fo) Hx Hi) as [[=]|U].
        destruct (forest_up H Fo _ _ U ds (abs_path cs) eq_refl eq_refl Hd Hdh) as (es & Ee & He & Le). apply abs_path_inj in Ee; [subst es; lia|now apply names_comp|now apply names_comp].
Qed.
Lemma forest_mros H : forest H -> all_mros H = true.
Proof.
  intros Fo. apply all_mros_spec. intros p Hp. rewrite (f_here H Fo) in Hp. destruct (t_path _ T p Hp) as (cs & Hc & ->). destruct (forest_mro H Fo _ cs (le_n _) Hc Hp) as (f & l & E).
  eexists. eapply mro_enough; [now apply forest_valid|exact E].
Qed.

Lemma parents_total l : forall H, NoDup l -> full H -> sound H -> (forall q a, attr H q a = attr F q a) -> forest H -> (forall p, In p l -> here F p = true /\ bs H (Co p) = layers_of F p) ->
  exists H', fold_res post_parent l H = Ok H'.
Proof.
  induction l as [|p l IH]; intros H Hn Fu So At Fo Hl; cbn [fold_res]; [eauto|]. inversion Hn as [|? ? Hp Hn']; subst. destruct (Hl p (or_introl eq_refl)) as (Hh & Eb).
  assert (Ep : par H p = par F p) by (apply par_same; [apply (f_here H Fo)|apply At]).
  assert (Good : forall H', (forall q, bs H' (Co q) = if str_eqb q p then bs H (Co q) ++ par F q else bs H (Co q)) -> specs H' = specs H -> (forall q, here H' q = here H q) -> forest H').
  { intros H' A B C. split; [rewrite B; apply Fo|intros q; rewrite C; apply Fo|]. intros q Hq. rewrite A. destruct (str_eqb q p) eqn:E; [|now apply Fo]. apply str_eqb_eq in E as ->. exists (par F p). rewrite Eb. auto. }
  assert (Ok1 : exists H', post_parent H p = Ok H').
  { unfold post_parent. cbn zeta. unfold par in Ep at 1. cbn zeta in Ep. destruct (is_empty (parent_of H p)); [eauto|]. destruct (here H (nearest (S (length (parent_of H p))) H (parent_of H p))) eqn:Eh; [|eauto].
    unfold set_bases. rewrite forest_mros; [eauto|]. apply Good; [|reflexivity|intros q; apply here_with]. intros q. rewrite bs_with. destruct (str_eqb q p) eqn:E; [|reflexivity]. apply str_eqb_eq in E as ->.
    pose proof Hh as Hh'. rewrite <- (f_here H Fo) in Hh'. unfold here, dmem in Hh'. destruct (dget p (comps H)) eqn:Ed; [|discriminate]. cbn [cbases]. rewrite <- Ep. reflexivity. }
  destruct Ok1 as (H' & E1). rewrite E1. cbn [bind]. destruct (post_parent_spec _ _ _ Fu So E1) as (A1 & A2 & A3 & A4 & A5 & A6).
  assert (Hk : forall q, here H' q = here H q) by (intros q; now apply here_keys).
  assert (Hb : forall q, bs H' (Co q) = if str_eqb q p then bs H (Co q) ++ par F q else bs H (Co q)).
  { intros q. unfold bs, bases_in. rewrite A6. destruct (str_eqb q p) eqn:E; [|reflexivity]. apply str_eqb_eq in E as ->. pose proof Hh as Hh'. rewrite <- (f_here H Fo) in Hh'. unfold here, dmem in Hh'. destruct (dget p (comps H)); [|discriminate]. cbn [option_map cbases]. now rewrite Ep. }
  apply IH; auto.
  - intros q a. now rewrite A5.
  - intros q Hq. destruct (Hl q (or_intror Hq)) as (B1 & B2). split; [exact B1|]. rewrite Hb. destruct (str_eqb q p) eqn:E; [|exact B2]. apply str_eqb_eq in E as ->. contradiction.
Qed.
(** Parents never make building fail. *)
Theorem parents_never_fail : exists H, fold_res post_parent (sort_instances F) F = Ok H.
Proof.
  destruct (sorted_keys n F G) as (Hn & Hin). apply parents_total; auto.
  - exact (flat_full n F G).
  - exact (flat_sound n F G).
  - split; [reflexivity|reflexivity|]. intros p _. exists []. rewrite app_nil_r. auto.
  - intros p Hp. split; [now apply Hin|reflexivity].
Qed.
End Forest.

(** *** No instances *)

Lemma not_possible H p : (inst_of H p = None \/ inst_of H p = Some [] \/ inst_of H p = Some WORLD) -> possible H p = None.
Proof. unfold possible. intros [->|[->| ->]]; reflexivity. Qed.
Lemma discover_none one H : (forall p, possible H p = None) -> forall ps, discover_all one H ps = (H, []).
Proof.
  intros Np. unfold discover_all. induction ps as [|p ps IH]; [reflexivity|]. cbn [fold_left]. unfold discover at 2. rewrite Np. exact IH.
Qed.
Lemma loop_none top one f H : (forall p, possible H p = None) -> comp_proxies top one (S f) H = Some H.
Proof.
  intros Np. unfold comp_proxies. cbn [proxy_loop]. rewrite (discover_none one H Np). cbn [create_all fold_left option_map fst snd app]. unfold create_all. cbn [fold_left]. cbn [fst snd option_map drop_implied app].
  unfold drop_implied. cbn [fold_left]. now destruct H.
Qed.
Lemma instances_none l : forall H, (forall p b, inst_of H p = Some b -> b = WORLD \/ here H b = false) -> fold_res post_instance l H = Ok H.
Proof.
  induction l as [|p l IH]; intros H Hi; cbn [fold_res]; [reflexivity|]. unfold post_instance at 1. destruct (inst_of H p) as [b|] eqn:E; [|now apply IH].
  destruct (Hi p b E) as [->|Eb]; [rewrite str_eqb_refl; now apply IH|]. rewrite Eb, orb_true_r. now apply IH.
Qed.

Theorem plain_stage layers fuel top one : well_formed layers -> (forall cs rs, names cs -> names rs -> rs <> [] -> ~ source_in layers cs rs) ->
  exists H, build_stage (S fuel) top one layers = Built H /\ forall cs, names cs -> here H (abs_path cs) = true <-> opinions cs layers <> [].
Proof.
  intros wf Ni. unfold build_stage. cbn zeta. change (map (sort_multidimensional_list (fun r => length (fst r))) layers) with (sorted_layers layers). set (H0 := comp_pre_proxies (sorted_layers layers)).
  pose proof (start_tree layers wf) as T. pose proof (good_pre (sorted_layers layers)) as G. fold H0 in T, G.
  assert (Hi : forall p b, inst_of H0 p = Some b -> b = [] \/ b = WORLD).
  { intros p b E. destruct (t_inst _ T p b E) as [->|(rs & Hr & ->)]; [now left|right]. destruct rs as [|r rs]; [reflexivity|exfalso]. destruct (here H0 p) eqn:Hp.
    - destruct (t_path _ T p Hp) as (cs & Hc & ->). assert (I : instp H0 (abs_path cs)). { exists (r :: rs). split; [exact Hr|]. split; [discriminate|exact E]. }
      apply (start_instp layers wf cs Hc) in I as (rs' & A & B & C). exact (Ni cs rs' Hc A B C).
    - apply here_false in Hp. unfold inst_of, attr in E. rewrite Hp in E. discriminate. }
  rewrite loop_none. 2:{ intros p. apply not_possible. destruct (inst_of H0 p) as [b|] eqn:E; [|now left]. right. destruct (Hi p b E) as [->| ->]; auto. }
  unfold post_proxy_comp. destruct (parents_never_fail _ H0 G T) as (H1 & E1). rewrite E1. cbn [bind]. destruct (sorted_keys _ H0 G) as (Hn & _).
  destruct (parents_spec _ _ _ Hn (flat_full _ H0 G) (flat_sound _ H0 G) E1) as (A1 & A2 & A3 & A4 & A5 & A6). assert (Hk : forall q, here H1 q = here H0 q) by (intros q; now apply here_keys).
  rewrite instances_none.
  - exists H1. split; [reflexivity|]. intros cs Hc. rewrite Hk. now apply (start_here layers wf).
  - intros p b E. unfold inst_of in E. rewrite A5 in E. destruct (Hi p b E) as [->| ->]; [right|now left]. rewrite Hk. destruct (here H0 []) eqn:Eh; [|reflexivity]. exfalso.
    destruct (t_path _ T [] Eh) as (cs & _ & Ec). destruct (absolute cs) as (s & Es). rewrite Es in Ec. discriminate.
Qed.
