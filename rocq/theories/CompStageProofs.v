(** The composed stage and the layers it is made of. *)

From Coq Require Import String List NArith ZArith Bool Arith Lia Permutation Relations.
From Verif Require Import PyStr PyStrFacts NxtPath PathSpec PathProofs Dict DictFacts ListMerger SortRows Layer PyVal NodeIO PyClass PyClassSpec PyClassProofs Comp CompSpec MergeProofs CompProofs CompProxyProofs CompPostProofs CompLookProofs CompTreeProofs CompOrderProofs.
From Verif Require DirtyMap DirtySpec DirtyProofs SortProofs.
Import ListNotations.

Definition sorted_layers (layers : list (list layer_row)) : list (list layer_row) :=
  map (sort_multidimensional_list (fun r => length (fst r))) layers.

(** *** Rows and paths *)

Lemma ns_path cs : node_namespace_to_str_path (ns_of cs) = abs_path cs.
Proof. destruct cs; [reflexivity|]. apply to_path. discriminate. Qed.
Lemma ns_of_inj a b : names a -> names b -> ns_of a = ns_of b -> a = b.
Proof. intros Ha Hb E. apply path_inj; auto. now rewrite <- !ns_path, E. Qed.
Lemma row_at (r : layer_row) ds : fst r = ns_of ds -> row_path r = abs_path ds.
Proof. intros E. rewrite <- ns_path. unfold row_path. f_equal. exact E. Qed.
Lemma fits_path r cs : fits r -> names cs -> row_path r = abs_path cs <-> fst r = ns_of cs.
Proof.
  intros (ds & Hd & Ed & _) Hc. rewrite (row_at r ds Ed), Ed. split; [|intros E; now rewrite (ns_of_inj _ _ Hd Hc E)].
  intros E. apply path_inj in E; auto. now subst.
Qed.
Lemma filter_filter {A} (f g : A -> bool) l : (forall x, f x = true -> g x = true) -> filter f (filter g l) = filter f l.
Proof.
  intros Hfg. induction l as [|x l IH]; cbn; [reflexivity|]. destruct (g x) eqn:Eg; cbn; [now rewrite IH|]. destruct (f x) eqn:Ef; [|exact IH].
  rewrite Hfg in Eg by exact Ef. discriminate.
Qed.
Lemma filter_concat {A} (f : A -> bool) l : filter f (concat l) = concat (map (filter f) l).
Proof. induction l as [|x l IH]; cbn; [reflexivity|]. now rewrite filter_app, IH. Qed.

Section Stage.
Variable layers : list (list layer_row).
Hypothesis wf : well_formed layers.
Let rows := concat (sorted_layers layers).
Let all := map as_placed rows.
Let H0 := comp_pre_proxies (sorted_layers layers).

Lemma rows_fit r : In r rows -> fits r.
Proof.
  intros Hr. unfold rows, sorted_layers in Hr. apply in_concat in Hr as (l & Hl & Hr). apply in_map_iff in Hl as (l0 & <- & Hl). apply sort_in in Hr. now apply (wf l0).
Qed.
Lemma stack_opinions cs : names cs -> stack (abs_path cs) all = opinions cs layers.
Proof.
  intros Hc. set (P := fun r : layer_row => if list_eq_dec (list_eq_dec N.eq_dec) (fst r) (ns_of cs) then true else false).
  assert (HP : forall r, P r = true <-> fst r = ns_of cs). { intros r. unfold P. destruct (list_eq_dec _ _ _); split; auto; discriminate. }
  unfold stack, opinions. fold P. unfold all. assert (E : map snd (filter (fun r => str_eqb (fst r) (abs_path cs)) (map as_placed rows)) = map snd (filter P rows)).
  { assert (F : forall r, In r rows -> fits r) by apply rows_fit. clearbody rows. induction rows as [|r l IH]; cbn [map filter]; [reflexivity|].
    assert (Er : str_eqb (fst (as_placed r)) (abs_path cs) = P r).
    { cbn [as_placed fst]. destruct (P r) eqn:Ep.
      - apply str_eqb_eq. apply fits_path; auto; [apply F; now left|now apply HP].
      - apply str_eqb_neq. intros E. apply fits_path in E; auto; [|apply F; now left]. apply HP in E. congruence. }
    rewrite Er. destruct (P r); cbn [map]; rewrite IH; auto; intros; apply F; now right. }
  rewrite E. f_equal. unfold rows, sorted_layers. rewrite !filter_concat, map_map. f_equal. apply map_ext. intros l.
  destruct (SortProofs.sort_rows_spec (fun r : layer_row => length (fst r)) l) as (_ & _ & S). specialize (S (length (ns_of cs))).
  assert (Hs : forall x, P x = true -> Nat.eqb (length (fst x)) (length (ns_of cs)) = true) by (intros r Hr; apply HP in Hr; rewrite Hr; apply Nat.eqb_refl).
  pose proof (filter_filter P _ (sort_multidimensional_list (fun r : layer_row => length (fst r)) l) Hs) as A. pose proof (filter_filter P _ l Hs) as B. rewrite S in A. exact (eq_trans (eq_sym A) B).
Qed.

Lemma opinion_fits cs d : In d (opinions cs layers) -> exists r, fits r /\ fst r = ns_of cs /\ snd r = d.
Proof.
  unfold opinions. intros Hd. apply in_map_iff in Hd as (r & <- & Hr). apply filter_In in Hr as (Hr & E). apply in_concat in Hr as (l & Hl & Hr).
  destruct (list_eq_dec _ _ _) as [E'|]; [|discriminate]. exists r. split; [now apply (wf l)|auto].
Qed.
Lemma opinion_at ps nm d : names (ps ++ [nm]) -> In d (opinions (ps ++ [nm]) layers) ->
  value d NAME = VStr nm /\ value d PARENT_PATH = VStr (abs_path ps) /\
  (value d INSTANCE_PATH = VNone \/ value d INSTANCE_PATH = VStr [] \/ exists rs, names rs /\ value d INSTANCE_PATH = VStr (abs_path rs)).
Proof.
  intros Hn Hd. destruct (opinion_fits _ _ Hd) as (r & (cs & Hc & Er & _ & M) & Er' & <-). rewrite Er' in Er. apply ns_of_inj in Er; auto. subst cs.
  rewrite rev_app_distr in M. cbn [rev app] in M. rewrite rev_involutive in M. exact M.
Qed.
Lemma opinion_root d : In d (opinions [] layers) -> value d PARENT_PATH = VStr [] /\ value d INSTANCE_PATH = VNone.
Proof.
  intros Hd. destruct (opinion_fits _ _ Hd) as (r & (cs & Hc & Er & _ & M) & Er' & <-). rewrite Er' in Er. apply ns_of_inj in Er; auto; [|constructor]. subst cs. exact M.
Qed.
Lemma opinion_keys cs d a : names cs -> In d (opinions cs layers) -> In a internal_keys -> dget a d <> None.
Proof. intros Hc Hd Ha. destruct (opinion_fits _ _ Hd) as (r & (ds & _ & _ & K & _) & _ & <-). auto. Qed.

Lemma start_here cs : names cs -> here H0 (abs_path cs) = true <-> opinions cs layers <> [].
Proof. intros Hc. rewrite <- stack_opinions by exact Hc. apply pre_here. Qed.
Lemma start_path p : here H0 p = true -> exists cs, names cs /\ p = abs_path cs.
Proof.
  intros Hp. pose proof (proj1 (pre_here _ p) Hp : stack p all <> []) as Hs. destruct (stack p all) as [|d l] eqn:E; [congruence|].
  assert (Hd : In d (stack p all)) by (rewrite E; now left). unfold stack in Hd. apply in_map_iff in Hd as ((q & d') & _ & Hd).
  apply filter_In in Hd as (Hd & Eq). apply in_map_iff in Hd as (r & Er & Hr). destruct (rows_fit r Hr) as (cs & Hc & Ec & _). exists cs. split; [exact Hc|].
  cbn [fst] in Eq. apply str_eqb_eq in Eq. subst q. injection Er as E1 _. rewrite <- E1. now apply row_at.
Qed.
(** The first layer that has the node. *)
Lemma start_first cs : names cs -> here H0 (abs_path cs) = true -> exists d l, opinions cs layers = d :: l /\ stack (abs_path cs) all = d :: l.
Proof. intros Hc Hh. apply start_here in Hh; [|exact Hc]. rewrite stack_opinions by exact Hc. destruct (opinions cs layers) as [|d l]; [congruence|]. eauto. Qed.

Lemma start_plain cs a : names cs -> here H0 (abs_path cs) = true -> In a [PARENT_PATH; NAME; SOURCE_LAYER; PROXY] ->
  exists d l, opinions cs layers = d :: l /\ attr H0 (abs_path cs) a = value d a.
Proof.
  intros Hc Hh Ha. destruct (start_first cs Hc Hh) as (d & l & E1 & E2). exists d, l. split; [exact E1|]. apply (pre_first _ _ _ d l E2).
  - apply plain_internal. cbn [In] in Ha. destruct Ha as [<-|[<-|[<-|[<-|[]]]]]; apply str_in_In; reflexivity.
  - cbn [In] in Ha. destruct Ha as [<-|[<-|[<-|[<-|[]]]]]; apply str_in_false; reflexivity.
  - cbn [In] in Ha. destruct Ha as [<-|[<-|[<-|[<-|[]]]]]; discriminate.
Qed.

(** Some layer speaks, or none does. *)
Lemma speak_or_silent a (sps : list data) : (exists m, speaks_first a sps m) \/ silent a sps.
Proof.
  induction sps as [|d l IH]; [right; intros ? []|]. destruct (has_opinion (value d a)) eqn:E.
  - left. exists d, [], l. split; [reflexivity|]. split; [now apply has_opinion_says|intros ? []].
  - destruct IH as [(m & s & w & -> & A & B)|S].
    + left. exists m, (d :: s), w. split; [reflexivity|]. split; [exact A|]. intros x [<-|Hx]; [now apply no_opinion_says|auto].
    + right. intros x [<-|Hx]; [now apply no_opinion_says|auto].
Qed.
Lemma start_tracked cs a : names cs -> here H0 (abs_path cs) = true -> In a TRACKED ->
  (exists m, speaks_first a (opinions cs layers) m /\ attr H0 (abs_path cs) a = value m a /\ attr H0 (abs_path cs) (a ++ META_SOURCE) = VTuple [value m SOURCE_LAYER; VStr (abs_path cs)]) \/
  (silent a (opinions cs layers) /\ exists d l, opinions cs layers = d :: l /\ attr H0 (abs_path cs) a = value d a /\ attr H0 (abs_path cs) (a ++ META_SOURCE) = value d (a ++ META_SOURCE)).
Proof.
  intros Hc Hh Ha. destruct (start_first cs Hc Hh) as (d & l & E1 & E2). rewrite <- (stack_opinions cs Hc). destruct (speak_or_silent a (stack (abs_path cs) all)) as [(m & S)|S].
  - left. exists m. split; [exact S|]. exact (pre_strongest _ _ _ _ Ha S).
  - right. split; [exact S|]. exists d, l. split; [exact E2|]. exact (pre_silent _ _ _ _ _ Ha E2 S).
Qed.

Lemma speaks_in a sps m : speaks_first a sps m -> In m sps.
Proof. intros (s & w & -> & _). apply in_or_app. right. now left. Qed.
Lemma inst_tracked : In INSTANCE_PATH TRACKED. Proof. apply str_in_In. reflexivity. Qed.
Lemma start_inst cs s : names cs -> inst_of H0 (abs_path cs) = Some s ->
  exists m, In m (opinions cs layers) /\ value m INSTANCE_PATH = VStr s.
Proof.
  intros Hc E. unfold inst_of in E. destruct (here H0 (abs_path cs)) eqn:Hh.
  - destruct (start_tracked cs INSTANCE_PATH Hc Hh inst_tracked) as [(m & S & A & _)|(_ & d & l & El & A & _)].
    + exists m. split; [now apply speaks_in in S|]. rewrite A in E. destruct (value m INSTANCE_PATH); try discriminate. cbn in E. congruence.
    + exists d. split; [rewrite El; now left|]. rewrite A in E. destruct (value d INSTANCE_PATH); try discriminate. cbn in E. congruence.
  - apply here_false in Hh. unfold attr in E. rewrite Hh in E. discriminate.
Qed.
Lemma start_tree : tree H0.
Proof.
  split.
  - apply start_path.
  - intros ps nm Hn Hh. destruct (start_plain _ PARENT_PATH Hn Hh) as (d & l & E & ->); [now left|]. destruct (start_plain _ NAME Hn Hh) as (d' & l' & E' & ->); [right; now left|].
    rewrite E in E'. injection E' as <- <-. destruct (opinion_at ps nm d Hn) as (A & B & _); [rewrite E; now left|]. auto.
  - intros Hh. destruct (start_plain [] PARENT_PATH (Forall_nil _) Hh) as (d & l & E & A); [now left|]. change (abs_path []) with WORLD in A. rewrite A. apply opinion_root. rewrite E. now left.
  - intros p s E. destruct (here H0 p) eqn:Hh; [|apply here_false in Hh; unfold inst_of, attr in E; rewrite Hh in E; discriminate].
    destruct (start_path p Hh) as (cs & Hc & ->). destruct (start_inst cs s Hc E) as (m & Hm & Em). destruct cs as [|x cs _] using rev_ind.
    + apply opinion_root in Hm as (_ & F). congruence.
    + destruct (opinion_at _ _ _ Hc Hm) as (_ & _ & [F|[F|(rs & Hr & F)]]); [congruence|left; congruence|right; exists rs; split; [exact Hr|congruence]].
  - destruct (inst_of H0 WORLD) as [s|] eqn:E; [|reflexivity]. destruct (start_inst [] s (Forall_nil _) E) as (m & Hm & Em). apply opinion_root in Hm as (_ & F). congruence.
Qed.
Lemma start_inv : inv (length rows) H0 H0.
Proof.
  split; auto.
  - apply good_pre.
  - apply start_tree.
  - intros. congruence.
  - intros. congruence.
  - intros s t (l & E & _). discriminate.
Qed.

(** The layers' instance path. *)
Lemma start_instp cs : names cs -> instp H0 (abs_path cs) <-> exists rs, names rs /\ rs <> [] /\ source_in layers cs rs.
Proof.
  intros Hc. split.
  - intros (ss & A & B & C). exists ss. split; [exact A|]. split; [exact B|]. unfold inst_of in C. destruct (here H0 (abs_path cs)) eqn:Hh.
    + destruct (start_tracked cs INSTANCE_PATH Hc Hh inst_tracked) as [(m & S & D & _)|(S & d & l & El & D & _)].
      * exists m. split; [exact S|]. rewrite D in C. destruct (value m INSTANCE_PATH); try discriminate. cbn in C. congruence.
      * exfalso. rewrite D in C. apply (S d); [rewrite El; now left|]. destruct (value d INSTANCE_PATH); try discriminate. split; discriminate.
    + apply here_false in Hh. unfold attr in C. rewrite Hh in C. discriminate.
  - intros (rs & A & B & m & S & E). exists rs. split; [exact A|]. split; [exact B|]. unfold inst_of.
    assert (Hh : here H0 (abs_path cs) = true). { apply start_here; [exact Hc|]. intros F. apply speaks_in in S. rewrite F in S. destruct S. }
    rewrite <- (stack_opinions cs Hc) in S. destruct (pre_strongest _ _ _ _ inst_tracked S) as (D & _). unfold H0. rewrite D, E. reflexivity.
Qed.
Lemma start_clear cs : names cs -> pure layers -> clear H0 cs.
Proof.
  intros Hc P a b c -> Hb Hh Hi. rewrite app_assoc in Hc. apply names_app in Hc as (Hab & _). pose proof Hab as Hab'. apply names_app in Hab' as (Ha & _).
  apply (start_instp a Ha) in Hi as (rs & Hr & Hrn & S). apply (P a b rs Hab Hb); auto. now apply start_here.
Qed.
Lemma start_linked : gapless layers -> linked H0.
Proof.
  intros G ps nm Hn Hh. apply start_here in Hh; [|exact Hn]. destruct (G ps nm Hn Hh) as [E|E]; [now left|right]. apply start_here; [now apply names_snoc in Hn|exact E].
Qed.
End Stage.

(** *** The stages of building *)

Record parts (layers : list (list layer_row)) (H1 F H : heap) : Prop := {
  p_inv : inv (length (concat (sorted_layers layers))) (comp_pre_proxies (sorted_layers layers)) H1;
  p_later : later (comp_pre_proxies (sorted_layers layers)) H1;
  p_good : good (length (concat (sorted_layers layers))) F;
  p_old : forall p, here (comp_pre_proxies (sorted_layers layers)) p = true -> here F p = true;
  p_sub : forall p c, dget p (comps F) = Some c -> dget p (comps H1) = Some c;
  p_specs : specs F = specs H1;
  p_linked : gapless layers -> F = H1;
  p_closed : forall ps, names ps -> clear (comp_pre_proxies (sorted_layers layers)) ps -> here H1 (abs_path ps) = true -> closed_at H1 ps;
  p_grown : grown (comp_pre_proxies (sorted_layers layers)) H1;
  p_post : post_proxy_comp F = Ok H
}.

Lemma built_parts layers fuel top one H : well_formed layers -> build_stage fuel top one layers = Built H -> exists H1 F, parts layers H1 F H.
Proof.
  intros wf B. unfold build_stage in B. cbn zeta in B. change (map (sort_multidimensional_list (fun r => length (fst r))) layers) with (sorted_layers layers) in B.
  destruct (comp_proxies top one fuel (comp_pre_proxies (sorted_layers layers))) as [F|] eqn:E; [|discriminate].
  destruct (post_proxy_comp F) as [H'|] eqn:Ep; [|discriminate]. injection B as ->. pose proof (good_pre (sorted_layers layers)) as G0.
  destruct (comp_proxies_keeps top one _ fuel _ _ G0 E) as (G & (_ & K)). unfold comp_proxies in E.
  destruct (proxy_loop top one fuel (comp_pre_proxies (sorted_layers layers)) []) as [[H1 imps]|] eqn:E1; [|discriminate]. cbn in E. injection E as E.
  destruct (loop_inv _ _ top one fuel _ _ _ _ (start_inv layers wf) E1) as (I & L & Li & C). exists H1, F. subst F. split; auto.
  - intros p Hp. unfold here, dmem in Hp |- *. destruct (dget p (comps (comp_pre_proxies (sorted_layers layers)))) as [c|] eqn:Ec; [|discriminate].
    destruct (K _ _ Ec) as (c' & -> & _). reflexivity.
  - intros p c Ec. cbn in Ec. eapply drop_sub; [|exact Ec]. apply (i_good _ _ _ I).
  - intros Gl. rewrite (Li (start_linked layers wf Gl)). now destruct H1.
  - apply (loop_grows top one _ _ fuel _ _ _ _ (start_inv layers wf) E1 G0).
Qed.

Lemma firstn_snoc {A} (l : list A) x k : k <= length l -> firstn k (l ++ [x]) = firstn k l.
Proof. intros Hk. rewrite firstn_app. replace (k - length l) with 0 by lia. apply app_nil_r. Qed.

Lemma nearest_spec F f : forall ps, names ps -> length ps < f -> exists k, k <= length ps /\ nearest f F (abs_path ps) = abs_path (firstn k ps) /\
  (here F (abs_path (firstn k ps)) = true \/ k = 0) /\ forall j, k < j <= length ps -> here F (abs_path (firstn j ps)) = false.
Proof.
  induction f as [|f IH]; intros ps Hps Hf; [lia|]. cbn [nearest]. destruct ps as [|x ps _] using rev_ind.
  - exists 0. split; [lia|]. change (abs_path []) with WORLD. rewrite str_eqb_refl, orb_true_r. split; [reflexivity|]. split; [now right|intros j ?; cbn in *; lia].
  - rewrite app_length in *. cbn [length] in *. destruct (here F (abs_path (ps ++ [x]))) eqn:E.
    + exists (length ps + 1). split; [lia|]. rewrite firstn_all2 by (rewrite app_length; cbn; lia). cbn [orb]. split; [reflexivity|]. split; [now left|intros j ?; lia].
    + assert (E2 : str_eqb (abs_path (ps ++ [x])) WORLD = false) by (apply abs_path_neqb; [now apply names_comp|now destruct ps]). rewrite E2. cbn [orb].
      rewrite get_parent_path_abs by (now apply names_comp). pose proof Hps as Hps'. apply names_snoc in Hps' as (Hp & _). destruct (IH ps Hp) as (k & A & B & C & D); [lia|].
      exists k. rewrite firstn_snoc by exact A. split; [lia|]. split; [exact B|]. split; [exact C|]. intros j Hj. destruct (Nat.eq_dec j (length ps + 1)) as [->|].
      * rewrite firstn_all2; [exact E|]. rewrite app_length. cbn. lia.
      * rewrite firstn_snoc by lia. apply D. lia.
Qed.
Lemma par_spec F cs : tree F -> names cs -> here F (abs_path cs) = true ->
  (par F (abs_path cs) = [] /\ forall ds, ~ closest (fun ds => here F (abs_path ds) = true) cs ds) \/
  exists ds, par F (abs_path cs) = [Co (abs_path ds)] /\ closest (fun ds => here F (abs_path ds) = true) cs ds.
Proof.
  intros T Hc Hh. destruct cs as [|x ps _] using rev_ind.
  - left. unfold par, parent_of. change (abs_path []) with WORLD in *. rewrite (t_root _ T Hh). split; [reflexivity|]. intros ds (k & Hk & _). cbn in Hk. lia.
  - pose proof Hc as Hc'. apply names_snoc in Hc' as (Hp & _). unfold par, parent_of. destruct (t_place _ T ps x Hc Hh) as (-> & _). cbn [as_str].
    destruct (absolute ps) as (s & Es). assert (E0 : is_empty (abs_path ps) = false) by (rewrite Es; reflexivity). rewrite E0. cbn zeta.
    assert (Hl : length ps < S (length (abs_path ps))).
    { destruct ps as [|y ps]; [cbn; lia|]. rewrite abs_path_slashed by discriminate. pose proof (slashed_length (y :: ps)). lia. }
    destruct (nearest_spec F _ ps Hp Hl) as (k & A & B & C & D). rewrite B. destruct (here F (abs_path (firstn k ps))) eqn:E.
    + right. exists (firstn k ps). split; [reflexivity|]. exists k. rewrite app_length. cbn [length]. split; [lia|]. split; [now rewrite firstn_snoc|]. split; [exact E|].
      intros j Hj F1. rewrite firstn_snoc in F1 by lia. rewrite D in F1 by lia. discriminate.
    + left. split; [reflexivity|]. destruct C as [C| ->]; [congruence|]. intros ds (j & Hj & -> & Hd & _). rewrite app_length in Hj. cbn [length] in Hj. rewrite firstn_snoc in Hd by lia.
      destruct (Nat.eq_dec j 0) as [->|]; [congruence|]. rewrite D in Hd by lia. discriminate.
Qed.
Lemma closest_unique there cs a b : closest there cs a -> closest there cs b -> a = b.
Proof.
  intros (i & Hi & -> & Ti & Ni) (j & Hj & -> & Tj & Nj). destruct (Nat.lt_total i j) as [L|[->|L]]; [exfalso; apply (Ni j); auto; lia|reflexivity|exfalso; apply (Nj i); auto; lia].
Qed.

(** First in the classes, first in the nodes. *)
Lemma first_of_specs (S : list node) (a : pystr) (own : ref -> option pyval) is : (forall i, In i is -> i < length S) ->
  (forall i, own (Sp i) = match nth_error S i with Some n => dget a n | None => None end) ->
  (forall v, has_first a (spec_nodes S (map Sp is)) v -> exists r, lookup_in own (map Sp is) = Some (r, v)) /\
  ((forall d, In d (spec_nodes S (map Sp is)) -> dget a d = None) -> lookup_in own (map Sp is) = None).
Proof.
  intros Hi Ho. induction is as [|i is IH]; [split; [|reflexivity]; intros v ([|? ?] & ? & ? & E & _); discriminate|].
  destruct IH as (A & B); [intros j Hj; apply Hi; now right|]. specialize (Hi i (or_introl eq_refl)). cbn [map lookup_in]. rewrite Ho.
  change (spec_nodes S (Sp i :: map Sp is)) with (match nth_error S i with Some n => [n] | None => [] end ++ spec_nodes S (map Sp is)).
  destruct (nth_error S i) as [d|] eqn:E; [|apply nth_error_None in E; lia]. cbn [app]. split.
  - intros v ([|d' s] & m & w & E1 & E2 & E3).
    + cbn in E1. injection E1 as <- _. rewrite E2. eauto.
    + cbn in E1. injection E1 as <- E1. rewrite (E3 d (or_introl eq_refl)). apply A. exists s, m, w. split; [exact E1|]. split; [exact E2|]. intros x Hx. apply E3. now right.
  - intros Hd. rewrite (Hd d (or_introl eq_refl)). apply B. intros x Hx. apply Hd. now right.
Qed.
Lemma spec_nodes_app S more is : (forall i, In i is -> i < length S) -> spec_nodes (S ++ more) (map Sp is) = spec_nodes S (map Sp is).
Proof.
  intros Hi. induction is as [|i is IH]; [reflexivity|]. cbn [map spec_nodes flat_map]. rewrite nth_error_app1 by (apply Hi; now left). f_equal. apply IH. intros j Hj. apply Hi. now right.
Qed.

Section Parts.
Variables (layers : list (list layer_row)) (H1 F H : heap).
Hypothesis wf : well_formed layers.
Hypothesis P : parts layers H1 F H.
Let H0 := comp_pre_proxies (sorted_layers layers).
Let n := length (concat (sorted_layers layers)).

Lemma fin_here p : here H p = here F p.
Proof. exact (look_here n F H (p_good _ _ _ _ P) (p_post _ _ _ _ P) p). Qed.
Lemma fin_get p : here F p = true -> dget p (comps F) = dget p (comps H1).
Proof. unfold here, dmem. destruct (dget p (comps F)) as [c|] eqn:E; [|discriminate]. intros _. symmetry. now apply (p_sub _ _ _ _ P). Qed.
Lemma fin_early p : here F p = true -> here H1 p = true.
Proof. intros Hp. pose proof (fin_get p Hp) as E. unfold here, dmem in *. now rewrite <- E. Qed.
Lemma fin_attr p a : here F p = true -> attr F p a = attr H1 p a.
Proof. intros Hp. unfold attr. now rewrite (fin_get p Hp), (p_specs _ _ _ _ P). Qed.
Lemma gone_attr X p a : here X p = false -> attr X p a = VNone.
Proof. intros Hp. apply here_false in Hp. unfold attr. now rewrite Hp. Qed.
Lemma fin_inst p s : inst_of F p = Some s -> inst_of H1 p = Some s.
Proof.
  unfold inst_of. destruct (here F p) eqn:Hp; [now rewrite fin_attr|]. rewrite gone_attr by exact Hp. discriminate.
Qed.
Lemma fin_tree : tree F.
Proof.
  pose proof (i_tree _ _ _ (p_inv _ _ _ _ P)) as T. split.
  - intros p Hp. apply (t_path _ T). now apply fin_early.
  - intros ps nm Hn Hp. rewrite !fin_attr by exact Hp. apply (t_place _ T); [exact Hn|now apply fin_early].
  - intros Hp. rewrite fin_attr by exact Hp. apply (t_root _ T). now apply fin_early.
  - intros p s E. apply (t_inst _ T p). now apply fin_inst.
  - destruct (inst_of F WORLD) as [s|] eqn:E; [|reflexivity]. apply fin_inst in E. rewrite (t_world _ T) in E. discriminate.
Qed.
Lemma fin_path p : here H p = true -> exists cs, names cs /\ p = abs_path cs.
Proof. rewrite fin_here. apply (t_path _ fin_tree). Qed.
Lemma fin_layer cs : names cs -> opinions cs layers <> [] -> here F (abs_path cs) = true.
Proof. intros Hc Ho. apply (p_old _ _ _ _ P). now apply start_here. Qed.
Lemma fin_untouched p a : untouched a -> attr H p a = attr F p a.
Proof. apply (post_structure n F (p_good _ _ _ _ P) H (p_post _ _ _ _ P)). Qed.
Lemma fin_inst_same p : inst_of H p = inst_of F p.
Proof. unfold inst_of. now rewrite (fin_untouched p _ untouched_inst). Qed.
Lemma fin_old cs a : names cs -> opinions cs layers <> [] -> ~ loose a -> attr F (abs_path cs) a = attr H0 (abs_path cs) a.
Proof.
  intros Hc Ho Ha. rewrite fin_attr by (now apply fin_layer). apply (kept_attr n); [apply good_pre|apply (p_later _ _ _ _ P)|now apply start_here|exact Ha].
Qed.
Lemma fin_src p b : src F p = Some b <-> attr H p INSTANCE_PATH = VStr b /\ b <> WORLD /\ here H b = true.
Proof.
  unfold src. rewrite <- fin_inst_same. unfold inst_of. rewrite fin_here. destruct (attr H p INSTANCE_PATH) as [| | |s| | | |]; cbn; try (split; [discriminate|intros (E & _); discriminate]).
  destruct (str_eqb s WORLD) eqn:E1; cbn [orb].
  - apply str_eqb_eq in E1. split; [discriminate|]. intros (E & N & _). congruence.
  - apply str_eqb_neq in E1. destruct (here F s) eqn:E2; cbn [negb]; split; intros E.
    + injection E as <-. auto.
    + destruct E as (E & _). congruence.
    + discriminate.
    + destruct E as (E & _ & E3). injection E as <-. congruence.
Qed.
Lemma fin_post p x : here F p = true -> In x INSTANCE_ATTRS ->
  attr H p x = (if has_opinion (attr F p x) then attr F p x else match src F p with None => attr F p x | Some b => attr H b x end) /\
  attr H p (x ++ META_SOURCE) = (if has_opinion (attr F p x) then attr F p (x ++ META_SOURCE)
                                 else match src F p with None => attr F p (x ++ META_SOURCE) | Some b => VTuple [attr F b SOURCE_LAYER; VStr p] end).
Proof. apply (post_attrs n F (p_good _ _ _ _ P) H (p_post _ _ _ _ P)). apply (t_world _ fin_tree). Qed.
Lemma layer_untouched : untouched SOURCE_LAYER.
Proof. split; [intros E; repeat destruct E as [E|E]; discriminate E || destruct E|]. intros a [<-|[<-|[<-|[]]]]; vm_compute; discriminate. Qed.

(** *** Tracked attributes *)

Definition tight (a : pystr) : Prop := In a TRACKED /\ a <> INSTANCE_PATH.
Lemma tight_cases a : tight a -> ~ loose a /\ ~ loose (a ++ META_SOURCE) /\ (In a INSTANCE_ATTRS \/ (untouched a /\ untouched (a ++ META_SOURCE))).
Proof.
  intros (Ha & Hi). unfold TRACKED in Ha. cbn [In] in Ha. unfold loose, untouched, INSTANCE_ATTRS.
  assert (D : forall a b : pystr, str_eqb a b = false -> a <> b) by (intros u v Q; now apply str_eqb_neq).
  decompose [or] Ha; subst; try contradiction; try congruence; (split; [|split]);
    try (intros [E|[E|E]]; revert E; apply D; reflexivity); try (left; cbn [In]; tauto).
  all: right; split; (split; [intros E; repeat destruct E as [E|E]; [revert E; apply D; reflexivity..|destruct E]|]);
    intros b [<-|[<-|[<-|[]]]]; apply D; reflexivity.
Qed.
Lemma says_opinion v : says v -> has_opinion v = true. Proof. apply has_opinion_says. Qed.

Lemma fin_strongest cs a m : names cs -> tight a -> speaks_first a (opinions cs layers) m ->
  attr H (abs_path cs) a = value m a /\ attr H (abs_path cs) (a ++ META_SOURCE) = VTuple [value m SOURCE_LAYER; VStr (abs_path cs)].
Proof.
  intros Hc Ta S. destruct (tight_cases a Ta) as (L1 & L2 & C). assert (Ho : opinions cs layers <> []) by (intros E; apply speaks_in in S; rewrite E in S; destruct S).
  pose proof S as S'. rewrite <- (stack_opinions layers wf cs Hc) in S'. destruct (pre_strongest _ _ _ _ (proj1 Ta) S') as (E1 & E2).
  assert (Em : says (value m a)) by (destruct S as (? & ? & _ & E & _); exact E).
  pose proof (fin_old cs a Hc Ho L1) as A1. pose proof (fin_old cs _ Hc Ho L2) as A2. unfold H0 in A1, A2. rewrite E1 in A1. rewrite E2 in A2. destruct C as [C|(C1 & C2)].
  - destruct (fin_post _ a (fin_layer cs Hc Ho) C) as (B1 & B2). rewrite A1, (says_opinion _ Em) in B1, B2. rewrite B1, B2. auto.
  - rewrite !fin_untouched by assumption. auto.
Qed.
Lemma fin_silent cs a d l : names cs -> tight a -> opinions cs layers = d :: l -> silent a (opinions cs layers) ->
  (~ In a INSTANCE_ATTRS \/ ~ exists b, attr H (abs_path cs) INSTANCE_PATH = VStr b /\ b <> WORLD /\ here H b = true) ->
  attr H (abs_path cs) a = value d a /\ attr H (abs_path cs) (a ++ META_SOURCE) = value d (a ++ META_SOURCE).
Proof.
  intros Hc Ta Eo S N. destruct (tight_cases a Ta) as (L1 & L2 & C). assert (Ho : opinions cs layers <> []) by (rewrite Eo; discriminate).
  pose proof S as S'. pose proof Eo as Eo'. rewrite <- (stack_opinions layers wf cs Hc) in S', Eo'. destruct (pre_silent _ _ _ _ _ (proj1 Ta) Eo' S') as (E1 & E2).
  pose proof (fin_old cs a Hc Ho L1) as A1. pose proof (fin_old cs _ Hc Ho L2) as A2. unfold H0 in A1, A2. rewrite E1 in A1. rewrite E2 in A2. destruct C as [C|(C1 & C2)].
  - destruct N as [N|N]; [contradiction|]. destruct (fin_post _ a (fin_layer cs Hc Ho) C) as (B1 & B2).
    assert (Es : src F (abs_path cs) = None). { destruct (src F (abs_path cs)) as [b|] eqn:E; [|reflexivity]. destruct N. exists b. now apply fin_src. }
    rewrite Es, A1 in B1. rewrite Es, A1, A2 in B2. destruct (has_opinion (value d a)); auto.
  - rewrite !fin_untouched by assumption. auto.
Qed.
Lemma fin_inherit p a b : here F p = true -> In a INSTANCE_ATTRS -> ~ says (attr F p a) -> attr H p INSTANCE_PATH = VStr b -> b <> WORLD -> here H b = true ->
  attr H p a = attr H b a /\ attr H p (a ++ META_SOURCE) = VTuple [attr H b SOURCE_LAYER; VStr p].
Proof.
  intros Hp Ha S E N Hb. destruct (fin_post p a Hp Ha) as (B1 & B2). apply no_opinion_says in S. assert (Es : src F p = Some b) by (now apply fin_src).
  rewrite S, Es in B1. rewrite S, Es in B2. now rewrite (fin_untouched b _ layer_untouched).
Qed.
Lemma instance_tight a : In a INSTANCE_ATTRS -> tight a.
Proof. intros Ha. split; [now apply instance_attrs_tracked|]. intros ->. revert Ha. apply untouched_inst. Qed.
Lemma fin_layer_inherit cs a b : names cs -> opinions cs layers <> [] -> In a INSTANCE_ATTRS -> silent a (opinions cs layers) ->
  attr H (abs_path cs) INSTANCE_PATH = VStr b -> b <> WORLD -> here H b = true ->
  attr H (abs_path cs) a = attr H b a /\ attr H (abs_path cs) (a ++ META_SOURCE) = VTuple [attr H b SOURCE_LAYER; VStr (abs_path cs)].
Proof.
  intros Hc Ho Ha S. apply fin_inherit; [now apply fin_layer|exact Ha|]. destruct (tight_cases a (instance_tight a Ha)) as (L1 & _). rewrite fin_old by auto.
  destruct (opinions cs layers) as [|d l] eqn:Eo; [congruence|]. pose proof S as S'. pose proof Eo as Eo'. rewrite <- Eo, <- (stack_opinions layers wf cs Hc) in S'.
  rewrite <- (stack_opinions layers wf cs Hc) in Eo'. destruct (pre_silent _ _ _ _ _ (instance_attrs_tracked a Ha) Eo' S') as (E1 & _). unfold H0. rewrite E1. apply S. now left.
Qed.

(** Plain attributes: those of the strongest layer that has the node. *)
Lemma fin_plain cs a d l : names cs -> opinions cs layers = d :: l -> In a [PARENT_PATH; NAME; SOURCE_LAYER; PROXY] -> attr H (abs_path cs) a = value d a.
Proof.
  intros Hc Eo Ha. assert (Ho : opinions cs layers <> []) by (rewrite Eo; discriminate). destruct (start_plain layers wf cs a Hc) as (d' & l' & E & A); [now apply start_here|exact Ha|].
  rewrite Eo in E. injection E as <- <-. rewrite <- A. rewrite fin_untouched.
  - apply fin_old; auto. intros [E|[E|E]]; subst; revert Ha; clear; intros Ha; cbn [In] in Ha; decompose [or] Ha; try discriminate; auto.
  - cbn [In] in Ha. decompose [or] Ha; subst; try contradiction; (split; [intros E; repeat destruct E as [E|E]; discriminate E || destruct E|]); intros b [<-|[<-|[<-|[]]]]; vm_compute; discriminate.
Qed.

(** The source of a node with nothing local below an instance. *)
Lemma fin_clear_source cs rs : names cs -> clear H0 cs -> opinions cs layers <> [] -> names rs -> rs <> [] ->
  attr H (abs_path cs) INSTANCE_PATH = VStr (abs_path rs) <-> source_in layers cs rs.
Proof.
  intros Hc C Ho Hr Hn. assert (Hh : here H0 (abs_path cs) = true) by (now apply start_here). rewrite (fin_untouched _ _ untouched_inst). rewrite fin_attr by (now apply fin_layer).
  pose proof (i_layer _ _ _ (p_inv _ _ _ _ P) cs Hc C Hh) as E. unfold inst_of in E. fold H0 in E. split.
  - intros A. rewrite A in E. cbn [as_str] in E. destruct (start_tracked layers wf cs INSTANCE_PATH Hc Hh inst_tracked) as [(m & S & B & _)|(S & d & l & El & B & _)].
    + exists m. split; [exact S|]. fold H0 in B. rewrite B in E. destruct (value m INSTANCE_PATH); try discriminate. cbn [as_str] in E. congruence.
    + exfalso. fold H0 in B. rewrite B in E. apply (S d); [rewrite El; now left|]. destruct (value d INSTANCE_PATH); try discriminate. split; discriminate.
  - intros (m & S & B). rewrite <- (stack_opinions layers wf cs Hc) in S. destruct (pre_strongest _ _ _ _ inst_tracked S) as (D & _). rewrite B in D. fold H0 in D. cbn zeta in E. fold H0 in E. rewrite D in E. cbn [as_str] in E.
    destruct (attr H1 (abs_path cs) INSTANCE_PATH); try discriminate. cbn [as_str] in E. congruence.
Qed.
(** *** Proxies *)

Lemma fin_born ps nm : names (ps ++ [nm]) -> here F (abs_path (ps ++ [nm])) = true -> opinions (ps ++ [nm]) layers = [] ->
  here H1 (abs_path (ps ++ [nm])) = true /\ here H0 (abs_path (ps ++ [nm])) = false.
Proof.
  intros Hn Hh Eo. split; [now apply fin_early|]. destruct (here H0 (abs_path (ps ++ [nm]))) eqn:E; [|reflexivity]. apply (start_here layers wf) in E; [congruence|exact Hn].
Qed.
Lemma made_attr X ps nm a : made n X ps nm -> ~ loose a -> a <> SOURCE_LAYER -> exists cm en sl, attr X (abs_path (ps ++ [nm])) a = value (proxy_spec nm cm en sl (abs_path ps)) a.
Proof.
  intros (c & i & cm & en & sl & Ec & Eb & _ & Es & Ho) La Lb. exists cm, en, sl. unfold attr. rewrite Ec. unfold node_attr. destruct (dget a (own c)) eqn:E; [|rewrite Eb, Es; reflexivity].
  exfalso. destruct (Ho a) as [L|L]; [congruence|auto|auto].
Qed.
Lemma proxy_untouched a : In a [PROXY; NAME; PARENT_PATH; EXECUTE_IN; START_POINT] -> untouched a /\ ~ loose a /\ a <> SOURCE_LAYER.
Proof.
  intros Ha. cbn [In] in Ha. assert (D : forall a b : pystr, str_eqb a b = false -> a <> b) by (intros u v Q; now apply str_eqb_neq).
  decompose [or] Ha; subst; try contradiction; (split; [|split]);
   [split; [intros E; repeat destruct E as [E|E]; discriminate E || destruct E|intros b [<-|[<-|[<-|[]]]]; apply D; reflexivity]|intros [E|[E|E]]; revert E; apply D; reflexivity|apply D; reflexivity | ..];
   try (split; [intros E; repeat destruct E as [E|E]; discriminate E || destruct E|intros b [<-|[<-|[<-|[]]]]; apply D; reflexivity]);
   try (intros [E|[E|E]]; revert E; apply D; reflexivity); try (apply D; reflexivity).
Qed.
(** A node of no layer is a proxy. *)
Lemma fin_proxy ps nm : names (ps ++ [nm]) -> here H (abs_path (ps ++ [nm])) = true -> opinions (ps ++ [nm]) layers = [] ->
  attr H (abs_path (ps ++ [nm])) PROXY = VBool true /\ attr H (abs_path (ps ++ [nm])) NAME = VStr nm /\ attr H (abs_path (ps ++ [nm])) PARENT_PATH = VStr (abs_path ps) /\
  attr H (abs_path (ps ++ [nm])) EXECUTE_IN = VNone /\ attr H (abs_path (ps ++ [nm])) START_POINT = VNone /\
  (exists ss, names ss /\ ss <> [] /\ attr H (abs_path (ps ++ [nm])) INSTANCE_PATH = VStr (abs_path (ss ++ [nm]))) /\
  attr F (abs_path (ps ++ [nm])) COMPUTE = VList [].
Proof.
  intros Hn Hh Eo. rewrite fin_here in Hh. destruct (fin_born ps nm Hn Hh Eo) as (A & B). destruct (i_born _ _ _ (p_inv _ _ _ _ P) ps nm Hn A B) as (_ & _ & (ss & S1 & S2 & S3) & M).
  assert (Q : forall a, In a [PROXY; NAME; PARENT_PATH; EXECUTE_IN; START_POINT] -> exists cm en sl, attr H (abs_path (ps ++ [nm])) a = value (proxy_spec nm cm en sl (abs_path ps)) a).
  { intros a Ha. destruct (proxy_untouched a Ha) as (U & L & L'). rewrite (fin_untouched _ _ U), fin_attr by exact Hh. now apply made_attr. }
  split. { destruct (Q PROXY) as (cm & en & sl & ->); [cbn [In]; tauto|]. apply proxy_values. }
  split. { destruct (Q NAME) as (cm & en & sl & ->); [cbn [In]; tauto|]. apply proxy_values. }
  split. { destruct (Q PARENT_PATH) as (cm & en & sl & ->); [cbn [In]; tauto|]. destruct (proxy_values nm cm en sl (abs_path ps)) as (_ & _ & _ & _ & _ & _ & -> & _). destruct (absolute ps) as (s & ->). reflexivity. }
  split. { destruct (Q EXECUTE_IN) as (cm & en & sl & ->); [cbn [In]; tauto|]. apply proxy_values. }
  split. { destruct (Q START_POINT) as (cm & en & sl & ->); [cbn [In]; tauto|]. apply proxy_values. }
  split. { exists ss. split; [exact S1|]. split; [exact S2|]. rewrite (fin_untouched _ _ untouched_inst), fin_attr by exact Hh. unfold inst_of in S3.
    destruct (attr H1 (abs_path (ps ++ [nm])) INSTANCE_PATH); try discriminate. cbn [as_str] in S3. congruence. }
  rewrite fin_attr by exact Hh. destruct (made_attr H1 ps nm COMPUTE M) as (cm & en & sl & ->); [intros [E|[E|E]]; discriminate|discriminate|]. apply proxy_values.
Qed.

Lemma says_quiet v : has_opinion (quiet v) = has_opinion v.
Proof. unfold quiet. destruct (has_opinion v) eqn:E; [exact E|reflexivity]. Qed.
(** In a stage without gaps a proxy is what its source is. *)
Lemma fin_copy ps nm : gapless layers -> names (ps ++ [nm]) -> clear H0 (ps ++ [nm]) -> here H (abs_path (ps ++ [nm])) = true -> opinions (ps ++ [nm]) layers = [] ->
  exists rs, names rs /\ rs <> [] /\ here H (abs_path ps) = true /\ attr H (abs_path ps) INSTANCE_PATH = VStr (abs_path rs) /\
    here H (abs_path (rs ++ [nm])) = true /\ attr H (abs_path (ps ++ [nm])) INSTANCE_PATH = VStr (abs_path (rs ++ [nm])) /\
    attr H (abs_path (ps ++ [nm])) SOURCE_LAYER = attr H (abs_path (rs ++ [nm])) SOURCE_LAYER /\
    attr H (abs_path (ps ++ [nm])) ENABLED = attr H (abs_path (rs ++ [nm])) ENABLED /\
    attr H (abs_path (ps ++ [nm])) COMPUTE = attr H (abs_path (rs ++ [nm])) COMPUTE /\
    attr H (abs_path (ps ++ [nm])) COMMENT = attr H (abs_path (rs ++ [nm])) COMMENT.
Proof.
  intros Gl Hn Cl Hh Eo. pose proof Hh as Hh'. rewrite fin_here in Hh'. destruct (fin_born ps nm Hn Hh' Eo) as (A & B). pose proof (p_linked _ _ _ _ P Gl) as EF.
  destruct (i_born _ _ _ (p_inv _ _ _ _ P) ps nm Hn A B) as (Hp & _). destruct (i_proxy _ _ _ (p_inv _ _ _ _ P) ps nm Hn Cl A B) as (rs & R1 & R2 & R3 & R4 & R5).
  destruct (R5 (start_linked layers wf Gl)) as (C1 & C2 & C3 & C4). rewrite <- EF in Hp, R3, R4, C1, C2, C3, C4. destruct (fin_proxy ps nm Hn Hh Eo) as (_ & _ & _ & _ & _ & _ & Ec).
  assert (I1 : attr H (abs_path ps) INSTANCE_PATH = VStr (abs_path rs)).
  { rewrite (fin_untouched _ _ untouched_inst). unfold inst_of in R3. destruct (attr F (abs_path ps) INSTANCE_PATH); try discriminate. cbn [as_str] in R3. congruence. }
  assert (I2 : attr H (abs_path (ps ++ [nm])) INSTANCE_PATH = VStr (abs_path (rs ++ [nm]))).
  { rewrite (fin_untouched _ _ untouched_inst). unfold inst_of in R4. destruct (attr F (abs_path (ps ++ [nm])) INSTANCE_PATH); try discriminate. cbn [as_str] in R4. congruence. }
  assert (Nw : abs_path (rs ++ [nm]) <> WORLD). { apply str_eqb_neq. apply abs_path_neqb; [|now destruct rs]. apply names_comp. apply names_snoc in Hn as (_ & Hn). apply Forall_app. split; [exact R1|now constructor]. }
  assert (Hs : here H (abs_path (rs ++ [nm])) = true) by (rewrite fin_here; exact C1).
  exists rs. split; [exact R1|]. split; [exact R2|]. split; [rewrite fin_here; exact Hp|]. split; [exact I1|]. split; [exact Hs|]. split; [exact I2|].
  split; [now rewrite !(fin_untouched _ _ layer_untouched)|].
  assert (Q : forall a, In a INSTANCE_ATTRS -> ~ says (attr F (abs_path (ps ++ [nm])) a) -> attr H (abs_path (ps ++ [nm])) a = attr H (abs_path (rs ++ [nm])) a).
  { intros a Ha S. apply (fin_inherit _ a (abs_path (rs ++ [nm]))); auto. }
  assert (Q' : forall a, In a INSTANCE_ATTRS -> says (attr F (abs_path (ps ++ [nm])) a) -> attr F (abs_path (ps ++ [nm])) a = attr F (abs_path (rs ++ [nm])) a ->
     attr H (abs_path (ps ++ [nm])) a = attr H (abs_path (rs ++ [nm])) a).
  { intros a Ha S E. destruct (fin_post _ a Hh' Ha) as (B1 & _). destruct (fin_post _ a C1 Ha) as (B2 & _). rewrite E in S. rewrite B1, B2, E, (says_opinion _ S). reflexivity. }
  split; [|split].
  - assert (Ha : In ENABLED INSTANCE_ATTRS) by (cbn [INSTANCE_ATTRS In]; tauto). destruct (has_opinion (attr F (abs_path (ps ++ [nm])) ENABLED)) eqn:E; [apply has_opinion_says in E|apply no_opinion_says in E]; auto.
  - apply Q; [cbn [INSTANCE_ATTRS In]; tauto|]. rewrite Ec. intros (_ & E). congruence.
  - assert (Ha : In COMMENT INSTANCE_ATTRS) by (cbn [INSTANCE_ATTRS In]; tauto). destruct (has_opinion (attr F (abs_path (ps ++ [nm])) COMMENT)) eqn:E; [|apply no_opinion_says in E; auto].
    pose proof E as E'. rewrite C3, says_quiet in E'. apply Q'; [exact Ha|now apply has_opinion_says|]. rewrite C3. unfold quiet. now rewrite E'.
Qed.
(** *** Subtrees of instances *)

Lemma fin_arc p b : here F p = true -> src F p = Some b -> In (Co b) (bs H (Co p)).
Proof.
  intros Hp Es. destruct (node_bases n F H (p_good _ _ _ _ P) (p_post _ _ _ _ P) p Hp) as (rest & Eb & _ & M). rewrite Es in M. destruct M as (_ & M). rewrite Eb.
  apply in_or_app. right. destruct M as [->|(-> & _)]; [apply in_or_app; right|]; now left.
Qed.
Lemma fin_dirty s t : gapless layers -> pure layers -> clos_trans _ (DirtySpec.depends (dirty H1)) s t -> here F s = true -> s <> WORLD ->
  here F t = true /\ t <> WORLD /\ up H (Co t) (Co s).
Proof.
  intros Gl Pu D. pose proof (p_linked _ _ _ _ P Gl) as EF. induction D as [s t D|s u t _ IH1 _ IH2]; intros Hs Ns.
  - destruct (i_edges _ _ _ (p_inv _ _ _ _ P) s t D) as (ts & T1 & T2 & -> & T3 & T4). specialize (T4 (start_clear layers wf ts T1 Pu)). rewrite <- EF in T3, T4.
    split; [exact T3|]. split; [apply str_eqb_neq; apply abs_path_neqb; [now apply names_comp|exact T2]|]. apply up_base. apply fin_arc; [exact T3|]. apply fin_src.
    split; [|split; [exact Ns|now rewrite fin_here]]. rewrite (fin_untouched _ _ untouched_inst). unfold inst_of in T4. destruct (attr F (abs_path ts) INSTANCE_PATH); try discriminate. cbn [as_str] in T4. congruence.
  - destruct (IH1 Hs Ns) as (A & B & C). destruct (IH2 A B) as (D & E & G). split; [exact D|]. split; [exact E|]. eapply up_trans; eauto.
Qed.
Lemma fin_inst_of p b : attr H p INSTANCE_PATH = VStr b -> inst_of F p = Some b.
Proof. rewrite (fin_untouched _ _ untouched_inst). unfold inst_of. now intros ->. Qed.
Lemma fin_not_world ps rs : attr H (abs_path ps) INSTANCE_PATH = VStr rs -> ps <> [].
Proof. intros E ->. apply fin_inst_of in E. change (abs_path []) with WORLD in E. rewrite (t_world _ fin_tree) in E. discriminate. Qed.

Lemma fin_possible ps rs : gapless layers -> pure layers -> names ps -> here H (abs_path ps) = true -> names rs -> rs <> [] ->
  attr H (abs_path ps) INSTANCE_PATH = VStr (abs_path rs) -> ~ strict_prefix rs ps -> possible H1 (abs_path ps) = Some (abs_path rs).
Proof.
  intros Gl Pu Hp Hh Hr Hrn E Nb. pose proof (p_linked _ _ _ _ P Gl) as EF. rewrite fin_here in Hh. apply possible_intro; auto.
  - rewrite <- EF. now apply fin_inst_of.
  - destruct (startswith (abs_path rs ++ NODE_SEP) (abs_path ps)) eqn:S; [|reflexivity]. exfalso.
    assert (A : is_ancestor (abs_path ps) (abs_path rs) = true). { unfold is_ancestor. now destruct (str_eqb (abs_path rs) WORLD). }
    apply is_ancestor_abs in A as [A|A]; [congruence|contradiction|now apply names_comp|now apply names_comp].
  - intros D. apply dirties_spec in D. assert (Nw : abs_path ps <> WORLD).
    { apply str_eqb_neq. apply abs_path_neqb; [now apply names_comp|]. now apply (fin_not_world ps (abs_path rs)). }
    destruct (fin_dirty _ _ Gl Pu D Hh Nw) as (A & B & C). apply (sound_acyclic H (Co (abs_path ps)) (Co (abs_path rs))); [|apply fin_arc; [exact Hh|]|exact C].
    + exact (look_sound n F H (p_good _ _ _ _ P) (p_post _ _ _ _ P)).
    + apply fin_src. split; [exact E|]. split; [exact B|]. now rewrite fin_here.
Qed.

(** An instance has exactly the children of its source. *)
Lemma fin_children ps rs nm : gapless layers -> pure layers -> names (ps ++ [nm]) -> here H (abs_path ps) = true -> names rs -> rs <> [] ->
  attr H (abs_path ps) INSTANCE_PATH = VStr (abs_path rs) -> ~ strict_prefix rs ps ->
  (here H (abs_path (ps ++ [nm])) = true <-> here H (abs_path (rs ++ [nm])) = true) /\
  (here H (abs_path (ps ++ [nm])) = true -> opinions (ps ++ [nm]) layers = [] /\ attr H (abs_path (ps ++ [nm])) INSTANCE_PATH = VStr (abs_path (rs ++ [nm]))).
Proof.
  intros Gl Pu Hn Hh Hr Hrn E Nb. pose proof (p_linked _ _ _ _ P Gl) as EF. pose proof Hn as Hn'. apply names_snoc in Hn' as (Hp & Hm).
  assert (Hrm : names (rs ++ [nm])) by (apply Forall_app; split; [exact Hr|now constructor]). pose proof (start_clear layers wf _ Hn Pu) as Cl.
  assert (Eo : opinions (ps ++ [nm]) layers = []).
  { destruct (opinions (ps ++ [nm]) layers) as [|d l] eqn:Eo; [reflexivity|]. exfalso. assert (B : here H0 (abs_path (ps ++ [nm])) = true) by (apply start_here; auto; rewrite Eo; discriminate).
    rewrite (no_layer_below n H0 H1 (p_inv _ _ _ _ P) ps nm Hn Cl) in B; [discriminate| |].
    - rewrite fin_here in Hh. now apply fin_early.
    - exists rs. split; [exact Hr|]. split; [exact Hrn|]. rewrite <- EF. now apply fin_inst_of. }
  assert (Q : here H (abs_path (ps ++ [nm])) = true -> here H (abs_path (rs ++ [nm])) = true /\ attr H (abs_path (ps ++ [nm])) INSTANCE_PATH = VStr (abs_path (rs ++ [nm]))).
  { intros Hq. destruct (fin_copy ps nm Gl Hn Cl Hq Eo) as (rs' & R1 & R2 & _ & R3 & R4 & R5 & _). rewrite E in R3. injection R3 as R3. apply path_inj in R3; auto. subst rs'. auto. }
  split; [split; [intros Hq; now apply Q|]|].
  - intros Hs. pose proof (fin_possible ps rs Gl Pu Hp Hh Hr Hrn E Nb) as Po. rewrite fin_here in Hs, Hh |- *. rewrite EF in Hs, Hh |- *.
    apply (p_closed _ _ _ _ P ps Hp (start_clear layers wf _ Hp Pu) Hh rs nm Hrm Hrn).
    + exact Po.
    + exists []. split; [constructor|]. now rewrite app_nil_r.
  - intros Hq. split; [exact Eo|now apply Q].
Qed.
Lemma fin_linked ps nm : gapless layers -> names (ps ++ [nm]) -> here H (abs_path (ps ++ [nm])) = true -> ps = [] \/ here H (abs_path ps) = true.
Proof.
  intros Gl Hn. rewrite !fin_here. rewrite (p_linked _ _ _ _ P Gl). apply (i_link _ _ _ (p_inv _ _ _ _ P) (start_linked layers wf Gl) ps nm Hn).
Qed.
(** ... and everything below. *)
Lemma fin_mirror ps rs : gapless layers -> pure layers -> names ps -> here H (abs_path ps) = true -> names rs -> rs <> [] -> here H (abs_path rs) = true ->
  attr H (abs_path ps) INSTANCE_PATH = VStr (abs_path rs) -> ~ strict_prefix rs ps -> forall xs, names xs ->
  (here H (abs_path (ps ++ xs)) = true <-> here H (abs_path (rs ++ xs)) = true) /\
  (here H (abs_path (ps ++ xs)) = true -> attr H (abs_path (ps ++ xs)) INSTANCE_PATH = VStr (abs_path (rs ++ xs))).
Proof.
  intros Gl Pu Hp Hh Hr Hrn Hhr E Nb xs. induction xs as [|nm xs IH] using rev_ind; intros Hx.
  - rewrite !app_nil_r. split; [split; auto|auto].
  - pose proof Hx as Hx'. apply names_snoc in Hx' as (Hxs & Hm). destruct (IH Hxs) as (A & B). pose proof (fin_not_world _ _ E) as Pn. rewrite !app_assoc.
    assert (N1 : names ((ps ++ xs) ++ [nm])) by (rewrite <- app_assoc; apply Forall_app; auto). assert (N2 : names ((rs ++ xs) ++ [nm])) by (rewrite <- app_assoc; apply Forall_app; auto).
    destruct (here H (abs_path (ps ++ xs))) eqn:Eh.
    + destruct (fin_children (ps ++ xs) (rs ++ xs) nm Gl Pu N1 Eh) as (C1 & C2).
      * apply Forall_app; auto.
      * now destruct rs.
      * auto.
      * intros (r & Rn & Er). apply Nb. rewrite <- app_assoc in Er. exists (skipn (length rs) ps).
        assert (L : length rs < length ps). { apply (f_equal (@length pystr)) in Er. rewrite !app_length in Er. destruct r; [congruence|]. cbn in Er. lia. }
        assert (F1 : firstn (length rs) ps = rs).
        { apply (f_equal (firstn (length rs))) in Er. rewrite !firstn_app, Nat.sub_diag, firstn_all, firstn_O, app_nil_r in Er. replace (length rs - length ps) with 0 in Er by lia. now rewrite firstn_O, app_nil_r in Er. }
        split; [|rewrite <- F1 at 2; rewrite F1; symmetry; rewrite <- F1 at 1; apply firstn_skipn].
        intros F2. apply (f_equal (@length pystr)) in F2. rewrite skipn_length in F2. cbn in F2. lia.
      * split; [exact C1|]. intros Hq. now apply C2.
    + assert (X1 : here H (abs_path ((ps ++ xs) ++ [nm])) = false).
      { destruct (here H (abs_path ((ps ++ xs) ++ [nm]))) eqn:Q; [|reflexivity]. apply (fin_linked _ _ Gl N1) in Q as [Q|Q]; [destruct ps; [congruence|discriminate]|congruence]. }
      assert (X2 : here H (abs_path ((rs ++ xs) ++ [nm])) = false).
      { destruct (here H (abs_path ((rs ++ xs) ++ [nm]))) eqn:Q; [|reflexivity]. apply (fin_linked _ _ Gl N2) in Q as [Q|Q]; [destruct rs; [congruence|discriminate]|]. apply A in Q. congruence. }
      rewrite X1, X2. split; [tauto|discriminate].
Qed.
(** A node without source has no children but those of the layers. *)
Lemma fin_no_source ps nm : names (ps ++ [nm]) -> pure layers -> gapless layers ->
  (forall rs, names rs -> rs <> [] -> attr H (abs_path ps) INSTANCE_PATH <> VStr (abs_path rs)) ->
  here H (abs_path (ps ++ [nm])) = true <-> opinions (ps ++ [nm]) layers <> [].
Proof.
  intros Hn Pu Gl N. split; [|intros Ho; rewrite fin_here; now apply fin_layer]. intros Hh Eo. destruct (fin_copy ps nm Gl Hn (start_clear layers wf _ Hn Pu) Hh Eo) as (rs & R1 & R2 & _ & R3 & _).
  now apply (N rs).
Qed.
(** *** Any attribute *)

Lemma fin_specs : specs H = specs F.
Proof. apply (post_structure n F (p_good _ _ _ _ P) H (p_post _ _ _ _ P)). Qed.
(** The layers of a node of the layers. *)
Lemma fin_layers cs : names cs -> opinions cs layers <> [] -> exists is, layers_of F (abs_path cs) = map Sp is /\ (forall i, In i is -> i < length (specs H)) /\
  spec_nodes (specs H) (map Sp is) = opinions cs layers.
Proof.
  intros Hc Ho. assert (Hh : here H0 (abs_path cs) = true) by (now apply start_here). pose proof Hh as Hd. unfold here, dmem in Hd.
  destruct (dget (abs_path cs) (comps H0)) as [c|] eqn:Ec; [|discriminate]. destruct (p_later _ _ _ _ P) as (K & _). destruct (k_nodes _ _ K _ _ Ec) as (c' & Ec' & Eb & _).
  destruct (k_specs _ _ K) as (more & Em). destruct (g_bases _ _ (good_pre (sorted_layers layers)) _ _ Ec) as (is & Ei & _ & _ & L). exists is.
  assert (Es : specs H = specs H0 ++ more) by (rewrite fin_specs, (p_specs _ _ _ _ P); exact Em).
  split; [unfold layers_of, bs, bases_in; rewrite fin_get by (now apply fin_layer); rewrite Ec'; congruence|]. split; [intros i Hi; rewrite Es, app_length; specialize (L i Hi); fold H0 in L; lia|].
  rewrite Es, spec_nodes_app by exact L. rewrite <- (stack_opinions layers wf cs Hc). pose proof (pre_bases_nodes (sorted_layers layers) (abs_path cs)) as B. cbn [bases_in] in B.
  fold H0 in B. rewrite Ec, Ei in B. exact B.
Qed.
(** The only layer of a proxy. *)
Lemma fin_made ps nm : names (ps ++ [nm]) -> here F (abs_path (ps ++ [nm])) = true -> opinions (ps ++ [nm]) layers = [] ->
  exists i cm en sl, layers_of F (abs_path (ps ++ [nm])) = [Sp i] /\ nth_error (specs H) i = Some (proxy_spec nm cm en sl (abs_path ps)).
Proof.
  intros Hn Hh Eo. destruct (fin_born ps nm Hn Hh Eo) as (A & B). destruct (i_born _ _ _ (p_inv _ _ _ _ P) ps nm Hn A B) as (_ & _ & _ & (c & i & cm & en & sl & Ec & Eb & _ & Es & _)).
  exists i, cm, en, sl. split; [|now rewrite fin_specs, (p_specs _ _ _ _ P)]. unfold layers_of, bs, bases_in. rewrite fin_get by exact Hh. now rewrite Ec.
Qed.
Lemma fin_root_layer : here F (abs_path []) = true -> opinions [] layers <> [].
Proof. intros Hh. apply fin_early in Hh. apply (i_root _ _ _ (p_inv _ _ _ _ P)) in Hh. now apply (start_here layers wf [] (Forall_nil _)) in Hh. Qed.

Lemma fin_internal p a : here H p = true -> In a internal_keys -> exists r, getattr H (Co p) a = Some (r, attr H p a).
Proof.
  intros Hp Ha. rewrite fin_here in Hp. apply (look_internal n F H (p_good _ _ _ _ P) (p_post _ _ _ _ P) p a Hp). intros i sp Hi Es. destruct (t_path _ fin_tree p Hp) as (cs & Hc & ->).
  destruct (opinions cs layers) as [|d l] eqn:Eo.
  - destruct cs as [|nm ps _] using rev_ind; [destruct (fin_root_layer Hp Eo)|]. destruct (fin_made ps nm Hc Hp Eo) as (j & cm & en & sl & El & Ej). rewrite El in Hi. destruct Hi as [Hi|[]]. injection Hi as ->.
    rewrite fin_specs in Ej. rewrite Es in Ej. injection Ej as ->. now apply proxy_keys.
  - destruct (fin_layers cs Hc) as (is & El & L & Sn); [rewrite Eo; discriminate|]. rewrite El in Hi. apply in_map_iff in Hi as (j & Ej & Hj). injection Ej as ->.
    apply (opinion_keys layers wf cs sp a Hc); [|exact Ha]. rewrite <- Sn. unfold spec_nodes. apply in_flat_map. exists (Sp i). split; [now apply in_map|]. rewrite fin_specs, Es. now left.
Qed.

Section User.
Variable a : pystr.
Hypothesis Ha : ~ In a internal_keys.

Lemma fin_own cs v : names cs -> has_first a (opinions cs layers) v -> exists r, lookup_in (own_attr H a) (layers_of F (abs_path cs)) = Some (r, v).
Proof.
  intros Hc Hf. destruct (fin_layers cs Hc) as (is & El & L & Sn). { intros E. rewrite E in Hf. destruct Hf as ([|? ?] & ? & ? & E' & _); discriminate. }
  rewrite El. rewrite <- Sn in Hf. destruct (first_of_specs (specs H) a (own_attr H a) is L) as (A & _); [reflexivity|]. auto.
Qed.
Lemma fin_own_none cs : names cs -> here F (abs_path cs) = true -> (forall d, In d (opinions cs layers) -> dget a d = None) ->
  lookup_in (own_attr H a) (layers_of F (abs_path cs)) = None.
Proof.
  intros Hc Hh Hd. destruct (opinions cs layers) as [|d l] eqn:Eo.
  - destruct cs as [|nm ps _] using rev_ind; [destruct (fin_root_layer Hh Eo)|]. destruct (fin_made ps nm Hc Hh Eo) as (i & cm & en & sl & -> & Ei). cbn [lookup_in own_attr]. rewrite Ei.
    destruct (dget a (proxy_spec nm cm en sl (abs_path ps))) eqn:E; [|reflexivity]. destruct Ha. apply (proxy_keys nm cm en sl (abs_path ps)). congruence.
  - destruct (fin_layers cs Hc) as (is & El & L & Sn); [rewrite Eo; discriminate|]. rewrite El. destruct (first_of_specs (specs H) a (own_attr H a) is L) as (_ & B); [reflexivity|].
    apply B. rewrite Sn, Eo. exact Hd.
Qed.

Definition kin (cs ds : list pystr) : Prop := closest (fun ds => here H (abs_path ds) = true) cs ds.
Lemma kin_par cs ds : names cs -> here F (abs_path cs) = true -> kin cs ds -> par F (abs_path cs) = [Co (abs_path ds)].
Proof.
  intros Hc Hh (k & K1 & K2 & K3 & K4). assert (K : closest (fun ds => here F (abs_path ds) = true) cs ds).
  { exists k. split; [exact K1|]. split; [exact K2|]. rewrite fin_here in K3. split; [exact K3|]. intros j Hj. rewrite <- fin_here. auto. }
  destruct (par_spec F cs fin_tree Hc Hh) as [(_ & N)|(ds' & E & K')]; [now destruct (N ds)|]. now rewrite (closest_unique _ _ _ _ K K').
Qed.
Lemma kin_none cs : names cs -> here F (abs_path cs) = true -> (forall ds, ~ kin cs ds) -> par F (abs_path cs) = [].
Proof.
  intros Hc Hh N. destruct (par_spec F cs fin_tree Hc Hh) as [(E & _)|(ds & _ & (k & K1 & K2 & K3 & K4))]; [exact E|]. destruct (N ds). exists k. split; [exact K1|]. split; [exact K2|].
  rewrite fin_here. split; [exact K3|]. intros j Hj. rewrite fin_here. auto.
Qed.
Lemma kin_here cs ds : kin cs ds -> here F (abs_path ds) = true.
Proof. intros (k & _ & _ & K & _). now rewrite fin_here in K. Qed.

Lemma fin_user_own cs v : names cs -> has_first a (opinions cs layers) v -> exists r, getattr H (Co (abs_path cs)) a = Some (r, v).
Proof.
  intros Hc Hf. destruct (fin_own cs v Hc Hf) as (r & E). exists r. apply (look_layers n F H (p_good _ _ _ _ P) (p_post _ _ _ _ P) a Ha); [|exact E].
  apply fin_layer; [exact Hc|]. intros E0. rewrite E0 in Hf. destruct Hf as ([|? ?] & ? & ? & E' & _); discriminate.
Qed.

Definition no_own cs := forall d, In d (opinions cs layers) -> dget a d = None.
Definition no_source p := forall b, ~ (attr H p INSTANCE_PATH = VStr b /\ b <> WORLD /\ here H b = true).
Lemma no_source_src p : no_source p -> src F p = None.
Proof. intros N. destruct (src F p) as [b|] eqn:E; [|reflexivity]. apply fin_src in E. now destruct (N b). Qed.

Lemma fin_user_alone cs : names cs -> here H (abs_path cs) = true -> no_own cs -> no_source (abs_path cs) -> (forall ds, ~ kin cs ds) -> getattr H (Co (abs_path cs)) a = None.
Proof.
  intros Hc Hh No Ns Nk. rewrite fin_here in Hh. destruct (node_bases n F H (p_good _ _ _ _ P) (p_post _ _ _ _ P) _ Hh) as (rest & Eb & _ & M). rewrite (no_source_src _ Ns), (kin_none cs Hc Hh Nk) in M. subst rest.
  rewrite app_nil_r in Eb. apply (look_none n F H (p_good _ _ _ _ P) (p_post _ _ _ _ P) a Ha _ Hh (fin_own_none cs Hc Hh No) Eb).
Qed.
Lemma fin_user_parent cs ds : names cs -> here H (abs_path cs) = true -> no_own cs -> no_source (abs_path cs) -> kin cs ds ->
  getattr H (Co (abs_path cs)) a = getattr H (Co (abs_path ds)) a.
Proof.
  intros Hc Hh No Ns K. rewrite fin_here in Hh. destruct (node_bases n F H (p_good _ _ _ _ P) (p_post _ _ _ _ P) _ Hh) as (rest & Eb & _ & M). rewrite (no_source_src _ Ns), (kin_par cs ds Hc Hh K) in M. subst rest.
  apply (look_one n F H (p_good _ _ _ _ P) (p_post _ _ _ _ P) a Ha _ _ Hh (fin_own_none cs Hc Hh No) Eb).
Qed.
Lemma fin_user_source cs b : names cs -> here H (abs_path cs) = true -> no_own cs -> attr H (abs_path cs) INSTANCE_PATH = VStr b -> b <> WORLD -> here H b = true -> (forall ds, ~ kin cs ds) ->
  getattr H (Co (abs_path cs)) a = getattr H (Co b) a.
Proof.
  intros Hc Hh No E1 E2 E3 Nk. assert (Es : src F (abs_path cs) = Some b) by (now apply fin_src). rewrite fin_here in Hh.
  destruct (node_bases n F H (p_good _ _ _ _ P) (p_post _ _ _ _ P) _ Hh) as (rest & Eb & _ & M). rewrite Es, (kin_none cs Hc Hh Nk) in M.
  apply (look_one n F H (p_good _ _ _ _ P) (p_post _ _ _ _ P) a Ha _ _ Hh (fin_own_none cs Hc Hh No)). destruct M as (_ & [->|(-> & _)]); exact Eb.
Qed.

Lemma mro_here p : here H p = true -> exists l, mro_of H (Co p) = Some l /\ forall x, In x l <-> up H (Co p) x.
Proof.
  intros Hp. destruct (look_sound n F H (p_good _ _ _ _ P) (p_post _ _ _ _ P)) as (_ & So). destruct (So p Hp) as (l & E). exists l. split; [exact E|].
  unfold mro_of in E. destruct (mro_laws ref_eqb ref_eqb_eq _ _ _ _ E) as (_ & _ & Hin & _). exact Hin.
Qed.
Lemma look_up_none b q : here H b = true -> here H q = true -> up H (Co b) (Co q) -> getattr H (Co b) a = None -> getattr H (Co q) a = None.
Proof.
  intros Hb Hq U. destruct (mro_here b Hb) as (lb & Eb & Ib). destruct (mro_here q Hq) as (lq & Eq & Iq). unfold getattr. rewrite Eb, Eq, !lookup_none. intros N x Hx. apply N. apply Ib.
  apply Iq in Hx. eapply up_trans; eauto.
Qed.

Section Both.
Variables (cs ds : list pystr) (b : pystr).
Hypothesis Hc : names cs.
Hypothesis Hh : here H (abs_path cs) = true.
Hypothesis No : no_own cs.
Hypothesis E1 : attr H (abs_path cs) INSTANCE_PATH = VStr b.
Hypothesis E2 : b <> WORLD.
Hypothesis E3 : here H b = true.
Hypothesis K : kin cs ds.

Lemma both_cases : (bs H (Co (abs_path cs)) = layers_of F (abs_path cs) ++ [Co (abs_path ds); Co b]) \/
  (getattr H (Co (abs_path cs)) a = getattr H (Co b) a /\ up H (Co b) (Co (abs_path ds))).
Proof.
  assert (Es : src F (abs_path cs) = Some b) by (now apply fin_src). pose proof Hh as Hf. rewrite fin_here in Hf.
  destruct (node_bases n F H (p_good _ _ _ _ P) (p_post _ _ _ _ P) _ Hf) as (rest & Eb & _ & M). rewrite Es, (kin_par cs ds Hc Hf K) in M. destruct M as (_ & [->|(-> & U)]); [now left|right]. split.
  - apply (look_one n F H (p_good _ _ _ _ P) (p_post _ _ _ _ P) a Ha _ _ Hf (fin_own_none cs Hc Hf No) Eb).
  - apply U. now left.
Qed.
Lemma fin_user_either r : getattr H (Co (abs_path cs)) a = Some r -> getattr H (Co (abs_path ds)) a = Some r \/ getattr H (Co b) a = Some r.
Proof.
  intros E. destruct both_cases as [Eb|(Eb & _)]; [|right; congruence]. pose proof Hh as Hf. rewrite fin_here in Hf.
  exact (look_either n F H (p_good _ _ _ _ P) (p_post _ _ _ _ P) a Ha _ _ _ Hf (fin_own_none cs Hc Hf No) Eb r E).
Qed.
Lemma fin_user_neither : getattr H (Co (abs_path cs)) a = None <-> getattr H (Co (abs_path ds)) a = None /\ getattr H (Co b) a = None.
Proof.
  destruct both_cases as [Eb|(Eb & U)].
  - pose proof Hh as Hf. rewrite fin_here in Hf. exact (look_neither n F H (p_good _ _ _ _ P) (p_post _ _ _ _ P) a Ha _ _ _ Hf (fin_own_none cs Hc Hf No) Eb).
  - rewrite Eb. split; [|intros (_ & E); exact E]. intros E. split; [|exact E]. apply (look_up_none b (abs_path ds)); auto. rewrite fin_here. now apply (kin_here cs).
Qed.
(** What the parent itself has comes before what the source has, unless the source inherits from the parent. *)
Lemma fin_user_parent_first v : names ds -> (forall l, mro_of H (Co b) = Some l -> ~ In (Co (abs_path ds)) l) -> has_first a (opinions ds layers) v ->
  exists r, getattr H (Co (abs_path cs)) a = Some (r, v).
Proof.
  intros Hd Nb Hf. destruct both_cases as [Eb|(_ & U)]; [|exfalso; destruct (mro_here b E3) as (l & E & I); apply (Nb l E); now apply I].
  destruct (fin_own ds v Hd Hf) as (r & E). exists r. pose proof Hh as Hg. rewrite fin_here in Hg.
  exact (look_parent_layers n F H (p_good _ _ _ _ P) (p_post _ _ _ _ P) a Ha _ _ _ Hg (fin_own_none cs Hc Hg No) Eb (r, v) (kin_here cs ds K) E).
Qed.
Lemma fin_user_source_first : (exists l, mro_of H (Co b) = Some l /\ In (Co (abs_path ds)) l) -> getattr H (Co (abs_path cs)) a = getattr H (Co b) a.
Proof.
  intros (l & El & Hi). destruct (mro_here b E3) as (l' & El' & I). rewrite El in El'. injection El' as <-. apply I in Hi. destruct both_cases as [Eb|(Eb & _)]; [|exact Eb]. exfalso.
  pose proof Hh as Hg. rewrite fin_here in Hg. exact (two_apart n F H (p_good _ _ _ _ P) (p_post _ _ _ _ P) a Ha _ _ _ Hg (fin_own_none cs Hc Hg No) Eb Hi).
Qed.
End Both.
End User.

(** *** Child orders *)

Definition plain_orders : Prop := forall l r, In l layers -> In r l -> NoDup (as_strs (value (snd r) CHILD_ORDER)).
Lemma opinion_row cs d : In d (opinions cs layers) -> exists l r, In l layers /\ In r l /\ snd r = d.
Proof.
  unfold opinions. intros Hd. apply in_map_iff in Hd as (r & <- & Hr). apply filter_In in Hr as (Hr & _). apply in_concat in Hr as (l & Hl & Hr). exists l, r. auto.
Qed.
Lemma start_tidy : plain_orders -> tidy H0.
Proof.
  intros Po p. destruct (here H0 p) eqn:Hp; [|unfold order_of; rewrite gone_attr by exact Hp; constructor]. destruct (start_path layers wf p Hp) as (cs & Hc & ->).
  destruct (start_first layers wf cs Hc Hp) as (d & l & E1 & E2). assert (Q : forall x, In x (stack (abs_path cs) (map as_placed (concat (sorted_layers layers)))) -> NoDup (as_strs (value x CHILD_ORDER))).
  { intros x Hx. rewrite (stack_opinions layers wf cs Hc) in Hx. destruct (opinion_row cs x Hx) as (l' & r & A & B & <-). now apply (Po l'). }
  destruct cs as [|c cs].
  - change (abs_path []) with WORLD in *. unfold order_of, H0. rewrite (pre_order_world _ d l E2). apply Q.
    assert (L : forall (m : list node) x y, In (List.last (x :: m) y) (x :: m)). { clear. induction m as [|z m IH]; intros x y; [now left|]. right. apply (IH z y). } change node with data in L. generalize (L l d d). rewrite <- E2. auto.
  - destruct (pre_order _ _ d l E2) as (_ & A); [|apply A; exact Q]. apply str_eqb_neq. apply abs_path_neqb; [now apply names_comp|discriminate].
Qed.
Lemma order_untouched : untouched CHILD_ORDER.
Proof. split; [intros E; repeat destruct E as [E|E]; discriminate E || destruct E|]. intros a [<-|[<-|[<-|[]]]]; vm_compute; discriminate. Qed.
Lemma fin_order_attr p : here F p = true -> order_of H p = order_of H1 p.
Proof. intros Hp. unfold order_of. now rewrite (fin_untouched _ _ order_untouched), fin_attr. Qed.
Lemma not_world cs : names cs -> cs <> [] -> abs_path cs <> WORLD.
Proof. intros Hc Hn. apply str_eqb_neq. apply abs_path_neqb; [now apply names_comp|exact Hn]. Qed.
Lemma fin_order cs d l : names cs -> cs <> [] -> opinions cs layers = d :: l ->
  (forall m x, In m (opinions cs layers) -> In x (as_strs (value m CHILD_ORDER)) -> In x (order_of H (abs_path cs))) /\
  (plain_orders -> NoDup (order_of H (abs_path cs)) /\
     filter (fun x => str_in x (as_strs (value d CHILD_ORDER))) (order_of H (abs_path cs)) = as_strs (value d CHILD_ORDER)).
Proof.
  intros Hc Hn Eo. assert (Ho : opinions cs layers <> []) by (rewrite Eo; discriminate). pose proof (fin_layer cs Hc Ho) as Hf. rewrite fin_order_attr by exact Hf.
  assert (Hh : here H0 (abs_path cs) = true) by (now apply start_here). pose proof Eo as E2. rewrite <- (stack_opinions layers wf cs Hc) in E2.
  destruct (pre_order _ _ d l E2 (not_world cs Hc Hn)) as (A & B). split.
  - intros m x Hm Hx. apply (o_old _ _ (p_grown _ _ _ _ P) _ Hh). apply A. exists m. split; [|exact Hx]. rewrite <- (stack_opinions layers wf cs Hc) in Hm. exact Hm.
  - intros Po. destruct B as (B1 & B2). { intros x Hx. pose proof (eq_ind _ (fun l => In x l) Hx _ (stack_opinions layers wf cs Hc)) as Hx'. clear Hx. rename Hx' into Hx. destruct (opinion_row cs x Hx) as (l' & r & Q1 & Q2 & <-). now apply (Po l'). }
    split; [apply (o_tidy _ _ (p_grown _ _ _ _ P) (start_tidy Po))|]. rewrite <- (filter_twice _ (order_of H0 (abs_path cs))).
    + pose proof (o_same _ _ (p_grown _ _ _ _ P) (start_tidy Po) _ Hh) as Q. fold H0 in Q. rewrite Q. exact B2.
    + intros x Hx. apply A. exists d. split; [|exact Hx]. assert (Hd : In d (opinions cs layers)) by (rewrite Eo; now left). rewrite <- (stack_opinions layers wf cs Hc) in Hd. exact Hd.
Qed.
Lemma fin_listed ps nm : names (ps ++ [nm]) -> here H (abs_path (ps ++ [nm])) = true -> opinions (ps ++ [nm]) layers = [] -> here H (abs_path ps) = true ->
  In nm (order_of H (abs_path ps)).
Proof.
  intros Hn Hh Eo Hp. rewrite fin_here in Hh, Hp. destruct (fin_born ps nm Hn Hh Eo) as (A & B). pose proof (o_new _ _ (p_grown _ _ _ _ P) _ A B) as I.
  destruct (t_place _ (i_tree _ _ _ (p_inv _ _ _ _ P)) ps nm Hn A) as (E1 & E2). unfold name_of, parent_of in I. rewrite E1, E2 in I. cbn [as_str] in I. now rewrite fin_order_attr.
Qed.
End Parts.
