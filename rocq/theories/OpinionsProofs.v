(** Questions about opinions. *)

From Coq Require Import String List NArith ZArith Bool Arith Lia.
From Verif Require Import PyStr PyStrFacts NxtPath PathSpec PathProofs Dict DictFacts DirtyMap ListMerger MergeProofs SortRows Layer PyVal NodeIO NodeIOProofs PyClass
  NodeEdit Comp CompSpec CompProofs CompProxyProofs CompPostProofs CompLookProofs CompTreeProofs CompStageProofs CompTotalProofs PyClassSpec PyClassProofs StageView StageViewProofs Live Arcs ArcsProofs Opinions OpinionsSpec.
From Verif Require Runtime DirtyProofs.
Import ListNotations.

(** *** The loop *)

Definition entries (H : heap) (p a : pystr) (l : list ref) : list entry :=
  flat_map (fun b => if looked_at H p a b && has_opinion (get H b a) then [(get H b (a ++ META_SOURCE), get H b a)] else []) l.
Definition add (acc : list entry) (e : entry) : list entry := if existsb (entry_eqb e) acc then acc else acc ++ [e].
Lemma loop_entries H p a l : (forall b, In b l -> looked_at H p a b = true -> has_opinion (get H b a) = true -> getattr H b (a ++ META_SOURCE) <> None) ->
  forall acc, history_loop H p a l acc = Ok (fold_left add (entries H p a l) acc).
Proof.
  induction l as [|b l IH]; intros Hs acc; cbn [history_loop entries flat_map]; [reflexivity|].
  specialize (IH (fun c Hc => Hs c (or_intror Hc))). destruct (looked_at H p a b) eqn:E1; cbn [andb app]; [|apply IH]. destruct (has_opinion (get H b a)) eqn:E2; cbn [app]; [|apply IH].
  specialize (Hs b (or_introl eq_refl) E1 E2). assert (Eg : forall r src, getattr H b (a ++ META_SOURCE) = Some (r, src) -> get H b (a ++ META_SOURCE) = src) by (intros r src Q; unfold get; now rewrite Q).
  destruct (getattr H b (a ++ META_SOURCE)) as [[r src]|]; [|congruence]. cbn [fold_left]. rewrite IH, (Eg r src eq_refl). reflexivity.
Qed.
Lemma entries_app H p a l l' : entries H p a (l ++ l') = entries H p a l ++ entries H p a l'.
Proof. unfold entries. now rewrite flat_map_app. Qed.
Lemma in_entries H p a l e : In e (entries H p a l) <-> exists b, In b l /\ looked_at H p a b = true /\ has_opinion (get H b a) = true /\ e = (get H b (a ++ META_SOURCE), get H b a).
Proof.
  unfold entries. rewrite in_flat_map. split.
  - intros (b & Hb & He). exists b. destruct (looked_at H p a b); cbn [andb] in He; [|destruct He]. destruct (has_opinion (get H b a)); [|destruct He]. destruct He as [<-|[]]. auto.
  - intros (b & Hb & E1 & E2 & ->). exists b. split; [exact Hb|]. rewrite E1, E2. now left.
Qed.

Lemma sub_app_one {A} (a b : list A) x : sub a b -> sub (a ++ [x]) (b ++ [x]).
Proof. induction 1; cbn; repeat constructor; assumption. Qed.
Lemma sub_app_skip {A} (a b : list A) x : sub a b -> sub a (b ++ [x]).
Proof. induction 1; cbn; repeat constructor; assumption. Qed.
Lemma add_once l : once l (fold_left add l []).
Proof.
  induction l as [|x l IH] using rev_ind; [split; [constructor|]; split; [reflexivity|]; split; [intros e []|intros a x b y c Q; destruct a; discriminate Q]|].
  rewrite fold_left_app. cbn [fold_left]. destruct IH as (S & Hd & Al & No). set (out := fold_left add l []) in *. change (once (l ++ [x]) (if existsb (entry_eqb x) out then out else out ++ [x])).
  destruct (existsb (entry_eqb x) out) eqn:E.
  - split; [exact (sub_app_skip _ _ x S)|]. split; [destruct l; [cbn in E; discriminate E|exact Hd]|]. split; [|exact No].
    intros e He. apply in_app_or in He as [He|[<-|[]]]; [now apply Al|]. apply existsb_exists in E as (e' & He' & Q). right. exists e'. split; [exact He'|exact Q].
  - split; [exact (sub_app_one _ _ x S)|]. split; [destruct l; [reflexivity|]; destruct out; [discriminate Hd|exact Hd]|]. split.
    + intros e He. apply in_app_or in He as [He|[<-|[]]]; [|left; apply in_or_app; right; now left]. destruct (Al e He) as [Q|(e' & Q1 & Q2)]; [left; apply in_or_app; now left|right]. exists e'. split; [apply in_or_app; now left|exact Q2].
    + intros a y b z c Q. destruct c as [|w c _] using rev_ind.
      * change (a ++ y :: b ++ [z]) with (a ++ (y :: b) ++ [z]) in Q. rewrite app_assoc in Q. apply app_inj_tail in Q as (Q & <-). intros Sa. assert (X : existsb (entry_eqb x) out = true); [|congruence]. apply existsb_exists. exists y. split; [rewrite Q; apply in_or_app; right; now left|exact Sa].
      * apply (No a y b z c). change (a ++ y :: b ++ z :: c ++ [w]) with (a ++ (y :: b ++ (z :: c) ++ [w])) in Q. rewrite (app_assoc b) in Q. change (a ++ (y :: (b ++ z :: c) ++ [w])) with (a ++ (y :: (b ++ z :: c)) ++ [w]) in Q. rewrite app_assoc in Q. apply app_inj_tail in Q as (Q & _). exact Q.
Qed.

Lemma getattr_sp H i a : getattr H (Sp i) a = match nth_error (specs H) i with Some n => option_map (pair (Sp i)) (dget a n) | None => None end.
Proof. unfold getattr, mro_of. rewrite mro_no_bases by reflexivity. cbn [lookup_in own_attr]. destruct (nth_error (specs H) i) as [n|]; [|reflexivity]. now destruct (dget a n). Qed.
Lemma get_sp H i a n : nth_error (specs H) i = Some n -> get H (Sp i) a = value n a.
Proof. intros E. unfold get. rewrite getattr_sp, E. unfold value. now destruct (dget a n). Qed.

Section Stage.
Variables (layers : list (list layer_row)) (H : heap).
Hypothesis wf : well_formed layers.
Hypothesis St : stage_of layers H.

Lemma get_reads cs a : get H (Co (abs_path cs)) a = match reads H cs a with Some v => v | None => VNone end.
Proof. unfold get, reads. destruct (getattr H (Co (abs_path cs)) a) as [[r v]|]; reflexivity. Qed.
Lemma get_comp cs a : in_stage H cs -> In a internal_keys -> get H (Co (abs_path cs)) a = attr H (abs_path cs) a.
Proof. intros Hh Ha. destruct (stage_parts layers H wf St) as (H1 & F & P). rewrite get_reads, (view_internal layers H1 F H wf P) by assumption. reflexivity. Qed.

(** The layers' nodes among the bases. *)
Lemma node_layers cs : names cs -> in_stage H cs -> exists is rest, bases_in (comps H) (Co (abs_path cs)) = map Sp is ++ rest /\ (forall r, In r rest -> exists q, r = Co q) /\ is <> [] /\
  (forall i, In i is -> i < length (specs H)) /\
  match opinions cs layers with
  | [] => exists ps nm cm en sl, cs = ps ++ [nm] /\ spec_nodes (specs H) (map Sp is) = [proxy_spec nm cm en sl (abs_path ps)]
  | l => spec_nodes (specs H) (map Sp is) = l
  end /\
  exists m, mro_of H (Co (abs_path cs)) = Some (Co (abs_path cs) :: map Sp is ++ m) /\ (forall r, In r m -> exists q, r = Co q \/ exists i, r = Sp i).
Proof.
  intros Hn Hh. destruct (stage_parts layers H wf St) as (H1 & F & P). pose proof Hh as Hf. unfold in_stage in Hf. rewrite (fin_here layers H1 F H P) in Hf.
  destruct (node_bases _ F H (p_good _ _ _ _ P) (p_post _ _ _ _ P) _ Hf) as (rest & Eb & Hr & _). destruct (flat_bases _ F (p_good _ _ _ _ P) (abs_path cs)) as (is & El & _ & Hne & Hlt).
  destruct (node_mro _ F H (p_good _ _ _ _ P) (p_post _ _ _ _ P) _ rest Hf Eb Hr) as (ls & m & _ & _ & Em).
  exists is, rest. split; [unfold bs in Eb; rewrite <- El; exact Eb|]. split; [exact Hr|]. split; [now apply Hne|]. split; [intros i Hi; rewrite (fin_specs layers H1 F H P); now apply Hlt|]. split.
  - destruct (opinions cs layers) as [|d l] eqn:Eo.
    + destruct cs as [|nm ps _] using rev_ind; [destruct (fin_root_layer layers H1 F H wf P Hf Eo)|]. destruct (fin_made layers H1 F H wf P ps nm Hn Hf Eo) as (j & cm & en & sl & El' & Ej).
      exists ps, nm, cm, en, sl. split; [reflexivity|]. rewrite <- El, El'. unfold spec_nodes. cbn [flat_map]. rewrite Ej. reflexivity.
    + destruct (fin_layers layers H1 F H wf P cs Hn) as (is' & El' & _ & Sn); [rewrite Eo; discriminate|]. rewrite <- El, El'. now rewrite Sn.
  - exists m. split; [rewrite <- El; exact Em|]. intros r _. destruct r as [i|q]; [exists []; right; now exists i|exists q; now left].
Qed.
(** Every class of the MRO is a node drawn from or a layer's node of one. *)
Lemma up_layer x y : up H x y -> forall cs i, x = Co (abs_path cs) -> y = Sp i -> names cs -> in_stage H cs -> exists es, draws H cs es /\ In (Sp i) (bases_in (comps H) (Co (abs_path es))).
Proof.
  destruct (stage_parts layers H wf St) as (H1 & F & P). induction 1 as [c|c b d Hb U IH]; intros cs i Ex Ey Hc Hh; subst; [discriminate|]. destruct b as [j|q].
  - apply (sp_up H) in U. injection U as <-. exists cs. split; [constructor|exact Hb].
  - destruct (view_up_co layers H1 F H wf P cs q Hc Hh Hb) as (ds & -> & [K|I]).
    + destruct (parent_names H cs ds Hc K) as (Hd & Hdh). destruct (IH ds i eq_refl eq_refl Hd Hdh) as (es & D & Hi). exists es. split; [now apply draws_parent with ds|exact Hi].
    + pose proof I as (Hr & _ & Hrh & _). destruct (IH ds i eq_refl eq_refl Hr Hrh) as (es & D & Hi). exists es. split; [now apply draws_source with ds|exact Hi].
Qed.
Lemma mro_members cs l r : names cs -> in_stage H cs -> mro_of H (Co (abs_path cs)) = Some l -> In r l ->
  exists es, draws H cs es /\ names es /\ in_stage H es /\ (r = Co (abs_path es) \/ exists i, r = Sp i /\ In (Sp i) (bases_in (comps H) (Co (abs_path es)))).
Proof.
  intros Hc Hh El Hr. destruct (stage_parts layers H wf St) as (H1 & F & P). destruct (mro_here layers H1 F H P (abs_path cs) Hh) as (l' & E & I). rewrite El in E. injection E as <-. apply I in Hr.
  destruct r as [i|q].
  - destruct (up_layer _ _ Hr cs i eq_refl eq_refl Hc Hh) as (es & D & Hi). destruct (draws_names H _ _ D Hc Hh) as (A & B). exists es. split; [exact D|]. split; [exact A|]. split; [exact B|]. right. now exists i.
  - destruct (up_draws layers H1 F H wf P _ _ Hr cs q eq_refl eq_refl Hc Hh) as (es & -> & D). destruct (draws_names H _ _ D Hc Hh) as (A & B). exists es. split; [exact D|]. split; [exact A|]. split; [exact B|]. now left.
Qed.
Lemma layer_node es i : names es -> in_stage H es -> In (Sp i) (bases_in (comps H) (Co (abs_path es))) -> exists d, nth_error (specs H) i = Some d /\
  (In d (opinions es layers) \/ opinions es layers = [] /\ exists ps nm cm en sl, es = ps ++ [nm] /\ d = proxy_spec nm cm en sl (abs_path ps)).
Proof.
  intros Hn Hh Hi. destruct (node_layers es Hn Hh) as (is & rest & Eb & Hr & _ & Hlt & M & _). rewrite Eb in Hi. apply in_app_or in Hi as [Hi|Hi]; [|destruct (Hr _ Hi) as (q & [=])].
  apply in_map_iff in Hi as (j & [= ->] & Hi). specialize (Hlt i Hi). destruct (nth_error (specs H) i) as [d|] eqn:Ed; [|apply nth_error_None in Ed; lia]. exists d. split; [reflexivity|].
  assert (Hd : In d (spec_nodes (specs H) (map Sp is))). { unfold spec_nodes. apply in_flat_map. exists (Sp i). split; [now apply in_map|]. rewrite Ed. now left. }
  destruct (opinions es layers) as [|m ms] eqn:Eo.
  - right. split; [reflexivity|]. destruct M as (ps & nm & cm & en & sl & -> & M). rewrite M in Hd. destruct Hd as [<-|[]]. eauto 8.
  - left. now rewrite <- M.
Qed.
Lemma layer_keys es i d a : names es -> in_stage H es -> In (Sp i) (bases_in (comps H) (Co (abs_path es))) -> nth_error (specs H) i = Some d -> In a internal_keys -> dget a d <> None.
Proof.
  intros Hn Hh Hi Ed Ha. destruct (layer_node es i Hn Hh Hi) as (d' & Ed' & M). rewrite Ed in Ed'. injection Ed' as <-. destruct M as [M|(_ & ps & nm & cm & en & sl & -> & ->)].
  - apply (opinion_keys layers wf es d a Hn M Ha).
  - now apply proxy_keys.
Qed.

(** *** The trace of sources *)

Lemma trace_keeps f : forall q acc x, In x acc -> In x (trace_from f H q acc).
Proof. induction f as [|f IH]; intros q acc x Hx; cbn [trace_from]; [exact Hx|]. destruct (inst_of H q); [|exact Hx]. destruct (_ && _); [|exact Hx]. apply IH. apply in_or_app. now left. Qed.
Lemma trace_closed_from f : forall p acc, NoDup acc -> (forall x, In x acc -> here H x = true) -> length (comps H) <= f + length acc ->
  (forall i, inst_of H p = Some i -> here H i = true -> In i (trace_from f H p acc)) /\
  (forall x i, In x (trace_from f H p acc) -> ~ In x acc -> inst_of H x = Some i -> here H i = true -> In i (trace_from f H p acc)).
Proof.
  induction f as [|f IH]; intros p acc Hn Hh Hl; cbn [trace_from].
  - assert (All : forall i, here H i = true -> In i acc). { intros i Hi. apply (@NoDup_length_incl pystr acc (dkeys (comps H)) Hn); [unfold dkeys; rewrite map_length; cbn in Hl; exact Hl|intros x Hx; apply here_In; auto|now apply here_In]. }
    split; intros; now apply All.
  - destruct (inst_of H p) as [j|] eqn:E; [|split; [intros i [=]|intros x i A B; contradiction]]. destruct (here H j) eqn:Hj; cbn [andb]; [|split; [intros i [= <-] Q; congruence|intros x i A B; contradiction]].
    destruct (str_in j acc) eqn:Ej; cbn [negb]; [apply str_in_In in Ej; split; [intros i [= <-] _; exact Ej|intros x i A B; contradiction]|].
    destruct (IH j (acc ++ [j])) as (A & B); [apply DirtyProofs.NoDup_snoc; [exact Hn|now apply str_in_false]|intros x Hx; apply in_app_or in Hx as [Hx|[<-|[]]]; auto|rewrite app_length; cbn; lia|]. split.
    + intros i [= <-] _. apply trace_keeps. apply in_or_app. right. now left.
    + intros x i Hx Hxa Ei Hi. destruct (pystr_eq_dec x j) as [->|Hxj]; [now apply A|]. apply (B x i); auto. intros Q. apply in_app_or in Q as [Q|[Q|[]]]; congruence.
Qed.
Lemma trace_closed p : (forall i, inst_of H p = Some i -> here H i = true -> In i (trace H p)) /\
  (forall x i, In x (trace H p) -> inst_of H x = Some i -> here H i = true -> In i (trace H p)).
Proof. destruct (trace_closed_from (length (comps H)) p [] (NoDup_nil _)) as (A & B); [intros x []|cbn; lia|]. split; [exact A|]. intros x i Hx. apply B; [exact Hx|intros []]. Qed.

Lemma points_inst cs rs : in_stage H cs -> points H cs rs -> inst_of H (abs_path cs) = Some (abs_path rs) /\ here H (abs_path rs) = true.
Proof.
  intros Hh (_ & Hr & E). destruct (stage_parts layers H wf St) as (H1 & F & P). rewrite (view_internal layers H1 F H wf P) in E by (auto; apply key; reflexivity). injection E as E. split; [|exact Hr]. unfold inst_of. now rewrite E.
Qed.
Lemma inst_points cs i : in_stage H cs -> inst_of H (abs_path cs) = Some i -> here H i = true -> exists rs, i = abs_path rs /\ points H cs rs.
Proof.
  intros Hh E Hi. destruct (stage_parts layers H wf St) as (H1 & F & P). destruct (fin_path layers H1 F H P i Hi) as (rs & Hr & ->). exists rs. split; [reflexivity|]. split; [exact Hr|]. split; [exact Hi|].
  rewrite (view_internal layers H1 F H wf P) by (auto; apply key; reflexivity). unfold inst_of, as_str in E. destruct (attr H (abs_path cs) INSTANCE_PATH); try discriminate. congruence.
Qed.
Lemma trace_follows cs es : in_stage H cs -> follows H cs es -> In (abs_path es) (trace H (abs_path cs)).
Proof.
  intros Hh Fo. destruct (trace_closed (abs_path cs)) as (A & B).
  assert (G : forall x y, follows H x y -> in_stage H x -> (x = cs \/ In (abs_path x) (trace H (abs_path cs))) -> In (abs_path y) (trace H (abs_path cs))).
  { induction 1 as [x r Px|x r y Px Fy IH]; intros Hx M; destruct (points_inst x r Hx Px) as (Ei & Hr).
    - destruct M as [->|M]; [now apply A|now apply (B (abs_path x))].
    - apply IH; [exact Hr|]. right. destruct M as [->|M]; [now apply A|now apply (B (abs_path x))]. }
  apply (G cs es Fo Hh). now left.
Qed.
Lemma follows_trace cs x : in_stage H cs -> In x (trace H (abs_path cs)) -> exists es, x = abs_path es /\ follows H cs es.
Proof.
  unfold trace. assert (G : forall f ds acc, in_stage H ds -> (ds = cs \/ follows H cs ds) -> In x (trace_from f H (abs_path ds) acc) -> In x acc \/ exists es, x = abs_path es /\ follows H cs es).
  { assert (T : forall a b c, follows H a b -> points H b c -> follows H a c). { intros a b c Fo. induction Fo as [a b Pb|a r b Pr Fo IH]; intros Pc; [eapply follows_more; [exact Pb|now apply follows_one]|eapply follows_more; eauto]. }
    induction f as [|f IH]; intros ds acc Hd M Hx; cbn [trace_from] in Hx; [now left|]. destruct (inst_of H (abs_path ds)) as [i|] eqn:E; [|now left]. destruct (here H i) eqn:Hi; cbn [andb] in Hx; [|now left].
    destruct (str_in i acc) eqn:Ea; cbn [negb] in Hx; [now left|]. destruct (inst_points ds i Hd E Hi) as (rs & -> & Pr).
    assert (Fo : follows H cs rs) by (destruct M as [->|M]; [now apply follows_one|now apply (T cs ds rs)]).
    destruct (IH rs _ Hi (or_intror Fo) Hx) as [Q|Q]; [|now right]. apply in_app_or in Q as [Q|[<-|[]]]; [now left|right]. exists rs. auto. }
  intros Hh Hx. destruct (G _ cs [] Hh (or_introl eq_refl) Hx) as [[]|Q]. exact Q.
Qed.

(** *** Tracked attributes *)
Section Tracked.
Hypothesis World : forall m, In m (opinions [] layers) -> value m NAME = VStr (lit "/").

Definition belongs (r : ref) (es : list pystr) : Prop := r = Co (abs_path es) \/ exists i, r = Sp i /\ In (Sp i) (bases_in (comps H) (Co (abs_path es))).
Lemma check_at es r : names es -> in_stage H es -> belongs r es -> check_path H r = abs_path es.
Proof.
  intros Hn Hh [->|(i & -> & Hi)]; [now apply (check_comp layers H wf St World)|]. destruct es as [|nm ps _] using rev_ind; [|now apply (check_spec layers H wf St)].
  destruct (layer_node [] i Hn Hh Hi) as (d & Ed & [M|(_ & ps & nm & _ & _ & _ & Q & _)]); [|destruct ps; discriminate]. unfold check_path, ref_attr. rewrite Ed. change (attr_or_none d NAME) with (value d NAME). rewrite (World d M). reflexivity.
Qed.

Variables (ps : list pystr) (nm : pystr).
Let cs := ps ++ [nm].
Hypothesis Hn : names cs.
Hypothesis Hh : in_stage H cs.
Variable a : pystr.
Hypothesis Ha : In a TRACKED.

Lemma tracked_all : str_in a ALL_INTERNAL = true.
Proof. apply str_in_In. unfold ALL_INTERNAL. apply in_or_app. now left. Qed.
Lemma tracked_keys : In a internal_keys /\ In (a ++ META_SOURCE) internal_keys.
Proof. unfold internal_keys. split; apply in_or_app; [left; apply str_in_In, tracked_all|right]. now apply (in_map (fun a => a ++ META_SOURCE)). Qed.
Lemma looked_own r : belongs r cs -> looked_at H (abs_path cs) a r = true.
Proof.
  intros Hr. unfold looked_at. rewrite tracked_all. unfold get_arc. rewrite (check_at cs r Hn Hh Hr). unfold cs. rewrite (comp_place layers H wf St ps nm Hn Hh), str_eqb_refl. now apply str_in_In.
Qed.
Definition inst_text (ds : list pystr) : pystr := match reads H ds INSTANCE_PATH with Some (VStr s) => s | _ => [] end.
Lemma inst_text_attr : str_of (attr H (abs_path cs) INSTANCE_PATH) = inst_text cs.
Proof. destruct (stage_parts layers H wf St) as (H1 & F & P). unfold inst_text. rewrite (view_internal layers H1 F H wf P) by (auto; apply key; reflexivity). reflexivity. Qed.
Lemma looked_other r es : names es -> in_stage H es -> belongs r es -> es <> cs ->
  looked_at H (abs_path cs) a r = true <-> es <> ps /\ (is_ancestor (abs_path es) (inst_text cs) = true \/ r = Co (abs_path es) /\ follows H cs es).
Proof.
  intros He Hes Hr Hne. unfold looked_at. rewrite tracked_all. unfold get_arc. rewrite (check_at es r He Hes Hr). rewrite inst_text_attr. pose proof (comp_place layers H wf St ps nm Hn Hh) as Ec. fold cs in Ec. rewrite Ec.
  assert (E1 : str_eqb (abs_path cs) (abs_path es) = false). { apply str_eqb_neq. intros Q. apply Hne. apply abs_path_inj in Q; [now symmetry|now apply names_comp|now apply names_comp]. }
  rewrite E1. destruct (at_place layers H wf St ps nm Hn Hh) as (Ep & _). fold cs in Ep. rewrite Ep. cbn [str_of].
  destruct (str_eqb (abs_path ps) (abs_path es)) eqn:E2.
  - apply str_eqb_eq in E2. assert (ps = es) as <-. { apply abs_path_inj in E2; [exact E2| |now apply names_comp]. apply names_comp. unfold cs in Hn. now apply Forall_app in Hn as (Hn' & _). }
    assert (A : is_ancestor (abs_path cs) (abs_path ps) = true). { apply is_ancestor_abs; [now apply names_comp|now apply names_comp|]. right. exists [nm]. split; [discriminate|reflexivity]. }
    rewrite A. cbn [andb]. split; [discriminate|]. now intros (Q & _).
  - cbn [andb]. assert (Nps : es <> ps) by (intros ->; rewrite str_eqb_refl in E2; discriminate).
    destruct (is_ancestor (abs_path es) (inst_text cs)) eqn:E3; cbn [orb]; [split; [auto|reflexivity]|]. destruct r as [i|q].
    + split; [discriminate|]. intros (_ & [Q|(Q & _)]); discriminate.
    + destruct Hr as [Hr|(i & Q & _)]; [|discriminate Q]. injection Hr as ->. destruct (str_in (abs_path es) (trace H (abs_path cs))) eqn:E4.
      * split; [intros _|reflexivity]. split; [exact Nps|]. right. split; [reflexivity|]. apply str_in_In in E4. destruct (follows_trace cs _ Hh E4) as (es' & Q & Fo). apply abs_path_inj in Q; [now subst|now apply names_comp|].
        assert (Hes' : names es') by (clear - Fo; induction Fo as [? ? (A & _)|]; assumption). now apply names_comp.
      * split; [discriminate|]. intros (_ & [Q|(_ & Fo)]); [discriminate|]. apply (trace_follows cs es Hh) in Fo. apply str_in_In in Fo. congruence.
Qed.

(** The entries. *)
Lemma says_dec v : {says v} + {~ says v}.
Proof. destruct (has_opinion v) eqn:E; [left; now apply has_opinion_says|right]. intros Q. apply has_opinion_says in Q. congruence. Qed.
Lemma told_entries is : (forall i, In i is -> belongs (Sp i) cs /\ i < length (specs H)) -> told a (spec_nodes (specs H) (map Sp is)) (entries H (abs_path cs) a (map Sp is)).
Proof.
  induction is as [|i is IH]; intros Hi; [constructor|]. destruct (Hi i (or_introl eq_refl)) as (Hb & Hlt). specialize (IH (fun j Hj => Hi j (or_intror Hj))). unfold spec_nodes, entries. cbn [map flat_map].
  destruct (nth_error (specs H) i) as [d|] eqn:Ed; [|apply nth_error_None in Ed; lia]. rewrite (looked_own _ Hb), !(get_sp H i _ d Ed). cbn [andb app]. destruct (has_opinion (value d a)) eqn:Eo; cbn [app].
  - apply told_one; [|exact IH]. split; [now apply has_opinion_says|reflexivity].
  - apply told_none; [|exact IH]. intros Q. apply has_opinion_says in Q. congruence.
Qed.

(** Sources exist. *)
Lemma sources es r : names es -> in_stage H es -> belongs r es -> getattr H r (a ++ META_SOURCE) <> None.
Proof.
  intros He Hes [->|(i & -> & Hi)].
  - destruct (stage_parts layers H wf St) as (H1 & F & P). destruct (fin_internal layers H1 F H wf P (abs_path es) (a ++ META_SOURCE) Hes (proj2 tracked_keys)) as (r & ->). discriminate.
  - rewrite getattr_sp. destruct (layer_node es i He Hes Hi) as (d & Ed & _). rewrite Ed. pose proof (layer_keys es i d _ He Hes Hi Ed (proj2 tracked_keys)) as Q. destruct (dget (a ++ META_SOURCE) d); [discriminate|congruence].
Qed.

Lemma told_comp es : in_stage H es -> has_opinion (get H (Co (abs_path es)) a) = true -> told_at H a es (get H (Co (abs_path es)) (a ++ META_SOURCE), get H (Co (abs_path es)) a).
Proof.
  intros Hes E. destruct (stage_parts layers H wf St) as (H1 & F & P). exists (get H (Co (abs_path es)) (a ++ META_SOURCE)), (get H (Co (abs_path es)) a). destruct tracked_keys as (K1 & K2).
  unfold source_of. rewrite !(view_internal layers H1 F H wf P) by auto. rewrite !get_comp by auto. split; [reflexivity|]. split; [reflexivity|]. split; [|reflexivity]. rewrite get_comp in E by auto. now apply has_opinion_says.
Qed.

Lemma history_all : exists l out local own others,
  get_historical_opinions H (abs_path cs) a true = Ok out /\ get_historical_opinions H (abs_path cs) a false = Ok (if truthy (attr H (abs_path cs) PROXY) then out else tl out) /\
  once l out /\ l = own ++ local ++ others /\
  (own = [] /\ ~ says (attr H (abs_path cs) a) \/ exists e, own = [e] /\ told_at H a cs e) /\
  (exists ms, told a ms local /\ match opinions cs layers with [] => exists m, ms = [m] /\ value m PROXY = VBool true | l => ms = l end) /\
  (forall e, In e others -> exists es, draws H cs es /\ es <> cs /\ es <> ps /\
     (told_at H a es e /\ (is_ancestor (abs_path es) (inst_text cs) = true \/ follows H cs es) \/
      exists m, told_by a m e /\ is_ancestor (abs_path es) (inst_text cs) = true /\ match opinions es layers with [] => value m PROXY = VBool true | l => In m l end)) /\
  (forall es e, draws H cs es -> es <> cs -> es <> ps -> is_ancestor (abs_path es) (inst_text cs) = true \/ follows H cs es -> told_at H a es e -> In e others).
Proof.
  destruct (stage_parts layers H wf St) as (H1 & F & P). destruct (node_layers cs Hn Hh) as (is & rest & Eb & Hr & _ & Hlt & Sn & m & Em & _).
  assert (Mem : forall r, In r (Co (abs_path cs) :: map Sp is ++ m) -> exists es, draws H cs es /\ names es /\ in_stage H es /\ belongs r es).
  { intros r Hin. destruct (mro_members cs _ r Hn Hh Em Hin) as (es & A & B & C & D). exists es. auto. }
  assert (Own : forall i, In i is -> belongs (Sp i) cs). { intros i Hi. right. exists i. split; [reflexivity|]. rewrite Eb. apply in_or_app. left. now apply in_map. }
  assert (Nd : NoDup (Co (abs_path cs) :: map Sp is ++ m)). { unfold mro_of in Em. destruct (mro_laws ref_eqb ref_eqb_eq _ _ _ _ Em) as (_ & Nd & _). exact Nd. }
  assert (Loop : history_loop H (abs_path cs) a (Co (abs_path cs) :: map Sp is ++ m) [] = Ok (fold_left add (entries H (abs_path cs) a (Co (abs_path cs) :: map Sp is ++ m)) [])).
  { apply loop_entries. intros b Hb _ _. destruct (Mem b Hb) as (es & _ & He & Hes & Hbe). now apply (sources es). }
  set (l := entries H (abs_path cs) a (Co (abs_path cs) :: map Sp is ++ m)) in *. set (out := fold_left add l []) in *.
  exists l, out, (entries H (abs_path cs) a (map Sp is)), (entries H (abs_path cs) a [Co (abs_path cs)]), (entries H (abs_path cs) a m).
  destruct tracked_keys as (K1 & K2).
  split. { unfold get_historical_opinions. rewrite Em, Loop. cbn [bind]. now rewrite orb_true_r. }
  split. { unfold get_historical_opinions. rewrite Em, Loop. cbn [bind]. rewrite orb_false_r, get_comp by (auto; apply key; reflexivity). destruct (truthy (attr H (abs_path cs) PROXY)); [reflexivity|]. now destruct out as [|? [|? ?]]. }
  split; [apply add_once|]. split. { unfold l. change (Co (abs_path cs) :: map Sp is ++ m) with ([Co (abs_path cs)] ++ map Sp is ++ m). now rewrite !entries_app. }
  split. { unfold entries. cbn [flat_map]. rewrite looked_own by now left. cbn [andb]. rewrite app_nil_r. destruct (has_opinion (get H (Co (abs_path cs)) a)) eqn:E.
    - right. eexists. split; [reflexivity|]. now apply told_comp.
    - left. split; [reflexivity|]. intros Q. apply has_opinion_says in Q. rewrite get_comp in E by auto. congruence. }
  split. { exists (spec_nodes (specs H) (map Sp is)). split; [apply told_entries; intros i Hi; split; [now apply Own|now apply Hlt]|]. destruct (opinions cs layers) as [|d ds]; [|exact Sn].
    destruct Sn as (ps' & nm' & cm & en & sl & _ & ->). eexists. split; [reflexivity|]. destruct (proxy_values nm' cm en sl (abs_path ps')) as (_ & _ & _ & _ & V5 & _). exact V5. }
  split.
  - intros e He. apply in_entries in He as (b & Hb & Lo & Ho & ->). destruct (Mem b) as (es & D & Hen & Hes & Be); [right; apply in_or_app; now right|].
    assert (Hne : es <> cs). { intros ->. inversion Nd as [|? ? N1 N2]; subst. destruct Be as [->|(i & -> & Hi)]; [apply N1; apply in_or_app; now right|].
      rewrite Eb in Hi. apply in_app_or in Hi as [Hi|Hi]; [|destruct (Hr _ Hi) as (q & [=])]. apply in_split in Hi as (u & v & Q). rewrite Q, <- app_assoc in N2. apply NoDup_remove_2 in N2. apply N2. apply in_or_app. right. apply in_or_app. now right. }
    exists es. split; [exact D|]. split; [exact Hne|]. destruct (proj1 (looked_other b es Hen Hes Be Hne) Lo) as (Hp & M). split; [exact Hp|]. destruct Be as [->|(i & -> & Hi)].
    + left. split; [now apply told_comp|]. destruct M as [M|(_ & M)]; auto.
    + right. destruct M as [M|(M & _)]; [|discriminate M]. destruct (layer_node es i Hen Hes Hi) as (d & Ed & Md). rewrite (get_sp H i a d Ed) in Ho |- *. rewrite (get_sp H i _ d Ed). exists d. split; [split; [now apply has_opinion_says|reflexivity]|]. split; [exact M|].
      destruct Md as [Md|(Eo & ps' & nm' & cm & en & sl & -> & ->)]; [destruct (opinions es layers); [destruct Md|exact Md]|]. rewrite Eo. destruct (proxy_values nm' cm en sl (abs_path ps')) as (_ & _ & _ & _ & V5 & _). exact V5.
  - intros es e D Hne Hp M (s & v & Es & Ev & Sa & ->). destruct (draws_names H _ _ D Hn Hh) as (Hen & Hes).
    assert (Hin : In (Co (abs_path es)) m). { pose proof (proj2 (draws_mro layers H1 F H wf P cs es _ Hn Hh Hen Em) D) as [Q|Q]; [injection Q as Q; destruct Hne; apply abs_path_inj in Q; [now symmetry|now apply names_comp|now apply names_comp]|].
      apply in_app_or in Q as [Q|Q]; [apply in_map_iff in Q as (i & [=] & _)|exact Q]. }
    apply in_entries. exists (Co (abs_path es)). split; [exact Hin|]. split; [apply (looked_other (Co (abs_path es)) es Hen Hes (or_introl eq_refl) Hne); split; [exact Hp|]; destruct M; auto|].
    unfold source_of in Es. rewrite !get_reads, Ev, Es. split; [now apply has_opinion_says|reflexivity].
Qed.
End Tracked.

(** *** User attributes *)
Section User.
Variable a : pystr.
Hypothesis Ha : ~ In a internal_keys.
Hypothesis Hs : ~ In (a ++ META_SOURCE) internal_keys.
Hypothesis Sourced : forall l r, In l layers -> In r l -> dget a (snd r) = None <-> dget (a ++ META_SOURCE) (snd r) = None.

Lemma draws_trans x y z : draws H x y -> draws H y z -> draws H x z.
Proof. induction 1 as [|x d y K D IH|x r y I D IH]; intros Hz; [exact Hz|eapply draws_parent; eauto|eapply draws_source; eauto]. Qed.
Lemma looked_user p b : looked_at H p a b = true.
Proof. unfold looked_at. destruct (str_in a ALL_INTERNAL) eqn:E; [|reflexivity]. destruct Ha. unfold internal_keys. apply in_or_app. left. now apply str_in_In. Qed.
Lemma user_layer es i d : names es -> in_stage H es -> In (Sp i) (bases_in (comps H) (Co (abs_path es))) -> nth_error (specs H) i = Some d ->
  (dget a d = None <-> dget (a ++ META_SOURCE) d = None) /\ (dget a d <> None -> In d (opinions es layers)).
Proof.
  intros Hn Hh Hi Ed. destruct (layer_node es i Hn Hh Hi) as (d' & Ed' & M). rewrite Ed in Ed'. injection Ed' as <-. destruct M as [M|(_ & ps & nm & cm & en & sl & -> & ->)].
  - split; [|auto]. destruct (opinion_row layers es d M) as (l & r & Hl & Hr & <-). now apply (Sourced l).
  - assert (N : forall k, ~ In k internal_keys -> dget k (proxy_spec nm cm en sl (abs_path ps)) = None). { intros k Hk. destruct (dget k (proxy_spec nm cm en sl (abs_path ps))) eqn:E; [|reflexivity]. destruct Hk. apply (proxy_keys nm cm en sl (abs_path ps)). congruence. }
    rewrite !N by assumption. split; [tauto|congruence].
Qed.
Lemma lookup_both (o o' : ref -> option pyval) : forall l, (forall x, In x l -> o x = None <-> o' x = None) -> forall r v, lookup_in o l = Some (r, v) -> exists v', lookup_in o' l = Some (r, v') /\ o r = Some v /\ o' r = Some v' /\ In r l.
Proof.
  induction l as [|x l IH]; intros Hx r v E; [discriminate|]. cbn [lookup_in] in *. pose proof (Hx x (or_introl eq_refl)) as B. destruct (o x) as [w|] eqn:Ex.
  - injection E as <- <-. destruct (o' x) as [w'|] eqn:Ex'; [exists w'; repeat split; auto; now left|]. destruct B as (_ & B). specialize (B eq_refl). discriminate B.
  - destruct B as (B & _). rewrite (B eq_refl). destruct (IH (fun y Hy => Hx y (or_intror Hy)) r v E) as (v' & A & C & D & I). exists v'. repeat split; auto. now right.
Qed.
Lemma user_own q : own_attr H a (Co q) = None /\ own_attr H (a ++ META_SOURCE) (Co q) = None.
Proof. destruct (stage_parts layers H wf St) as (H1 & F & P). split; apply (own_co _ F H (p_good _ _ _ _ P) (p_post _ _ _ _ P)); assumption. Qed.
(** What a composed node reads comes from one layer's node. *)
Lemma user_read cs r v : names cs -> in_stage H cs -> getattr H (Co (abs_path cs)) a = Some (r, v) -> exists i d es s, r = Sp i /\ nth_error (specs H) i = Some d /\ draws H cs es /\
  In d (opinions es layers) /\ dget a d = Some v /\ dget (a ++ META_SOURCE) d = Some s /\ getattr H (Co (abs_path cs)) (a ++ META_SOURCE) = Some (r, s).
Proof.
  intros Hn Hh E. unfold getattr in *. destruct (mro_of H (Co (abs_path cs))) as [l|] eqn:El; [|discriminate].
  destruct (lookup_both (own_attr H a) (own_attr H (a ++ META_SOURCE)) l) with (r := r) (v := v) as (s & E' & Ov & Os & Hr); [|exact E|].
  { intros x Hx. destruct (mro_members cs l x Hn Hh El Hx) as (es & D & He & Hes & [->|(i & -> & Hi)]).
    - destruct (user_own (abs_path es)) as (-> & ->). tauto.
    - cbn [own_attr]. destruct (nth_error (specs H) i) as [d|] eqn:Ed; [|tauto]. now apply (user_layer es i d He Hes Hi Ed). }
  destruct (mro_members cs l r Hn Hh El Hr) as (es & D & He & Hes & [->|(i & -> & Hi)]); [destruct (user_own (abs_path es)) as (Q & _); congruence|].
  cbn [own_attr] in Ov, Os. destruct (nth_error (specs H) i) as [d|] eqn:Ed; [|discriminate]. exists i, d, es, s. repeat split; auto. apply (user_layer es i d He Hes Hi Ed). congruence.
Qed.
Lemma history_user cs : names cs -> in_stage H cs -> exists l out,
  get_historical_opinions H (abs_path cs) a true = Ok out /\ get_historical_opinions H (abs_path cs) a false = Ok (if truthy (attr H (abs_path cs) PROXY) then out else tl out) /\
  once l out /\ (forall e, In e l <-> exists es m, draws H cs es /\ In m (opinions es layers) /\ told_by a m e) /\
  (forall e, told_at H a cs e -> hd_error l = Some e).
Proof.
  intros Hn Hh. destruct (stage_parts layers H wf St) as (H1 & F & P). destruct (node_layers cs Hn Hh) as (is0 & _ & _ & _ & _ & _ & _ & mt & Em & _).
  remember (Co (abs_path cs) :: map Sp is0 ++ mt) as mr eqn:Emr.
  assert (Mem : forall r, In r mr -> exists es, draws H cs es /\ names es /\ in_stage H es /\ belongs r es).
  { intros r Hin. destruct (mro_members cs _ r Hn Hh Em Hin) as (es & A & B & C & D). exists es. auto. }
  assert (Get : forall r v, In r mr -> getattr H r a = Some v -> exists es d s, draws H cs es /\ In d (opinions es layers) /\ dget a d = Some (snd v) /\ dget (a ++ META_SOURCE) d = Some s /\ exists q, getattr H r (a ++ META_SOURCE) = Some (q, s)).
  { intros r (q, v) Hr Eg. destruct (Mem r Hr) as (es & D & He & Hes & [->|(i & -> & Hi)]).
    - destruct (user_read es q v He Hes Eg) as (i & d & es' & s & -> & Ed & D' & Hd & Ev & Es & Eg'). exists es', d, s. repeat split; auto; [now apply draws_trans with es|]. eexists; exact Eg'.
    - rewrite getattr_sp in Eg |- *. destruct (nth_error (specs H) i) as [d|] eqn:Ed; [|discriminate]. destruct (user_layer es i d He Hes Hi Ed) as (B & C). destruct (dget a d) as [w|] eqn:Ew; [|discriminate]. cbn in Eg. injection Eg as <- <-.
      destruct (dget (a ++ META_SOURCE) d) as [s|] eqn:Es; [|destruct B as (_ & B); specialize (B eq_refl); discriminate B]. exists es, d, s. repeat split; auto; [apply C; discriminate|]. now exists (Sp i). }
  assert (Loop : history_loop H (abs_path cs) a mr [] = Ok (fold_left add (entries H (abs_path cs) a mr) [])).
  { apply loop_entries. intros b Hb _ Ho. unfold get in Ho. destruct (getattr H b a) as [v|] eqn:Eg; [|discriminate Ho]. destruct (Get b v Hb Eg) as (_ & _ & s & _ & _ & _ & _ & q & ->). discriminate. }
  set (l := entries H (abs_path cs) a mr) in *. set (out := fold_left add l []) in *. exists l, out.
  split. { unfold get_historical_opinions. rewrite Em, Loop. cbn [bind]. now rewrite orb_true_r. }
  split. { unfold get_historical_opinions. rewrite Em, Loop. cbn [bind]. rewrite orb_false_r, get_comp by (auto; apply key; reflexivity). destruct (truthy (attr H (abs_path cs) PROXY)); [reflexivity|]. now destruct out as [|? [|? ?]]. }
  split; [apply add_once|]. split.
  - intros e. unfold l. rewrite in_entries. split.
    + intros (b & Hb & _ & Ho & ->). unfold get in Ho |- *. destruct (getattr H b a) as [(q, v)|] eqn:Eg; [|discriminate Ho]. destruct (Get b (q, v) Hb Eg) as (es & d & s & D & Hd & Ev & Es & q' & ->). cbn [snd] in Ev.
      exists es, d. split; [exact D|]. split; [exact Hd|]. unfold told_by, value, source_of. rewrite Ev, Es. split; [now apply has_opinion_says|reflexivity].
    + intros (es & m & D & Hm & Sa & ->). destruct (draws_names H _ _ D Hn Hh) as (He & Hes). destruct (node_layers es He Hes) as (is & rest & Eb & _ & _ & _ & Sn & _).
      assert (Hm' : In m (spec_nodes (specs H) (map Sp is))) by (destruct (opinions es layers); [destruct Hm|now rewrite Sn]). unfold spec_nodes in Hm'. apply in_flat_map in Hm' as (b & Hb & Hm'). apply in_map_iff in Hb as (i & <- & Hi).
      destruct (nth_error (specs H) i) as [d|] eqn:Ed; [|destruct Hm']. destruct Hm' as [->|[]]. exists (Sp i). rewrite !(get_sp H i _ m Ed). split; [|split; [apply looked_user|split; [now apply has_opinion_says|reflexivity]]].
      destruct (mro_here layers H1 F H P (abs_path cs) Hh) as (l' & E & I). rewrite Em in E. injection E as <-. apply I. eapply up_trans; [apply (draws_up layers H1 F H wf P cs es D Hn Hh)|]. eapply above_base; [|constructor]. unfold bs. rewrite Eb. apply in_or_app. left. now apply in_map.
  - intros e (s & v & Es & Ev & Sa & ->). unfold l. rewrite Emr. unfold entries. cbn [flat_map]. rewrite looked_user. unfold source_of in Es. rewrite !get_reads, Ev, Es. apply has_opinion_says in Sa. rewrite Sa. reflexivity.
Qed.
End User.

(** *** Stronger opinions *)
Lemma scan_layers a target : forall is rest val, (forall i, In i is -> i < length (specs H)) ->
  (exists stronger m weaker, spec_nodes (specs H) (map Sp is) = stronger ++ m :: weaker /\ Runtime.py_eqb (value m SOURCE_LAYER) target = true /\
     (forall x, In x stronger -> Runtime.py_eqb (value x SOURCE_LAYER) target = false)) ->
  (exists v, scan H a target (map Sp is ++ rest) val = (v, false)) \/
  exists m, speaks_first a (spec_nodes (specs H) (map Sp is)) m /\ scan H a target (map Sp is ++ rest) val = (value m a, true).
Proof.
  induction is as [|i is IH]; intros rest val Hi (st & m & wk & E & Em & Hst); [destruct st; discriminate E|].
  pose proof (Hi i (or_introl eq_refl)) as Hlt. destruct (nth_error (specs H) i) as [d|] eqn:Ed; [|apply nth_error_None in Ed; lia].
  assert (Es : spec_nodes (specs H) (map Sp (i :: is)) = d :: spec_nodes (specs H) (map Sp is)) by (unfold spec_nodes; cbn [map flat_map]; rewrite Ed; reflexivity).
  rewrite Es in E |- *. cbn [map app scan]. rewrite !(get_sp H i _ d Ed). destruct (Runtime.py_eqb (value d SOURCE_LAYER) target) eqn:Et; [left; eauto|]. destruct st as [|x st]; [injection E as -> _; congruence|]. injection E as <- E.
  destruct (has_opinion (value d a)) eqn:Eo.
  - right. exists d. split; [|reflexivity]. exists [], (spec_nodes (specs H) (map Sp is)). split; [reflexivity|]. split; [now apply has_opinion_says|intros ? []].
  - destruct (IH rest (value d a) (fun j Hj => Hi j (or_intror Hj))) as [L|(m' & S & R)]; [exists st, m, wk; split; [exact E|split; [exact Em|intros y Hy; apply Hst; now right]]|now left|right].
    exists m'. split; [|exact R]. destruct S as (u & w & Eu & Sa & Nu). exists (d :: u), w. split; [now rewrite Eu|]. split; [exact Sa|]. intros y [<-|Hy]; [intros Q; apply has_opinion_says in Q; congruence|now apply Nu].
Qed.
End Stage.

(** *** Layers with an opinion *)
Section Layers.
Variables (p a : pystr).
Let speaks (l : numbered_layer) : bool := has_opinion (match dget p (snd l) with Some n => attr_or_none n a | None => VNone end).
Lemma remove_first_layer : forall u x v, (forall y, In y u -> fst y <> fst x) -> remove_layer (fst x) (u ++ x :: v) = u ++ v.
Proof.
  induction u as [|y u IH]; intros x v Hu; cbn [app remove_layer]; [now rewrite Nat.eqb_refl|]. assert (E : Nat.eqb (fst y) (fst x) = false) by (apply Nat.eqb_neq; apply Hu; now left). rewrite E, IH; [reflexivity|]. intros z Hz. apply Hu. now right.
Qed.
Lemma removes : forall todo done, NoDup (map fst (done ++ todo)) ->
  fold_left (fun acc l => if speaks l then acc else remove_layer (fst l) acc) todo (done ++ todo) = done ++ filter speaks todo.
Proof.
  induction todo as [|l todo IH]; intros done Hn; cbn [fold_left filter]; [reflexivity|]. destruct (speaks l) eqn:E.
  - replace (done ++ l :: todo) with ((done ++ [l]) ++ todo) in * by now rewrite <- app_assoc. rewrite IH by exact Hn. now rewrite <- app_assoc.
  - rewrite map_app in Hn. cbn [map] in Hn. pose proof (NoDup_remove_2 _ _ _ Hn) as N2. rewrite remove_first_layer by (intros y Hy Q; apply N2, in_or_app; left; rewrite <- Q; now apply in_map). apply IH. rewrite map_app. now apply NoDup_remove_1 in Hn.
Qed.
Lemma nodup_filter (f : numbered_layer -> bool) l : NoDup (map fst l) -> NoDup (map fst (filter f l)).
Proof.
  induction l as [|x l IH]; cbn [map filter]; intros Hn; [constructor|]. inversion Hn as [|? ? N1 N2]; subst. destruct (f x); [|auto]. cbn [map]. constructor; [|auto].
  intros Q. apply N1. apply in_map_iff in Q as (y & <- & Q). apply filter_In in Q as (Q & _). now apply in_map.
Qed.
End Layers.
