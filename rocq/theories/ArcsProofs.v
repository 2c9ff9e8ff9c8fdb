(** The arcs of a composed node's bases. *)

From Coq Require Import String List NArith ZArith Bool Arith Lia.
From Verif Require Import PyStr PyStrFacts NxtPath PathSpec PathProofs Dict DictFacts SortRows Layer PyVal NodeIO NodeIOProofs PyClass
  NodeEdit Comp CompSpec CompProofs CompProxyProofs CompPostProofs CompLookProofs CompTreeProofs CompStageProofs CompTotalProofs PyClassSpec PyClassProofs StageView StageViewProofs Live Arcs.
Import ListNotations.

Section Arcs.
Variables (layers : list (list layer_row)) (H : heap).
Hypothesis wf : well_formed layers.
Hypothesis St : stage_of layers H.
Hypothesis World : forall m, In m (opinions [] layers) -> value m NAME = VStr (lit "/").

Lemma at_place ps nm : names (ps ++ [nm]) -> here H (abs_path (ps ++ [nm])) = true ->
  attr H (abs_path (ps ++ [nm])) PARENT_PATH = VStr (abs_path ps) /\ attr H (abs_path (ps ++ [nm])) NAME = VStr nm.
Proof.
  intros Hn Hh. destruct (stage_parts layers H wf St) as (H1 & F & P). rewrite (fin_here layers H1 F H P) in Hh.
  rewrite !(fin_untouched layers H1 F H P) by (split; [intros Q; apply str_in_In in Q; vm_compute in Q; discriminate Q|intros b [<-|[<-|[<-|[]]]]; vm_compute; discriminate]).
  apply (t_place _ (fin_tree layers H1 F H P)); assumption.
Qed.
Lemma at_world : here H WORLD = true -> attr H WORLD NAME = VStr (lit "/").
Proof.
  intros Hh. destruct (stage_parts layers H wf St) as (H1 & F & P). rewrite (fin_here layers H1 F H P) in Hh. pose proof (fin_root_layer layers H1 F H wf P Hh) as Ho.
  destruct (opinions [] layers) as [|d l] eqn:Eo; [congruence|]. change WORLD with (abs_path []). rewrite (fin_plain layers H1 F H wf P [] NAME d l (Forall_nil _) Eo) by (cbn; tauto). apply World. now left.
Qed.
Lemma name_not_world nm : plain_name nm -> str_eqb nm WORLD = false.
Proof. intros Hn. apply str_eqb_neq. intros ->. destruct Hn as ((_ & Hs) & _). apply Hs. cbn. auto. Qed.
Lemma abs_not_empty ps : is_empty (abs_path ps) = false. Proof. now destruct ps. Qed.

Lemma comp_place ps nm : names (ps ++ [nm]) -> here H (abs_path (ps ++ [nm])) = true -> path_of H (Co (abs_path (ps ++ [nm]))) = abs_path (ps ++ [nm]).
Proof. intros Hn Hh. unfold path_of, ref_attr. destruct (at_place ps nm Hn Hh) as (-> & ->). cbn [str_of]. apply join_node_paths_abs. now apply names_comp. Qed.
Lemma check_comp cs : names cs -> here H (abs_path cs) = true -> check_path H (Co (abs_path cs)) = abs_path cs.
Proof.
  intros Hn Hh. unfold check_path, ref_attr. destruct cs as [|nm ps _] using rev_ind.
  - change (abs_path []) with WORLD in *. rewrite at_world by exact Hh. reflexivity.
  - destruct (at_place ps nm Hn Hh) as (-> & ->). cbn [str_of]. rewrite name_not_world by (apply Forall_app in Hn as (_ & Hn); now inversion Hn). rewrite abs_not_empty. apply join_node_paths_abs. now apply names_comp.
Qed.
Lemma check_spec ps nm i : names (ps ++ [nm]) -> here H (abs_path (ps ++ [nm])) = true -> In (Sp i) (bases_in (comps H) (Co (abs_path (ps ++ [nm])))) ->
  check_path H (Sp i) = abs_path (ps ++ [nm]).
Proof.
  intros Hn Hh Hi. destruct (stage_parts layers H wf St) as (H1 & F & P). pose proof Hh as Hf. rewrite (fin_here layers H1 F H P) in Hf.
  destruct (node_bases _ F H (p_good _ _ _ _ P) (p_post _ _ _ _ P) _ Hf) as (rest & Eb & Hr & _). unfold bs in Eb. rewrite Eb in Hi. apply in_app_or in Hi as [Hi|Hi]; [|destruct (Hr _ Hi) as (q & [=])].
  assert (V : exists d, nth_error (specs H) i = Some d /\ value d NAME = VStr nm /\ value d PARENT_PATH = VStr (abs_path ps)).
  { destruct (opinions (ps ++ [nm]) layers) as [|d l] eqn:Eo.
    - destruct (fin_made layers H1 F H wf P ps nm Hn Hf Eo) as (j & cm & en & sl & El & Ej). rewrite El in Hi. destruct Hi as [[= <-]|[]]. eexists. split; [exact Ej|]. destruct (proxy_values nm cm en sl (abs_path ps)) as (V1 & V2 & V3 & V4 & V5 & V6 & V7 & V8). rewrite abs_not_empty in V7. split; [exact V1|exact V7].
    - destruct (fin_layers layers H1 F H wf P (ps ++ [nm]) Hn) as (is & El & L & Sn); [rewrite Eo; discriminate|]. rewrite El in Hi. apply in_map_iff in Hi as (j & [= ->] & Hi). specialize (L i Hi).
      destruct (nth_error (specs H) i) as [d0|] eqn:Ed; [|apply nth_error_None in Ed; lia]. exists d0. split; [reflexivity|].
      assert (Hd : In d0 (opinions (ps ++ [nm]) layers)). { rewrite <- Sn. unfold spec_nodes. apply in_flat_map. exists (Sp i). split; [now apply in_map|]. rewrite Ed. now left. }
      destruct (opinion_at layers wf ps nm d0 Hn Hd) as (A & B & _). auto. }
  destruct V as (d & Ed & V1 & V2). unfold check_path, ref_attr. rewrite Ed. change (attr_or_none d PARENT_PATH) with (value d PARENT_PATH). change (attr_or_none d NAME) with (value d NAME). rewrite V1, V2. cbn [str_of].
  rewrite name_not_world by (apply Forall_app in Hn as (_ & Hn); now inversion Hn). rewrite abs_not_empty. apply join_node_paths_abs. now apply names_comp.
Qed.

Section Node.
Variables (ps : list pystr) (nm : pystr).
Hypothesis Hn : names (ps ++ [nm]).
Hypothesis Hh : here H (abs_path (ps ++ [nm])) = true.
Let p := abs_path (ps ++ [nm]).

Lemma parents_names : names ps. Proof. now apply Forall_app in Hn as (Hn' & _). Qed.
Lemma not_parent : abs_path (ps ++ [nm]) <> abs_path ps.
Proof. intros Q. apply abs_path_inj in Q; [|now apply names_comp|apply names_comp, parents_names]. apply (f_equal (@length _)) in Q. rewrite app_length in Q. cbn in Q. lia. Qed.
Lemma arc_layer i : In (Sp i) (bases_in (comps H) (Co p)) -> get_arc H p (Sp i) = Some Reference.
Proof. intros Hi. unfold get_arc, p. rewrite (check_spec ps nm i Hn Hh Hi), (comp_place ps nm Hn Hh), str_eqb_refl. reflexivity. Qed.
Lemma arc_parent : here H (abs_path ps) = true -> get_arc H p (Co (abs_path ps)) = Some Parent.
Proof.
  intros Hp. unfold get_arc, p. rewrite (check_comp ps parents_names Hp), (comp_place ps nm Hn Hh). destruct (at_place ps nm Hn Hh) as (-> & _). cbn [str_of].
  assert (E : str_eqb (abs_path (ps ++ [nm])) (abs_path ps) = false) by apply str_eqb_neq, not_parent. rewrite E, str_eqb_refl. cbn [andb].
  assert (A : is_ancestor (abs_path (ps ++ [nm])) (abs_path ps) = true). { apply is_ancestor_abs; [now apply names_comp|apply names_comp, parents_names|]. right. exists [nm]. split; [discriminate|reflexivity]. }
  rewrite A. reflexivity.
Qed.
Lemma arc_source b : attr H p INSTANCE_PATH = VStr b -> here H b = true -> b <> p -> b <> abs_path ps -> get_arc H p (Co b) = Some Instance.
Proof.
  intros Ei Hb Hbp Hbps. destruct (stage_parts layers H wf St) as (H1 & F & P). destruct (fin_path layers H1 F H P b Hb) as (rs & Hr & ->).
  unfold get_arc. unfold p in *. rewrite (check_comp rs Hr Hb), (comp_place ps nm Hn Hh). destruct (at_place ps nm Hn Hh) as (-> & _). cbn [str_of].
  assert (E1 : str_eqb (abs_path (ps ++ [nm])) (abs_path rs) = false) by (apply str_eqb_neq; intros Q; now apply Hbp). assert (E2 : str_eqb (abs_path ps) (abs_path rs) = false) by (apply str_eqb_neq; congruence). rewrite E1, E2. cbn [andb].
  assert (Tr : str_in (abs_path rs) (trace H (abs_path (ps ++ [nm]))) = true).
  { apply str_in_In. unfold trace. unfold here, dmem in Hb. destruct (comps H) as [|c0 d0] eqn:Ec; [discriminate Hb|]. cbn [length trace_from]. rewrite <- Ec in Hb. assert (Eo : inst_of H (abs_path (ps ++ [nm])) = Some (abs_path rs)) by (unfold inst_of; now rewrite Ei). rewrite Eo. unfold here, dmem. destruct (dget (abs_path rs) (comps H)); [|discriminate]. cbn [str_in existsb negb andb app].
    assert (G : forall f q acc x, In x acc -> In x (trace_from f H q acc)). { induction f as [|f IH]; intros q acc x Hx; cbn [trace_from]; [exact Hx|]. destruct (inst_of H q); [|exact Hx]. destruct (_ && _); [|exact Hx]. apply IH. apply in_or_app. now left. }
    apply G. now left. }
  rewrite Tr, orb_true_r. reflexivity.
Qed.

(** All bases, the parent being in the stage. *)
Hypothesis Hp : in_stage H ps \/ ps = [].
Let cs := ps ++ [nm].

Lemma direct : in_stage H ps -> StageView.parent H cs ps.
Proof. intros Hps. exists (length ps). unfold cs. rewrite app_length. cbn [length]. split; [lia|]. split; [now rewrite firstn_app, firstn_all, Nat.sub_diag, app_nil_r|]. split; [exact Hps|]. intros j Hj. lia. Qed.

(** What the bases are, in order. *)
Lemma bases_split : exists is rest, bases_in (comps H) (Co p) = map Sp is ++ rest /\ is <> [] /\
  (opinions cs layers <> [] -> spec_nodes (specs H) (map Sp is) = opinions cs layers) /\
  (opinions cs layers = [] -> exists d, spec_nodes (specs H) (map Sp is) = [d] /\ value d PROXY = VBool true) /\
  let par := if here H (abs_path ps) then [Co (abs_path ps)] else [] in
  ((forall rs, ~ instances H cs rs) /\ rest = par \/
   exists rs, instances H cs rs /\ rs <> cs /\
     ((in_stage H ps -> ~ draws H rs ps) /\ rest = par ++ [Co (abs_path rs)] \/ (in_stage H ps /\ draws H rs ps) /\ rest = [Co (abs_path rs)])).
Proof.
  destruct (stage_parts layers H wf St) as (H1 & F & P). pose proof Hh as Hf. rewrite (fin_here layers H1 F H P) in Hf.
  destruct (node_bases _ F H (p_good _ _ _ _ P) (p_post _ _ _ _ P) _ Hf) as (rest & Eb & Hr & M). destruct (flat_bases _ F (p_good _ _ _ _ P) (abs_path (ps ++ [nm]))) as (is & El & _ & Hne & _).
  exists is, rest. split; [unfold bs in Eb; rewrite <- El; exact Eb|]. split; [now apply Hne|]. split; [|split].
  { intros Ho. destruct (fin_layers layers H1 F H wf P (ps ++ [nm]) Hn Ho) as (is' & El' & _ & Sn). rewrite <- El, El'. exact Sn. }
  { intros Ho. destruct (fin_made layers H1 F H wf P ps nm Hn Hf Ho) as (j & cm & en & sl & El' & Ej). rewrite <- El, El'. eexists. split; [unfold spec_nodes; cbn [flat_map]; rewrite Ej; reflexivity|].
    destruct (proxy_values nm cm en sl (abs_path ps)) as (_ & _ & _ & _ & V5 & _). exact V5. }
  cbv zeta. fold p in M, Hf. assert (Ep : par F p = if here H (abs_path ps) then [Co (abs_path ps)] else []).
  { unfold par, parent_of, p. destruct (t_place _ (fin_tree layers H1 F H P) ps nm Hn Hf) as (-> & _). rewrite abs_not_empty. cbv zeta. cbn [nearest]. rewrite (fin_here layers H1 F H P).
    destruct (here F (abs_path ps)) eqn:Eh; cbn [orb]; [now rewrite Eh|]. unfold in_stage in Hp. rewrite (fin_here layers H1 F H P) in Hp. destruct Hp as [Q|Q]; [rewrite Q in Eh; discriminate|].
    rewrite Q in Eh |- *. change (abs_path []) with WORLD in *. rewrite str_eqb_refl, Eh. reflexivity. }
  rewrite Ep in M. destruct (src F p) as [b|] eqn:Es.
  - right. apply (fin_src layers H1 F H P) in Es. destruct (view_src layers H1 F H wf P cs b Hh Es) as (rs & -> & I). exists rs. split; [exact I|]. destruct M as (Nb & M). split; [intros ->; now apply Nb|].
    pose proof I as (Hrs & _ & Hrh & _). destruct M as [R|(R & U)].
    + left. split; [|exact R]. intros Hps D. unfold in_stage in Hps. rewrite Hps in R. cbn [app] in R. rewrite R in Eb.
      apply (draws_up layers H1 F H wf P rs ps) in D; [|exact Hrs|exact Hrh].
      destruct (node_mro _ F H (p_good _ _ _ _ P) (p_post _ _ _ _ P) p [Co (abs_path ps); Co (abs_path rs)] Hf Eb) as (ls & m & E1 & E2 & Em); [intros r [<-|[<-|[]]]; eauto|].
      destruct ls as [|lq [|lb [|]]]; try discriminate. cbn [map] in E1. injection E1 as Eq Ebb.
      destruct (merge_spec ref_eqb ref_eqb_eq _ _ _ E2) as (Hnd & _ & Hs). destruct (mro_laws ref_eqb ref_eqb_eq _ _ _ _ Ebb) as ((t & ->) & Hnb & Hinb & _). apply Hinb in D.
      assert (S1 : sub [Co (abs_path ps); Co (abs_path rs)] m) by (apply Hs; right; right; now left). assert (S2 : sub (Co (abs_path rs) :: t) m) by (apply Hs; right; now left).
      destruct D as [E|D].
      * rewrite E in S1. apply (sub_nodup _ _ S1) in Hnd. inversion Hnd as [|? ? N _]; subst. apply N. now left.
      * eapply (sub_two_ways (Co (abs_path ps)) (Co (abs_path rs))); [exact Hnd|exact S1|now left|exact S2|exact D].
    + destruct (here H (abs_path ps)) eqn:Eh.
      * right. split; [|exact R]. split; [exact Eh|]. specialize (U _ (or_introl eq_refl)). destruct (up_draws layers H1 F H wf P _ _ U rs _ eq_refl eq_refl Hrs Hrh) as (es & Ee & D).
        destruct (draws_names H _ _ D Hrs Hrh) as (He & _). apply abs_path_inj in Ee; [now subst|apply names_comp, parents_names|now apply names_comp].
      * left. split; [intros Q; unfold in_stage in Q; congruence|exact R].
  - left. split; [|exact M]. intros rs I. apply (view_source layers H1 F H wf P cs rs Hh) in I. apply (fin_src layers H1 F H P) in I. fold p in I. unfold cs in I. fold p in I. congruence.
Qed.

Lemma arcs_of_references l : forall is d, (forall i, In i is -> get_arc H p (Sp i) = Some Reference) ->
  fold_left (fun d b => match get_arc H p b with
    | Some Reference => {| references := references d ++ [b]; parent_base := parent_base d; instance_base := instance_base d; no_arc := no_arc d |}
    | Some Parent => {| references := references d; parent_base := Some b; instance_base := instance_base d; no_arc := no_arc d |}
    | Some Instance => {| references := references d; parent_base := parent_base d; instance_base := Some b; no_arc := no_arc d |}
    | None => {| references := references d; parent_base := parent_base d; instance_base := instance_base d; no_arc := Some b |}
    end) (map Sp is ++ l) d =
  fold_left (fun d b => match get_arc H p b with
    | Some Reference => {| references := references d ++ [b]; parent_base := parent_base d; instance_base := instance_base d; no_arc := no_arc d |}
    | Some Parent => {| references := references d; parent_base := Some b; instance_base := instance_base d; no_arc := no_arc d |}
    | Some Instance => {| references := references d; parent_base := parent_base d; instance_base := Some b; no_arc := no_arc d |}
    | None => {| references := references d; parent_base := parent_base d; instance_base := instance_base d; no_arc := Some b |}
    end) l {| references := references d ++ map Sp is; parent_base := parent_base d; instance_base := instance_base d; no_arc := no_arc d |}.
Proof.
  induction is as [|i is IH]; intros d Hi.
  - cbn [map app]. rewrite app_nil_r. now destruct d.
  - cbn [map app fold_left]. rewrite (Hi i) by now left. rewrite IH by (intros j Hj; apply Hi; now right). cbn [references parent_base instance_base no_arc]. now rewrite <- app_assoc.
Qed.

(** The dictionary of arcs. *)
Lemma arcs_are : exists is, is <> [] /\
  (opinions cs layers <> [] -> spec_nodes (specs H) (map Sp is) = opinions cs layers) /\
  (opinions cs layers = [] -> exists d, spec_nodes (specs H) (map Sp is) = [d] /\ value d PROXY = VBool true) /\
  exists par source, bases_arcs H p = {| references := map Sp is; parent_base := par; instance_base := source; no_arc := None |} /\
  ((forall rs, ~ instances H cs rs) /\ par = (if here H (abs_path ps) then Some (Co (abs_path ps)) else None) /\ source = None \/
   exists rs, instances H cs rs /\ rs <> cs /\
     ((rs = ps /\ par = Some (Co (abs_path ps)) /\ source = None) \/
      (rs <> ps /\ source = Some (Co (abs_path rs)) /\ ((in_stage H ps -> ~ draws H rs ps) /\ par = (if here H (abs_path ps) then Some (Co (abs_path ps)) else None) \/
        (in_stage H ps /\ draws H rs ps) /\ par = None)))).
Proof.
  destruct bases_split as (is & rest & Eb & Hne & S1 & S2 & M). exists is. split; [exact Hne|]. split; [exact S1|]. split; [exact S2|].
  assert (Hi : forall i, In i is -> get_arc H p (Sp i) = Some Reference). { intros i Hi. apply arc_layer. rewrite Eb. apply in_or_app. left. now apply in_map. }
  unfold bases_arcs. rewrite Eb, (arcs_of_references rest is _ Hi). cbn [references parent_base instance_base no_arc app]. cbv zeta in M.
  assert (Src : forall rs, instances H cs rs -> rs <> cs -> rs <> ps -> get_arc H p (Co (abs_path rs)) = Some Instance).
  { intros rs I N1 N2. destruct (stage_parts layers H wf St) as (H1 & F & P). pose proof (view_source layers H1 F H wf P cs rs Hh I) as (A & B & C). destruct I as (Hrs & _ & Hrh & _). apply arc_source; [exact A|exact C| |].
    - intros Q. apply N1. apply abs_path_inj in Q; [exact Q|now apply names_comp|now apply names_comp].
    - intros Q. apply N2. apply abs_path_inj in Q; [exact Q|now apply names_comp|apply names_comp, parents_names]. }
  destruct M as [(No & ->)|(rs & I & Nc & M)].
  - destruct (here H (abs_path ps)) eqn:Eh; cbn [fold_left].
    + rewrite (arc_parent Eh). eexists _, _. split; [reflexivity|]. left. split; [exact No|split; reflexivity].
    + eexists _, _. split; [reflexivity|]. left. split; [exact No|split; reflexivity].
  - destruct (list_eq_dec (list_eq_dec N.eq_dec) rs ps) as [->|Ns].
    + pose proof I as (_ & _ & Hrh & _). pose proof Hrh as Hrh'. unfold in_stage in Hrh'. destruct M as [(Nd & _)|(_ & ->)]; [destruct (Nd Hrh); constructor|]. cbn [fold_left]. rewrite (arc_parent Hrh'). eexists _, _. split; [reflexivity|]. right. exists ps. split; [exact I|]. split; [exact Nc|]. left. split; [reflexivity|]. split; reflexivity.
    + destruct M as [(Nd & ->)|((Hps & D) & ->)].
      * destruct (here H (abs_path ps)) eqn:Eh; cbn [fold_left app]; [rewrite (arc_parent Eh)|]; rewrite (Src rs I Nc Ns); eexists _, _; (split; [reflexivity|]); right; exists rs; (split; [exact I|]); (split; [exact Nc|]); right; (split; [exact Ns|]); (split; [reflexivity|]); left; (split; [exact Nd|reflexivity]).
      * cbn [fold_left]. rewrite (Src rs I Nc Ns). eexists _, _. split; [reflexivity|]. right. exists rs. split; [exact I|]. split; [exact Nc|]. right. split; [exact Ns|]. split; [reflexivity|]. right. auto.
Qed.
End Node.
End Arcs.
