(** C54: which layers have an opinion, and which opinions stand behind a
    value. *)

From Coq Require Import String List NArith ZArith Bool Arith Lia.
From Verif Require Import PyStr PyStrFacts NxtPath PathSpec PathProofs Dict DictFacts ListMerger SortRows Layer PyVal NodeIO PyClass PyClassSpec
  NodeEdit Comp CompSpec CompProofs CompPostProofs CompTreeProofs CompStageProofs CompTotalProofs StageView StageViewProofs Props_Comp Props_CompCases Live Arcs ArcsProofs Opinions OpinionsSpec OpinionsProofs.
From Verif Require Runtime.
Import ListNotations.
Local Ltac name_ok := repeat (constructor; [split; [split; [discriminate|vm_compute; intuition discriminate]|vm_compute; intuition discriminate]|]); constructor.

(** ** The layers with an opinion *)

Definition asked_layers (all some : list numbered_layer) : list numbered_layer := match some with [] => all | _ => some end.
Definition tells (p a : pystr) (l : numbered_layer) : bool := match dget p (snd l) with Some n => has_opinion (value n a) | None => false end.
Lemma layers_filter all some p a : NoDup (map fst (asked_layers all some)) ->
  get_layers_with_opinion all some p a = filter (fun l => if is_empty a then dmem p (snd l) else tells p a l) (asked_layers all some).
Proof.
  intros Hn. unfold get_layers_with_opinion. fold (asked_layers all some). destruct (is_empty a) eqn:Ea; [reflexivity|].
  refine (eq_trans (removes p a (filter (fun l => dmem p (snd l)) (asked_layers all some)) [] (nodup_filter _ _ Hn)) _). cbn [app].
  clear Hn. induction (asked_layers all some) as [|x t IH]; [reflexivity|]. cbn [filter]. unfold tells at 1. unfold dmem at 1. destruct (dget p (snd x)) as [n|] eqn:Ed; [|exact IH]. cbn [filter]. rewrite Ed. change (attr_or_none n a) with (value n a). destruct (has_opinion (value n a)); [f_equal|]; exact IH.
Qed.

(** The layers listed are those of the given list, or of all layers when no
    list is given, that have the node and, when an attribute is named, whose
    node says something about it, in their order. *)
Theorem C54_layers :
  forall all some p a, NoDup (map fst (match some with [] => all | _ => some end)) ->
  let asked := match some with [] => all | _ => some end in
  sub (get_layers_with_opinion all some p a) asked /\
  forall l, In l (get_layers_with_opinion all some p a) <-> In l asked /\ exists n, dget p (snd l) = Some n /\ (a = [] \/ says (value n a)).
Proof.
  intros all some p a Hn asked. change (NoDup (map fst (asked_layers all some))) in Hn. rewrite (layers_filter all some p a Hn). change asked with (asked_layers all some). split.
  - generalize (asked_layers all some). intros l. induction l as [|x l IH]; cbn; [constructor|]. destruct (if is_empty a then _ else _); now constructor.
  - intros l. rewrite filter_In. apply and_iff_compat_l. destruct (is_empty a) eqn:Ea.
    + destruct a; [|discriminate Ea]. unfold dmem. destruct (dget p (snd l)) as [n|]; split; [eauto|auto|discriminate|intros (n & Q & _); discriminate Q].
    + unfold tells. destruct (dget p (snd l)) as [n|]; split.
      * intros So. exists n. split; [reflexivity|]. right. now apply has_opinion_says.
      * intros (n' & [= <-] & [->|Sa]); [discriminate Ea|now apply has_opinion_says].
      * discriminate.
      * intros (n & Q & _); discriminate Q.
Qed.
Print Assumptions C54_layers.

(** The layers of a stage as the question sees them. *)
Definition tables (layers : list (list layer_row)) : list numbered_layer :=
  combine (seq 0 (length layers)) (map (map (fun r : layer_row => (node_namespace_to_str_path (fst r), snd r))) layers).
(** No layer has two nodes at one place. *)
Definition one_each (layers : list (list layer_row)) : Prop := forall l, In l layers -> NoDup (map fst l).

Lemma tables_cons k l layers : combine (seq k (length (l :: layers))) (map (map (fun r : layer_row => (node_namespace_to_str_path (fst r), snd r))) (l :: layers)) =
  (k, map (fun r : layer_row => (node_namespace_to_str_path (fst r), snd r)) l) :: combine (seq (S k) (length layers)) (map (map (fun r : layer_row => (node_namespace_to_str_path (fst r), snd r))) layers).
Proof. reflexivity. Qed.
Lemma layer_get l cs : (forall r, In r l -> fits r) -> names cs -> NoDup (map fst l) ->
  opinions cs [l] = match @dget node (abs_path cs) (map (fun r : layer_row => (node_namespace_to_str_path (fst r), snd r)) l) with Some m => [m] | None => [] end.
Proof.
  intros Hf Hc. unfold opinions. cbn [concat]. rewrite app_nil_r. match goal with |- context [filter ?f l] => set (P := f) end.
  assert (HP : forall r, P r = true <-> fst r = ns_of cs). { intros r. unfold P. match goal with |- (if ?x then _ else _) = _ <-> _ => destruct x end; split; congruence. }
  clearbody P. induction l as [|r l IH]; intros Hn; [reflexivity|]. cbn [map filter] in *. inversion Hn as [|? ? N1 N2]; subst.
  specialize (IH (fun x Hx => Hf x (or_intror Hx)) N2). pose proof (fits_path r cs (Hf r (or_introl eq_refl)) Hc) as B. unfold row_path in B. cbn [dget]. pose proof (HP r) as E.
  destruct (P r).
  - assert (Q : node_namespace_to_str_path (fst r) = abs_path cs) by now apply B, E. rewrite Q, str_eqb_refl. cbn [map]. f_equal.
    destruct (filter P l) as [|y ys] eqn:Ef; [reflexivity|]. exfalso. assert (Hy : In y (y :: ys)) by now left. rewrite <- Ef in Hy. apply filter_In in Hy as (Hy & Qy). apply HP in Qy.
    apply N1. pose proof (in_map fst l y Hy) as Hi. assert (Ee : fst y = fst r) by exact (eq_trans Qy (eq_sym (proj1 E eq_refl))). exact (eq_ind _ (fun z => In z (map fst l)) Hi _ Ee).
  - destruct (str_eqb (node_namespace_to_str_path (fst r)) (abs_path cs)) eqn:Es; [apply str_eqb_eq in Es; apply B, E in Es; discriminate Es|exact IH].
Qed.
Lemma opinions_cons cs l layers : opinions cs (l :: layers) = opinions cs [l] ++ opinions cs layers.
Proof. unfold opinions. cbn [concat]. now rewrite app_nil_r, filter_app, map_app. Qed.
Lemma tables_numbers k layers : map fst (combine (seq k (length layers)) (map (map (fun r : layer_row => (node_namespace_to_str_path (fst r), snd r))) layers)) = seq k (length layers).
Proof. revert k. induction layers as [|l layers IH]; intros k; [reflexivity|]. rewrite tables_cons. cbn [map fst length seq]. now rewrite IH. Qed.

(** On a composed stage, asked about its own layers: the first layer listed for
    a tracked attribute is the one the value and its source come from, and when
    none is listed no layer says anything. *)
Theorem C54_first_layer :
  forall layers H cs a, well_formed layers -> one_each layers -> stage_of layers H -> names cs -> In a tracked ->
  match get_layers_with_opinion (tables layers) [] (abs_path cs) a with
  | [] => silent a (opinions cs layers)
  | l :: _ => exists m, dget (abs_path cs) (snd l) = Some m /\ reads H cs a = Some (value m a) /\
                reads H cs (source_of a) = Some (VTuple [value m SOURCE_LAYER; VStr (abs_path cs)])
  end.
Proof.
  intros layers H cs a wf One St Hc Ha.
  assert (Hn : NoDup (map fst (tables layers))). { unfold tables. rewrite tables_numbers. apply seq_NoDup. }
  assert (Hae : a <> []) by (repeat destruct Ha as [<-|Ha]; try discriminate; destruct Ha).
  assert (G : forall k ls, (forall l r, In l ls -> In r l -> fits r) -> (forall l, In l ls -> NoDup (map fst l)) ->
    let t := combine (seq k (length ls)) (map (map (fun r : layer_row => (node_namespace_to_str_path (fst r), snd r))) ls) in
    match filter (tells (abs_path cs) a) t with
    | [] => silent a (opinions cs ls)
    | l :: _ => exists m, dget (abs_path cs) (snd l) = Some m /\ speaks_first a (opinions cs ls) m
    end).
  { intros k ls. revert k. induction ls as [|l ls IH]; intros k Hf Ho t; [intros m []|]. unfold t. rewrite tables_cons, opinions_cons, (layer_get l cs (fun r => Hf l r (or_introl eq_refl)) Hc (Ho l (or_introl eq_refl))). cbn [filter].
    specialize (IH (S k) (fun x r Hx => Hf x r (or_intror Hx)) (fun x Hx => Ho x (or_intror Hx))). cbv zeta in IH.
    set (d := map (fun r : layer_row => (node_namespace_to_str_path (fst r), snd r)) l). destruct (tells (abs_path cs) a (k, d)) eqn:Et; unfold tells in Et; cbn [snd] in Et.
    - destruct (@dget node (abs_path cs) d) as [n|] eqn:Ed; [|discriminate Et]. exists n. split; [exact Ed|]. exists [], (opinions cs ls). split; [reflexivity|]. split; [now apply has_opinion_says|intros ? []].
    - destruct (@dget node (abs_path cs) d) as [n|] eqn:Ed; [|exact IH]. cbn [app].
      assert (Nn : ~ says (value n a)) by (intros Q; apply has_opinion_says in Q; congruence). match goal with |- match ?x with _ => _ end => destruct x as [|y ys] end.
      + intros m [<-|Hm]; [exact Nn|now apply IH].
      + destruct IH as (m & Em & u & v & Ev & Sa & Nu). exists m. split; [exact Em|]. exists (n :: u), v. split; [cbn; now rewrite Ev|]. split; [exact Sa|]. intros x [<-|Hx]; auto. }
  specialize (G 0 layers wf One). cbv zeta in G. fold (tables layers) in G.
  rewrite (layers_filter (tables layers) [] (abs_path cs) a Hn). change (asked_layers (tables layers) []) with (tables layers). destruct (is_empty a) eqn:Ea; [destruct a; [congruence|discriminate]|]. change (filter (fun l => tells (abs_path cs) a l) (tables layers)) with (filter (tells (abs_path cs) a) (tables layers)).
  match goal with |- match ?x with _ => _ end => destruct x as [|l t] end; [exact G|]. destruct G as (m & Em & Sp). exists m. split; [exact Em|]. now apply (C32_strongest layers H wf St cs a m Hc Ha).
Qed.
Print Assumptions C54_first_layer.
Example C54_layers_sample : one_each two /\ map fst (get_layers_with_opinion (tables two) [] (lit "/t") COMMENT) = [1] /\
  map fst (get_layers_with_opinion (tables two) [] (lit "/s") []) = [0; 1] /\ reads two_stage [t_] COMMENT = Some (VStr (lit "old")).
Proof. split; [|split; [vm_compute; reflexivity|split; vm_compute; reflexivity]]. intros l [<-|[<-|[]]]; cbn [top_layer low_layer map fst]; repeat constructor; cbn; intuition discriminate. Qed.

(** ** Stronger opinions *)

(** When the layer asked about has the node, the answer is that there is no
    stronger opinion, whatever the stronger layers say: the value found in a
    stronger layer is the composed one, and that is taken for no difference. *)
Theorem C54_stronger_unseen :
  forall layers H cs a t, well_formed layers -> stage_of layers H -> names cs ->
  (exists m, In m (opinions cs layers) /\ value m SOURCE_LAYER = VStr t) ->
  In a tracked \/ a = INSTANCE_PATH /\ pure_to layers cs /\ (silent a (opinions cs layers) \/ exists rs, names rs /\ rs <> [] /\ source_in layers cs rs) ->
  (forall m, In m (opinions cs layers) -> Runtime.py_eqb (value m a) (value m a) = true) ->
  has_stronger_opinion H (abs_path cs) a (VStr t) = Ok false.
Proof.
  intros layers H cs a t wf St Hc (m0 & Hm0 & Et) Ha Refl. assert (Ho : opinions cs layers <> []) by (intros Q; rewrite Q in Hm0; destruct Hm0).
  pose proof (C32_conserved layers H wf St cs Hc Ho) as Hh. unfold has_stronger_opinion. pose proof Hh as Hh'. unfold in_stage in Hh'. rewrite Hh'.
  destruct (node_layers layers H wf St cs Hc Hh) as (is & rest & Eb & _ & _ & Hlt & Sn & _). destruct (opinions cs layers) as [|d ds] eqn:Eo; [congruence|]. rewrite Eb.
  assert (Sp : exists stronger m weaker, spec_nodes (specs H) (map Sp is) = stronger ++ m :: weaker /\ Runtime.py_eqb (value m SOURCE_LAYER) (VStr t) = true /\ forall x, In x stronger -> Runtime.py_eqb (value x SOURCE_LAYER) (VStr t) = false).
  { rewrite Sn. clear - Hm0 Et. induction (d :: ds) as [|x l IH]; [destruct Hm0|]. destruct (Runtime.py_eqb (value x SOURCE_LAYER) (VStr t)) eqn:E; [exists [], x, l; split; [reflexivity|split; [exact E|intros ? []]]|].
    destruct Hm0 as [->|Hm0]; [rewrite Et in E; cbn in E; now rewrite str_eqb_refl in E|]. destruct (IH Hm0) as (u & m & v & Q & A & B). exists (x :: u), m, v. split; [now rewrite Q|]. split; [exact A|]. intros y [<-|Hy]; auto. }
  destruct (scan_layers H a (VStr t) is rest VNone Hlt Sp) as [(v & ->)|(m & Sf & ->)]; [now destruct (Runtime.py_eqb _ v)|]. rewrite Sn in Sf.
  assert (Hm : In m (d :: ds)) by (destruct Sf as (u & w & -> & _); apply in_or_app; right; now left). rewrite <- Eo in Sf.
  assert (E : reads H cs a = Some (value m a)).
  { destruct Ha as [Ha|(-> & Pu & [Si|(rs & Hrs & Hrn & So)])]; [now apply (C32_strongest layers H wf St cs a m Hc Ha)| |].
    - exfalso. rewrite <- Eo in Hm. apply (Si m); [now rewrite <- Eo|]. now destruct Sf as (_ & _ & _ & Sa & _).
    - assert (m = m /\ value m INSTANCE_PATH = VStr (abs_path rs)) as (_ & ->).
      { split; [reflexivity|]. destruct So as (m' & Sf' & E'). assert (m = m'); [|now subst].
        destruct Sf as (u & w & Q & Sa & Nu), Sf' as (u' & w' & Q' & Sa' & Nu'). rewrite Q in Q'. clear - Q' Sa Sa' Nu Nu'. revert u' Q' Nu'. induction u as [|x u IH]; intros [|x' u'] Q' Nu'; cbn in Q'.
        - injection Q' as ->. reflexivity.
        - injection Q' as -> _. destruct (Nu' x'); [now left|exact Sa].
        - injection Q' as <- _. destruct (Nu x); [now left|exact Sa'].
        - injection Q' as <- Q'. apply (IH (fun y Hy => Nu y (or_intror Hy)) u' Q' (fun y Hy => Nu' y (or_intror Hy))). }
      apply (C34_instance_path layers H wf St cs rs Hc Pu); auto. now rewrite Eo. }
  rewrite (get_reads H cs a), E, (Refl m Hm). reflexivity.
Qed.
Print Assumptions C54_stronger_unseen.

(** So the answer is wrong whenever a stronger layer does have an opinion ... *)
Theorem C54_stronger_refuted :
  exists layers H cs a t strong weak, well_formed layers /\ stage_of layers H /\ opinions cs layers = [strong; weak] /\ value weak SOURCE_LAYER = VStr t /\
    In a tracked /\ says (value strong a) /\ value strong a <> value weak a /\ has_stronger_opinion H (abs_path cs) a (VStr t) = Ok false.
Proof.
  exists [[world_row "top"; row "top" [] "n" (comment "new")]; [world_row "low"; row "low" [] "n" (comment "old")]]. eexists. exists [lit "n"], COMMENT, (lit "low"). eexists _, _.
  split. { intros l r [<-|[<-|[]]] Hr; repeat destruct Hr as [<-|Hr]; try contradiction; try apply world_fits; (apply row_fits; [name_ok|left; reflexivity|reflexivity]). }
  split; [exists 9, (VStr (lit "top")), false; vm_compute; reflexivity|]. split; [vm_compute; reflexivity|]. split; [vm_compute; reflexivity|]. split; [vm_compute; tauto|]. split; [split; vm_compute; discriminate|]. split; [vm_compute; discriminate|]. vm_compute. reflexivity.
Qed.
Print Assumptions C54_stronger_refuted.
(** ... and when the layer does not have the node, an opinion of the node's
    parent counts as a stronger one. *)
Theorem C54_parent_counts_refuted :
  exists layers H cs a t, well_formed layers /\ stage_of layers H /\ In a tracked /\ silent a (opinions cs layers) /\ (forall m, In m (opinions cs layers) -> value m SOURCE_LAYER <> VStr t) /\
    (exists l, In l layers /\ exists r, In r l /\ value (snd r) SOURCE_LAYER = VStr t) /\ has_stronger_opinion H (abs_path cs) a (VStr t) = Ok true.
Proof.
  exists [[world_row "top"; row "top" [] "n" (comment "new"); row "top" [lit "n"] "c" []]; [world_row "low"]]. eexists. exists [lit "n"; lit "c"], COMMENT, (lit "low").
  split. { intros l r [<-|[<-|[]]] Hr; repeat destruct Hr as [<-|Hr]; try contradiction; try apply world_fits; (apply row_fits; [name_ok|left; reflexivity|reflexivity]). }
  split; [exists 9, (VStr (lit "top")), false; vm_compute; reflexivity|]. split; [vm_compute; tauto|]. split; [intros m [<-|[]] (Q & _); apply Q; vm_compute; reflexivity|]. split; [intros m [<-|[]]; vm_compute; discriminate|].
  split; [exists [world_row "low"]; split; [right; now left|]; exists (world_row "low"); split; [now left|vm_compute; reflexivity]|]. vm_compute. reflexivity.
Qed.
Print Assumptions C54_parent_counts_refuted.

(** ** The history of an attribute *)

Lemma source_user a : ~ In a internal_keys -> ~ In (a ++ META_SOURCE) internal_keys.
Proof.
  intros Ha Q. unfold internal_keys in Q. apply in_app_or in Q as [Q|Q].
  - assert (G : forall k, In k ALL_INTERNAL -> k = a ++ META_SOURCE -> False); [|now apply (G _ Q)]. intros k Hk E. apply (f_equal (@rev N)) in E. rewrite rev_app_distr in E. apply (f_equal (firstn (length (rev META_SOURCE)))) in E. rewrite firstn_app, firstn_all, Nat.sub_diag, app_nil_r in E.
    cbn [ALL_INTERNAL TRACKED UNTRACKED app In] in Hk. repeat destruct Hk as [<-|Hk]; try (vm_compute in E; discriminate E). destruct Hk.
  - apply in_map_iff in Q as (b & E & Hb). apply app_inv_tail in E as ->. apply Ha. unfold internal_keys, ALL_INTERNAL. apply in_or_app. left. apply in_or_app. now left.
Qed.

(** A user attribute: the whole history lists each opinion of the layers' nodes
    at the node and at all it draws from, once; first what the node reads.
    Without the local opinion the first is left out, but not for a proxy. *)
Theorem C54_history_user :
  forall layers H cs a, well_formed layers -> stage_of layers H -> names cs -> in_stage H cs -> ~ In a internal_keys ->
  (forall l r, In l layers -> In r l -> dget a (snd r) = None <-> dget (source_of a) (snd r) = None) ->
  exists l out, once l out /\
    (forall e, In e l <-> exists es m, draws H cs es /\ In m (opinions es layers) /\ told_by a m e) /\
    (forall e, told_at H a cs e -> hd_error l = Some e) /\
    get_historical_opinions H (abs_path cs) a true = Ok out /\
    (reads H cs PROXY = Some (VBool false) -> get_historical_opinions H (abs_path cs) a false = Ok (tl out)) /\
    (reads H cs PROXY = Some (VBool true) -> get_historical_opinions H (abs_path cs) a false = Ok out).
Proof.
  intros layers H cs a wf St Hc Hh Ha Hs. destruct (history_user layers H wf St a Ha (source_user a Ha) Hs cs Hc Hh) as (l & out & E1 & E2 & On & Al & Hd). exists l, out. split; [exact On|]. split; [exact Al|]. split; [exact Hd|]. split; [exact E1|].
  rewrite (C33_internal layers H wf St cs PROXY Hh) by (apply key; reflexivity). split; intros [= Q]; rewrite Q in E2; exact E2.
Qed.
Print Assumptions C54_history_user.

(** A tracked attribute: first what the node reads, then the opinions of its
    layers, strongest first, then opinions of nodes it draws from that are
    neither the node nor its parent: all its sources in turn, and those whose
    path begins with the text of its instance path. *)
Theorem C54_history :
  forall layers H ps nm a, well_formed layers -> stage_of layers H ->
  (forall m, In m (opinions [] layers) -> value m NAME = VStr (lit "/")) ->
  let cs := ps ++ [nm] in let below es := is_ancestor (abs_path es) (inst_text H cs) = true in
  names cs -> in_stage H cs -> In a tracked ->
  exists l out first stack others,
    once l out /\ l = first ++ stack ++ others /\
    (first = [] /\ (forall e, ~ told_at H a cs e) \/ exists e, first = [e] /\ told_at H a cs e) /\
    (opinions cs layers <> [] -> told a (opinions cs layers) stack) /\
    (forall e, In e others -> exists es, draws H cs es /\ es <> cs /\ es <> ps /\
       (told_at H a es e /\ (below es \/ follows H cs es) \/ below es /\ exists m, told_by a m e /\ (opinions es layers <> [] -> In m (opinions es layers)))) /\
    (forall es e, below es \/ follows H cs es -> draws H cs es -> es <> cs -> es <> ps -> told_at H a es e -> In e others) /\
    get_historical_opinions H (abs_path cs) a true = Ok out /\
    (reads H cs PROXY = Some (VBool false) -> get_historical_opinions H (abs_path cs) a false = Ok (tl out)) /\
    (reads H cs PROXY = Some (VBool true) -> get_historical_opinions H (abs_path cs) a false = Ok out).
Proof.
  intros layers H ps nm a wf St World cs below Hc Hh Ha. assert (Ht : In a TRACKED) by (repeat destruct Ha as [<-|Ha]; try (apply str_in_In; reflexivity); destruct Ha).
  destruct (history_all layers H wf St World ps nm Hc Hh a Ht) as (l & out & stack & first & others & E1 & E2 & On & El & Fi & (ms & Tl & Ms) & So & Co). subst below; cbv beta zeta; subst cs. set (cs := ps ++ [nm]) in *. exists l, out, first, stack, others.
  destruct (tracked_key a Ha) as (K1 & K2).
  split; [exact On|]. split; [exact El|]. split. { destruct Fi as [(Q & Ns)|Q]; [left|now right]. split; [exact Q|]. intros e (s & v & _ & Ev & Sa & _). rewrite (C33_internal layers H wf St cs a Hh K1) in Ev. injection Ev as <-. now apply Ns. }
  split. { intros Ho. destruct (opinions cs layers); [congruence|]. now subst ms. }
  split. { intros e He. destruct (So e He) as (es & D & N1 & N2 & [(A & B)|(m & A & B & C)]); exists es; (split; [exact D|]); (split; [exact N1|]); (split; [exact N2|]); [left; auto|right]. split; [exact B|]. exists m. split; [exact A|]. destruct (opinions es layers); [congruence|auto]. }
  split. { intros es e Fo D N1 N2 T. now apply (Co es e D N1 N2). }
  split; [exact E1|]. rewrite (C33_internal layers H wf St cs PROXY Hh) by (apply key; reflexivity). split; intros [= Q]; rewrite Q in E2; exact E2.
Qed.
Print Assumptions C54_history.

(** In the sample: the comment and the code of s in its two layers and in its
    instance t; x as u sees it. *)
Example C54_history_sample :
  (forall m, In m (opinions [] two) -> value m NAME = VStr (lit "/")) /\
  get_historical_opinions two_stage (lit "/t") COMMENT true = Ok [(VTuple [VStr (lit "low"); VStr (lit "/t")], VStr (lit "old")); (VTuple [VStr (lit "low"); VStr (lit "/s")], VStr (lit "low"))] /\
  get_historical_opinions two_stage (lit "/t") COMMENT false = Ok [(VTuple [VStr (lit "low"); VStr (lit "/s")], VStr (lit "low"))] /\
  get_historical_opinions two_stage (lit "/r/u") (lit "x") true = Ok [(VTuple [VStr (lit "top"); VStr (lit "/r")], VStr (lit "2")); (VTuple [VStr (lit "top"); VStr (lit "/s")], VStr (lit "1"))] /\
  (forall l r, In l two -> In r l -> dget (lit "x") (snd r) = None <-> dget (source_of (lit "x")) (snd r) = None) /\ ~ In (lit "x") internal_keys.
Proof.
  split; [intros m [<-|[<-|[]]]; vm_compute; reflexivity|]. split; [vm_compute; reflexivity|]. split; [vm_compute; reflexivity|]. split; [vm_compute; reflexivity|]. split.
  - intros l r [<-|[<-|[]]] Hr; repeat destruct Hr as [<-|Hr]; try contradiction; vm_compute; split; congruence.
  - intros Q. apply str_in_In in Q. vm_compute in Q. discriminate Q.
Qed.

(** The history of a node that instances nothing has its grandparent's opinion,
    which the node does not take, and not its parent's. *)
Theorem C54_grandparent_refuted :
  exists layers H cs ps gs, well_formed layers /\ stage_of layers H /\ cs = ps ++ [lit "c"] /\ ps = gs ++ [lit "b"] /\
    silent INSTANCE_PATH (opinions cs layers) /\ reads H cs COMMENT = Some VNone /\
    told_at H COMMENT ps (VTuple [VStr (lit "top"); VStr (abs_path ps)], VStr (lit "parent")) /\
    told_at H COMMENT gs (VTuple [VStr (lit "top"); VStr (abs_path gs)], VStr (lit "grand")) /\
    get_historical_opinions H (abs_path cs) COMMENT true = Ok [(VTuple [VStr (lit "top"); VStr (abs_path gs)], VStr (lit "grand"))].
Proof.
  exists [[world_row "top"; row "top" [] "a" (comment "grand"); row "top" [lit "a"] "b" (comment "parent"); row "top" [lit "a"; lit "b"] "c" []]]. eexists. exists [lit "a"; lit "b"; lit "c"], [lit "a"; lit "b"], [lit "a"].
  split. { intros l r [<-|[]] Hr; repeat destruct Hr as [<-|Hr]; try contradiction; try apply world_fits; (apply row_fits; [name_ok|left; reflexivity|reflexivity]). }
  split; [exists 9, (VStr (lit "top")), false; vm_compute; reflexivity|]. split; [reflexivity|]. split; [reflexivity|]. split; [intros m [<-|[]] (Q & _); apply Q; vm_compute; reflexivity|]. split; [vm_compute; reflexivity|].
  split. { eexists _, _. split; [vm_compute; reflexivity|]. split; [vm_compute; reflexivity|]. split; [split; discriminate|vm_compute; reflexivity]. }
  split. { eexists _, _. split; [vm_compute; reflexivity|]. split; [vm_compute; reflexivity|]. split; [split; discriminate|vm_compute; reflexivity]. }
  vm_compute. reflexivity.
Qed.
Print Assumptions C54_grandparent_refuted.
