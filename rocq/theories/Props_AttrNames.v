(** C55: the names of a composed node's attributes. *)

From Coq Require Import String List NArith ZArith Bool Arith Lia.
From Verif Require Import PyStr PyStrFacts NxtPath PathSpec PathProofs Dict DictFacts Layer PyVal NodeIO LayerIO PyClass
  Comp CompSpec CompTotalProofs StageView StageViewProofs Props_Comp Props_CompCases Opinions OpinionsSpec OpinionsProofs AttrNames AttrNamesSpec AttrNamesProofs.
Import ListNotations.
Local Ltac name_ok := repeat (constructor; [split; [split; [discriminate|vm_compute; intuition discriminate]|vm_compute; intuition discriminate]|]); constructor.

Section Names.
Variables (bi : list pystr) (layers : list (list layer_row)) (H : heap).
Hypothesis wf : well_formed layers.
Hypothesis St : stage_of layers H.
Hypothesis One : one_each layers.

(** The names listed for a node are those of the user's attributes it has, each
    once ... *)
Theorem C55_all : forall cs, NoDup (get_node_attr_names bi H (abs_path cs)) /\
  forall a, In a (get_node_attr_names bi H (abs_path cs)) <-> user_attr bi a /\ has_at H a cs.
Proof. intros cs. split; [apply add_names_nodup; constructor|]. intros a. apply names_in. Qed.
(** ... and the local ones those that some layer's node at its path has. *)
Theorem C55_local : forall cs, names cs -> NoDup (local_names bi (by_path layers) (abs_path cs)) /\
  forall a, In a (local_names bi (by_path layers) (abs_path cs)) <-> user_attr bi a /\ local_at layers a cs.
Proof.
  intros cs Hc. split; [|intros a; now apply local_in]. unfold local_names. assert (G : forall ts acc, NoDup acc -> NoDup (fold_left (fun acc (t : dict node) => match dget (abs_path cs) t with Some n => add_names (PROTECTED bi) (dkeys n) acc | None => acc end) ts acc)); [|apply G; constructor].
  induction ts as [|t ts IH]; intros acc Ha; cbn [fold_left]; [exact Ha|]. apply IH. destruct (dget (abs_path cs) t); [now apply add_names_nodup|exact Ha].
Qed.

(** Every attribute a node has is listed as local, instanced or inherited, and
    nothing else is.  The inherited ones are neither local nor instanced, and
    the parent has them. *)
Theorem C55_covered : forall cs, names cs -> in_stage H cs ->
  exists instanced inherited,
    get_node_instanced_attr_names bi (by_path layers) H (abs_path cs) = Some instanced /\
    get_node_inherited_attr_names bi (by_path layers) H (abs_path cs) = Some inherited /\
    (forall a, In a (get_node_attr_names bi H (abs_path cs)) <->
       In a (local_names bi (by_path layers) (abs_path cs)) \/ In a instanced \/ In a inherited) /\
    (forall a, In a inherited -> ~ In a (local_names bi (by_path layers) (abs_path cs)) /\ ~ In a instanced) /\
    (cs <> [] -> forall a, In a inherited -> exists ds, parent H cs ds /\ has_at H a ds).
Proof.
  intros cs Hn Hh. unfold get_node_inherited_attr_names, get_node_instanced_attr_names.
  destruct (instanced_sound bi layers H wf St One cs Hn Hh (S (S (length (abs_path cs))))) as (l & El & So & Co).
  { destruct cs as [|x ps]; [cbn; lia|]. rewrite abs_path_slashed by discriminate. pose proof (slashed_length (x :: ps)). lia. }
  rewrite El. destruct (inherited_in bi layers H wf St One cs l Hn Hh) as (i & Ei & Hi). exists l, i. split; [reflexivity|]. split; [exact Ei|].
  assert (Ab : forall a ds, user_attr bi a -> above H cs ds -> has_at H a ds -> has_at H a cs).
  { intros a ds U [K|(-> & ->)] Q; [|exact Q]. apply (has_iff layers H wf St a cs (user_internal bi a U) Hn Hh). right. right. eauto. }
  split; [|split].
  - intros a. rewrite (names_in bi H a cs), (local_in bi layers wf One a cs Hn), Hi. split.
    + intros (U & Q). destruct (local_dec layers a cs) as [|Nl]; [tauto|]. destruct (in_dec_ a l) as [|Ni]; [tauto|]. right. right. split; [exact U|]. split; [|tauto].
      apply (has_iff layers H wf St a cs (user_internal bi a U) Hn Hh) in Q as [Q|[(rs & (I1 & I2 & I3 & I4) & Q)|(ds & K & Q)]]; [tauto| |exists ds; split; [now left|exact Q]].
      destruct (Co a U) as [?|[?|?]]; [exists rs; split; [split; auto|exact Q]|tauto|tauto|assumption].
    + intros [(U & Q)|[Q|(U & (ds & K & Q) & _)]]; [|now apply So|].
      * split; [exact U|]. apply (has_iff layers H wf St a cs (user_internal bi a U) Hn Hh). now left.
      * split; [exact U|]. now apply (Ab a ds).
  - intros a Ha. apply Hi in Ha as (U & _ & Ni & Nl). split; [|exact Ni]. rewrite (local_in bi layers wf One a cs Hn). tauto.
  - intros Ne a Ha. apply Hi in Ha as (_ & (ds & [K|(Q & _)] & Z) & _); [eauto|congruence].
Qed.

(** With all ancestors in the stage: the instanced names are those that come
    through an instance, of the node or of an ancestor ... *)
Theorem C55_instanced : forall cs, names cs -> no_gap H cs ->
  exists instanced, get_node_instanced_attr_names bi (by_path layers) H (abs_path cs) = Some instanced /\
    forall a, In a instanced <-> user_attr bi a /\ by_instance layers H a cs.
Proof.
  intros cs Hn Hg. unfold get_node_instanced_attr_names. apply (instanced_by bi layers H wf St One cs Hn Hg). destruct cs as [|x ps]; [cbn; lia|]. rewrite abs_path_slashed by discriminate. pose proof (slashed_length (x :: ps)). lia.
Qed.
(** ... and the inherited ones those the parent has, that no layer gives to the
    node and that do not come through an instance. *)
Theorem C55_inherited : forall ps nm, names (ps ++ [nm]) -> no_gap H (ps ++ [nm]) ->
  exists inherited, get_node_inherited_attr_names bi (by_path layers) H (abs_path (ps ++ [nm])) = Some inherited /\
    forall a, In a inherited <-> user_attr bi a /\ has_at H a ps /\ ~ local_at layers a (ps ++ [nm]) /\ ~ by_instance layers H a (ps ++ [nm]).
Proof.
  intros ps nm Hn Hg. destruct (C55_instanced _ Hn Hg) as (l & El & Hl). unfold get_node_inherited_attr_names. rewrite El. assert (Hh : in_stage H (ps ++ [nm])) by (apply (Hg _ []); now rewrite app_nil_r).
  destruct (inherited_in bi layers H wf St One (ps ++ [nm]) l Hn Hh) as (i & Ei & Hi). exists i. split; [exact Ei|]. intros a. rewrite Hi, Hl.
  assert (K : parent H (ps ++ [nm]) ps). { apply reach_parent. exists (length ps). split; [lia|]. split; [now rewrite firstn_all|]. split; [now apply (Hg ps [nm])|intros; lia]. }
  split.
  - intros (U & (ds & [D|(Q & _)] & B) & C & E); [|now destruct ps]. split; [exact U|]. rewrite (parent_unique H _ _ _ K D) in B. split; [exact B|]. tauto.
  - intros (U & B & C & E). split; [exact U|]. split; [exists ps; split; [now left|exact B]|]. tauto.
Qed.

(** What the node's own source alone brings has the source's value; what is
    inherited by a node that instances nothing has the parent's. *)
Theorem C55_source_value : forall ps nm a, names (ps ++ [nm]) -> no_gap H (ps ++ [nm]) -> user_attr bi a -> by_instance layers H a (ps ++ [nm]) -> ~ has_at H a ps ->
  exists rs, instances H (ps ++ [nm]) rs /\ has_at H a rs /\ reads H (ps ++ [nm]) a = reads H rs a.
Proof.
  intros ps nm a Hn Hg U (es & ts & E & Hes & C & D & G) Np. assert (Hh : in_stage H (ps ++ [nm])) by (apply (Hg _ []); now rewrite app_nil_r). pose proof (user_internal bi a U) as Ha.
  assert (K : parent H (ps ++ [nm]) ps). { apply reach_parent. exists (length ps). split; [lia|]. split; [now rewrite firstn_all|]. split; [now apply (Hg ps [nm])|intros; lia]. }
  assert (Ets : ts = []). { destruct ts as [|x ts _] using rev_ind; [reflexivity|]. exfalso. rewrite app_assoc in E. apply app_inj_tail in E as (-> & ->). apply Np. assert (Hnp : names (es ++ ts)) by (now apply Forall_app in Hn as (Hn' & _)).
    apply (has_below layers H wf St a Ha ts es Hnp); auto; [apply (Hg es (ts ++ [x])); now rewrite app_assoc|now apply (Hg (es ++ ts) [x])]. }
  subst ts. rewrite app_nil_r in E. subst es. destruct (proj1 (has_iff layers H wf St a _ Ha Hn Hh) Hes) as [Q|[(rs & I & Q)|(ds & K' & Q)]]; [tauto| |rewrite (parent_unique H _ _ _ K K') in Q; tauto].
  exists rs. split; [exact I|]. split; [exact Q|]. assert (No : none_in layers a (ps ++ [nm])). { intros d Hd. destruct (dget a d) eqn:Ed; [|reflexivity]. destruct D. exists d. split; [exact Hd|congruence]. }
  destruct (C33_either layers H wf St a Ha (ps ++ [nm]) ps rs Hn Hh No K I) as ([E|E] & _); [|exact E]. exfalso. apply Hes. rewrite E. unfold has_at in Np. destruct (reads H ps a); [destruct Np; discriminate|reflexivity].
Qed.
Theorem C55_parent_value : forall ps nm a inherited, names (ps ++ [nm]) -> no_gap H (ps ++ [nm]) -> get_node_inherited_attr_names bi (by_path layers) H (abs_path (ps ++ [nm])) = Some inherited ->
  In a inherited -> (forall rs, ~ instances H (ps ++ [nm]) rs) -> reads H (ps ++ [nm]) a = reads H ps a.
Proof.
  intros ps nm a i Hn Hg Ei Ha Ni. destruct (C55_inherited ps nm Hn Hg) as (i' & Ei' & Hi). rewrite Ei in Ei'. injection Ei' as <-. apply Hi in Ha as (U & _ & Nl & _). assert (Hh : in_stage H (ps ++ [nm])) by (apply (Hg _ []); now rewrite app_nil_r).
  apply (C33_parent layers H wf St a (user_internal bi a U)); auto.
  - intros d Hd. destruct (dget a d) eqn:Ed; [|reflexivity]. destruct Nl. exists d. split; [exact Hd|congruence].
  - apply reach_parent. exists (length ps). split; [lia|]. split; [now rewrite firstn_all|]. split; [now apply (Hg ps [nm])|intros; lia].
Qed.
End Names.
Print Assumptions C55_all.
Print Assumptions C55_local.
Print Assumptions C55_covered.
Print Assumptions C55_instanced.
Print Assumptions C55_inherited.
Print Assumptions C55_source_value.
Print Assumptions C55_parent_value.

(** In the sample: u of r instances s; x is r's and s's, w instances u. *)
Example C55_sample :
  well_formed two /\ stage_of two two_stage /\ one_each two /\ no_gap two_stage [t_] /\
  local_names [] (by_path two) (lit "/s") = [lit "x"] /\ In (lit "y") (get_node_attr_names [] two_stage (lit "/t/c")) /\
  get_node_instanced_attr_names [] (by_path two) two_stage (lit "/t") = Some [lit "x"] /\
  get_node_instanced_attr_names [] (by_path two) two_stage (lit "/t/c") = Some [lit "x"; lit "y"] /\
  get_node_inherited_attr_names [] (by_path two) two_stage (lit "/r/u") = Some [lit "x"].
Proof.
  split; [exact C32_two_fits|]. split; [exact C32_two_built|]. split. { intros l [<-|[<-|[]]]; cbn [top_layer low_layer map fst]; repeat constructor; cbn; intuition discriminate. }
  split. { intros ps ts E. destruct ps as [|p [|q ps]]; [vm_compute; reflexivity|injection E as <- _; vm_compute; reflexivity|discriminate E]. }
  split; [vm_compute; reflexivity|]. split; [vm_compute; tauto|]. split; [vm_compute; reflexivity|]. split; [vm_compute; reflexivity|]. vm_compute. reflexivity.
Qed.

(** An attribute can be listed as local and as instanced: the parent has it from
    its source and a layer gives it to the node. *)
Theorem C55_both_refuted :
  exists layers H cs a inst, well_formed layers /\ stage_of layers H /\ one_each layers /\ no_gap H cs /\ user_attr [] a /\
    In a (local_names [] (by_path layers) (abs_path cs)) /\ get_node_instanced_attr_names [] (by_path layers) H (abs_path cs) = Some inst /\ In a inst.
Proof.
  exists [[world_row "top"; row "top" [] "s" (user "x" "1"); row "top" [] "t" (instance "/s"); row "top" [lit "t"] "c" (user "x" "2")]]. eexists. exists [lit "t"; lit "c"], (lit "x"). eexists.
  split. { intros l r [<-|[]] Hr; repeat destruct Hr as [<-|Hr]; try contradiction; try apply world_fits; (apply row_fits; [name_ok| |reflexivity]); try (left; reflexivity). right. exists [lit "s"]. split; [name_ok|reflexivity]. }
  split; [exists 9, (VStr (lit "top")), false; vm_compute; reflexivity|]. split. { intros l [<-|[]]. repeat constructor; cbn; intuition discriminate. }
  split. { intros ps ts E. destruct ps as [|p [|q [|z ps]]]; [vm_compute; reflexivity|injection E as <- _; vm_compute; reflexivity|injection E as <- <- _; vm_compute; reflexivity|discriminate E]. }
  split. { split; [intros []|]. split; [vm_compute; intuition discriminate|]. split; [discriminate|]. intros b E. apply (f_equal (@length N)) in E. rewrite app_length in E. vm_compute (length (lit "__nxt")) in E. cbn in E. lia. }
  split; [vm_compute; now left|]. split; [vm_compute; reflexivity|]. vm_compute. now left.
Qed.
Print Assumptions C55_both_refuted.

(** An attribute can be listed as inherited although its value is the source's:
    the source is a child of the same parent and has a value of its own. *)
Theorem C55_value_refuted :
  exists layers H ps nm rs a inst inh, well_formed layers /\ stage_of layers H /\ one_each layers /\ no_gap H (ps ++ [nm]) /\ instances H (ps ++ [nm]) rs /\
    get_node_instanced_attr_names [] (by_path layers) H (abs_path (ps ++ [nm])) = Some inst /\ ~ In a inst /\
    get_node_inherited_attr_names [] (by_path layers) H (abs_path (ps ++ [nm])) = Some inh /\ In a inh /\
    reads H ps a = Some (VStr (lit "1")) /\ reads H rs a = Some (VStr (lit "2")) /\ reads H (ps ++ [nm]) a = Some (VStr (lit "2")).
Proof.
  exists [[world_row "top"; row "top" [] "p" (user "x" "1"); row "top" [lit "p"] "s" (user "x" "2"); row "top" [lit "p"] "t" (instance "/p/s")]]. eexists. exists [lit "p"], (lit "t"), [lit "p"; lit "s"], (lit "x"). eexists _, _.
  split. { intros l r [<-|[]] Hr; repeat destruct Hr as [<-|Hr]; try contradiction; try apply world_fits; (apply row_fits; [name_ok| |reflexivity]); try (left; reflexivity). right. exists [lit "p"; lit "s"]. split; [name_ok|reflexivity]. }
  split; [exists 9, (VStr (lit "top")), false; vm_compute; reflexivity|]. split. { intros l [<-|[]]. repeat constructor; cbn; intuition discriminate. }
  split. { intros ps ts E. destruct ps as [|p [|q [|z ps]]]; [vm_compute; reflexivity|injection E as <- _; vm_compute; reflexivity|injection E as <- <- _; vm_compute; reflexivity|discriminate E]. }
  split. { split; [name_ok|]. split; [discriminate|]. split; [vm_compute; reflexivity|vm_compute; reflexivity]. }
  split; [vm_compute; reflexivity|]. split; [intros []|]. split; [vm_compute; reflexivity|]. split; [now left|]. split; [vm_compute; reflexivity|]. split; [vm_compute; reflexivity|vm_compute; reflexivity].
Qed.
Print Assumptions C55_value_refuted.
