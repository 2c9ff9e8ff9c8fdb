(** C50: edits of user attributes need no new composition. *)

From Coq Require Import String List NArith ZArith Bool Arith Lia.
From Verif Require Import PyStr PyStrFacts NxtPath PathSpec PathProofs Dict DictFacts ListMerger SortRows Layer PyVal NodeIO NodeIOProofs PyClass
  Names NamesSpec NodeEdit NodeEditProofs Comp CompSpec CompProofs CompTreeProofs CompStageProofs CompTotalProofs StageView StageViewProofs Props_Comp Props_CompCases
  Props_NodeEdit LiveSpec CompLiveProofs.
From Verif Require NodeEditSpec.
Import ListNotations.
Local Ltac name_ok := repeat (constructor; [split; [split; [discriminate|vm_compute; intuition discriminate]|vm_compute; intuition discriminate]|]); constructor.

Lemma internal_shown a : In a ALL_INTERNAL -> ~ NodeEditSpec.hidden a.
Proof.
  intros Ha (b & E). assert (K : endswith (lit "__nxt") a = true) by (apply endswith_iff; now exists b).
  revert K. cbn in Ha. repeat (destruct Ha as [<-|Ha]; [vm_compute; discriminate|]). destruct Ha.
Qed.

Lemma user_alike r r' : fits r -> user_edit_only r r' -> alike r r'.
Proof.
  intros (cs & _ & _ & K & _) (E & R). split; [exact E|]. intros a Ha.
  assert (V : forall b, In b ALL_INTERNAL -> dget b (snd r) = dget b (snd r') /\
                dget (b ++ META_SOURCE) (snd r) = dget (b ++ META_SOURCE) (snd r')).
  { intros b Hb. specialize (R b Hb). assert (Kb : dget b (snd r) <> None) by (apply K; unfold internal_keys; apply in_or_app; now left).
    unfold NodeEditSpec.read in R. destruct (dget b (snd r)) as [v|]; [|congruence]. destruct (dget b (snd r')) as [v'|]; [|discriminate].
    injection R as E1 _ _ E4. split; [congruence|]. symmetry. exact E4. }
  unfold internal_keys in Ha. apply in_app_or in Ha as [Ha|Ha]; [now apply V|].
  apply in_map_iff in Ha as (b & <- & Hb). apply V. unfold ALL_INTERNAL. apply in_or_app. now left.
Qed.
Lemma user_layers layers layers' : well_formed layers -> Forall2 (Forall2 user_edit_only) layers layers' -> Forall2 (Forall2 alike) layers layers'.
Proof.
  intros wf HL. induction HL as [|l l' L L' Hl _ IH]; [constructor|]. constructor.
  - assert (W : forall r, In r l -> fits r) by (intros r Hr; apply (wf l); [now left|exact Hr]). clear -Hl W.
    induction Hl as [|r r' l l' Hr _ IH]; [constructor|]. constructor; [apply user_alike; [apply W; now left|exact Hr]|]. apply IH. intros x Hx. apply W. now right.
  - apply IH. intros x r Hx Hr. apply (wf x); [now right|exact Hr].
Qed.

(** After any edits of user attributes in any of the layers, the stage that was
    built before is, object for object, the stage a new composition gives: what
    every node reads for every attribute, its parents, sources and children. *)
Theorem C50_no_rebuild :
  forall fuel top_real one_object layers layers' H, well_formed layers -> Forall2 (Forall2 user_edit_only) layers layers' ->
  build_stage fuel top_real one_object layers = Built H ->
  build_stage fuel top_real one_object layers' = Built (kept layers layers' H).
Proof.
  intros fuel top one layers layers' H wf E B. pose proof (build_alike fuel top one layers layers' (user_layers _ _ wf E)) as A.
  rewrite B in A. destruct A as (proxies & Es & ->). unfold kept. now rewrite Es, skipn_app, skipn_all, Nat.sub_diag.
Qed.
Print Assumptions C50_no_rebuild.

(** Such edits neither make a composition fail nor mend one. *)
Theorem C50_same_failures :
  forall fuel top_real one_object layers layers', well_formed layers -> Forall2 (Forall2 user_edit_only) layers layers' ->
  (build_stage fuel top_real one_object layers = Broken <-> build_stage fuel top_real one_object layers' = Broken) /\
  (build_stage fuel top_real one_object layers = Endless <-> build_stage fuel top_real one_object layers' = Endless).
Proof.
  intros fuel top one layers layers' wf E. pose proof (build_alike fuel top one layers layers' (user_layers _ _ wf E)) as A.
  destruct (build_stage fuel top one layers) as [H| |]; [destruct A as (? & _ & ->)|rewrite A|rewrite A]; split; split; congruence.
Qed.
Print Assumptions C50_same_failures.

(** So what an edited user attribute reads on a composed node, without a new
    composition, is what the strongest layer that has it says now. *)
Theorem C50_edit_seen :
  forall layers layers' H cs a v, well_formed layers -> Forall2 (Forall2 user_edit_only) layers layers' -> stage_of layers H ->
  names cs -> ~ In a internal_keys -> has_first a (opinions cs layers') v -> reads (kept layers layers' H) cs a = Some v.
Proof.
  intros layers layers' H cs a v wf E (fuel & top & one & B) Hc Ha Hf.
  assert (wf' : well_formed layers').
  { assert (G : forall r r', fits r -> user_edit_only r r' -> fits r').
    { intros r r' Hr Hu. pose proof (user_alike r r' Hr Hu) as (E1 & A). destruct Hr as (ds & Hn & En & K & M). exists ds. split; [exact Hn|]. split; [congruence|].
      split; [intros x Hx; rewrite <- (A x Hx); now apply K|].
      assert (V : forall x, In x internal_keys -> value (snd r') x = value (snd r) x) by (intros x Hx; unfold value; now rewrite (A x Hx)).
      destruct (rev ds); rewrite !V by ikey; exact M. }
    intros l r Hl Hr. destruct (In_nth_error _ _ Hl) as (i & Ei). destruct (In_nth_error _ _ Hr) as (j & Ej).
    assert (Q : exists l0, nth_error layers i = Some l0 /\ Forall2 user_edit_only l0 l).
    { clear -E Ei. revert i Ei. induction E as [|x y L L' Hxy _ IH]; intros [|i] Ei; try discriminate Ei; [injection Ei as <-; exists x; auto|exact (IH i Ei)]. }
    destruct Q as (l0 & El & F). assert (Q : exists r0, nth_error l0 j = Some r0 /\ user_edit_only r0 r).
    { clear -F Ej. revert j Ej. induction F as [|x y L L' Hxy _ IH]; intros [|j] Ej; try discriminate Ej; [injection Ej as <-; exists x; auto|exact (IH j Ej)]. }
    destruct Q as (r0 & Er & U). apply (G r0 r); [|exact U]. apply (wf l0); [eapply nth_error_In, El|eapply nth_error_In, Er]. }
  eapply (C33_strongest_layer layers' (kept layers layers' H)); eauto. exists fuel, top, one. now apply C50_no_rebuild.
Qed.
Print Assumptions C50_edit_seen.

(** The edits of C46 are such edits: any history of adding, setting, renaming
    and deleting user attributes. *)
Theorem C50_edits :
  forall ud uw bi literal_eval pl edits (ns : list pystr) n, active pl = true -> Forall (sound_edit ud uw bi literal_eval) edits ->
  (forall a, In (DeleteAttr a) edits -> ~ In a ALL_INTERNAL) ->
  NodeEditSpec.tidy n -> NoDup (dkeys n) ->
  user_edit_only (ns, n) (ns, fold_left (edited ud uw bi literal_eval pl) edits n).
Proof.
  intros ud uw bi le pl edits ns n Hact F D. split; [reflexivity|]. cbn [snd]. revert n H H0. induction F as [|e edits He F IH]; intros n T Hn; [reflexivity|].
  cbn [fold_left]. intros b Hb. pose proof (internal_shown b Hb) as Sb.
  destruct (C46_history_tidy ud uw bi le pl [e] n Hact (Forall_cons _ He (Forall_nil _)) T Hn) as (T' & N'). cbn [fold_left] in T', N'.
  rewrite IH; auto; [|intros a Ha; apply D; now right]. clear IH F.
  assert (P : forall x, In x ALL_INTERNAL -> In x (PROTECTED bi)).
  { intros x Hx. unfold PROTECTED. rewrite in_app_iff. right. unfold ALL_INTERNAL in Hx. rewrite app_assoc. apply in_app_iff. now left. }
  destruct e as [a data|a values|a new|a]; cbn [edited sound_edit] in *.
  - destruct He as (H1 & H2 & H3 & H4). destruct (dget (lit "value") data) as [v|] eqn:Ev; [|congruence].
    destruct (C46_add ud uw bi pl n a data v) as (x & n' & E & _ & Px & _ & _ & _ & B & _); auto.
    rewrite E. rewrite (B b Sb). destruct (str_eqb b x) eqn:Ex; [|reflexivity]. apply str_eqb_eq in Ex. subst x. destruct Px. auto.
  - destruct He as (H1 & H2 & H3 & H4 & H5 & H6). assert (Hi : ~ In a ALL_INTERNAL) by auto.
    assert (Hh : ~ In a HANDED_OVER) by (intros H; apply Hi; revert H; cbn; tauto).
    destruct (NodeEditSpec.read n a) as [old|] eqn:Er.
    + destruct (C46_set ud uw bi le pl n a false values old) as (n' & E & B & _); auto.
      rewrite E, (B b Sb). destruct (str_eqb b a) eqn:Ex; [|reflexivity]. apply str_eqb_eq in Ex. subst a. contradiction.
    + destruct (C46_set_missing ud uw bi le pl n a values Hact) as (M & _). rewrite M; auto. intros [H _]. congruence.
  - destruct He as [H1 H2]. destruct (C46_rename ud uw bi pl n a new Hact H1 H2 T Hn) as (R1 & R2).
    destruct (in_dec (list_eq_dec N.eq_dec) a (local_names bi pl n)) as [Hi|Hi].
    + apply local_names_iff in Hi; [|exact Hact].
      destruct (R1 Hi) as (x & n' & E & _ & Px & _ & _ & _ & B & _). rewrite E, (B b Sb).
      destruct (str_eqb b x) eqn:Ex; [apply str_eqb_eq in Ex; subst x; destruct Px; auto|].
      destruct (str_eqb b a) eqn:Ea; [|reflexivity]. apply str_eqb_eq in Ea. subst a. destruct Hi as (_ & _ & Pa). destruct Pa. auto.
    + rewrite R2; auto. intros H. apply Hi. now apply local_names_iff.
  - destruct He as [H1 H2]. destruct (C46_delete bi pl n a H1 T Hn) as (D1 & D2). destruct (NodeEditSpec.read n a) eqn:Er.
    + destruct D1 as (n' & E & B & _); [congruence|]. rewrite E. cbn [fst]. rewrite (B b Sb). destruct (str_eqb b a) eqn:Ex; [|reflexivity].
      apply str_eqb_eq in Ex. subst a. destruct (D b); [now left|exact Hb].
    + rewrite D2; auto.
Qed.
Print Assumptions C50_edits.

(** ** A stage *)

(** s's attribute x becomes 9 and t, an instance of s, gets one of its own. *)
Definition s_node : node := snd (row "top" [] "s" (user "x" "1")).
Definition s_spot : place := {| real := VStr (lit "top"); at_path := lit "/s"; active := true |}.
Definition s_edits : list attr_edit := [SetAttr (lit "x") [(lit "value", VStr (lit "9"))]; AddAttr (lit "z") [(lit "value", VInt 4)]].
Definition top_edited : list layer_row :=
  [world_row "top"; ([lit "s"], fold_left (edited nodigit nodigit dunders lits s_spot) s_edits s_node);
   row "top" [] "t" (instance "/s"); row "top" [] "r" (user "x" "2");
   row "top" [lit "r"] "u" (instance "/s"); row "top" [lit "r"] "w" (instance "/r/u")].
Definition two_edited : list (list layer_row) := [top_edited; low_layer].

Lemma user_edit_refl l : Forall2 user_edit_only l l.
Proof. induction l; constructor; auto. split; [reflexivity|]. reflexivity. Qed.

Example C50_ex :
  well_formed two /\ Forall2 (Forall2 user_edit_only) two two_edited /\ stage_of two two_stage /\
  reads two_stage [t_] (lit "x") = Some (VStr (lit "1")) /\ reads (kept two two_edited two_stage) [t_] (lit "x") = Some (VStr (lit "9")) /\
  reads two_stage [r_; w_] (lit "z") = None /\ reads (kept two two_edited two_stage) [r_; w_] (lit "z") = Some (VInt 4) /\
  stage_of two_edited (kept two two_edited two_stage).
Proof.
  assert (U : Forall2 (Forall2 user_edit_only) two two_edited).
  { constructor; [|constructor; [apply user_edit_refl|constructor]]. constructor; [now split|]. constructor; [|apply user_edit_refl].
    change (row "top" [] "s" (user "x" "1")) with ([lit "s"], s_node). apply C50_edits.
    - reflexivity.
    - assert (Hid : forall s, length s < 5 -> ~ NodeEditSpec.hidden s).
      { intros s Hs (b & E). apply (f_equal (@length N)) in E. rewrite app_length in E. cbn in E. lia. }
      repeat constructor; try (apply Hid; cbn; lia); try (intros K; apply str_in_In in K; vm_compute in K; discriminate K);
        try (intros K; cbn in K; tauto); try discriminate; try (intros s e [= <-]; vm_compute; discriminate).
    - intros a [K|[K|[]]]; discriminate K.
    - apply (C46_loaded_nodes_tidy ((lit "name", VStr (lit "s")) :: user "x" "1") (VStr (lit "top")) (lit "/") false); [|vm_compute; reflexivity].
      intros us u [= <-] [<-|[]] (b & E). apply (f_equal (@length N)) in E. rewrite app_length in E. cbn in E. lia.
    - apply (C46_loaded_nodes_tidy ((lit "name", VStr (lit "s")) :: user "x" "1") (VStr (lit "top")) (lit "/") false); [|vm_compute; reflexivity].
      intros us u [= <-] [<-|[]] (b & E). apply (f_equal (@length N)) in E. rewrite app_length in E. cbn in E. lia. }
  split; [exact C32_two_fits|]. split; [exact U|]. split; [exact C32_two_built|].
  split; [vm_compute; reflexivity|]. split; [vm_compute; reflexivity|]. split; [vm_compute; reflexivity|]. split; [vm_compute; reflexivity|].
  destruct C32_two_built as (fuel & top & one & B). exists fuel, top, one. apply C50_no_rebuild; [exact C32_two_fits|exact U|exact B].
Qed.

(** Setting a node's comment changes the layer only: the composed node keeps
    the old comment until the next composition. *)
Definition commented : node := snd (row "low" [] "t" (comment "old")).
Definition low_spot : place := {| real := VStr (lit "low"); at_path := lit "/t"; active := true |}.
Definition recommented : node :=
  node_of (node_setattr_data nodigit nodigit dunders lits low_spot commented COMMENT false [(lit "value", VStr (lit "new"))]).
Theorem C50_comment_refuted :
  exists layers layers' H H' n cs, well_formed layers /\ stage_of layers H /\ stage_of layers' H' /\ layers = [[(cs, commented)]] /\ layers' = [[(cs, n)]] /\
  node_setattr_data nodigit nodigit dunders lits low_spot commented COMMENT false
    [(lit "value", VStr (lit "new"))] = Some (n, Ok tt) /\
  reads (kept layers layers' H) cs COMMENT = Some (VStr (lit "old")) /\ reads H' cs COMMENT = Some (VStr (lit "new")).
Proof.
  exists [[([t_], commented)]]. exists [[([t_], recommented)]]. eexists. eexists. exists recommented, [t_].
  split.
  { intros l r [<-|[]] [<-|[]]. change ([t_], commented) with (row "low" [] "t" (comment "old")). apply row_fits; [name_ok|left; reflexivity|vm_compute; reflexivity]. }
  split; [exists 9, VNone, false; vm_compute; reflexivity|]. split; [exists 9, VNone, false; vm_compute; reflexivity|].
  split; [reflexivity|]. split; [reflexivity|]. split; [vm_compute; reflexivity|]. split; vm_compute; reflexivity.
Qed.
Print Assumptions C50_comment_refuted.
