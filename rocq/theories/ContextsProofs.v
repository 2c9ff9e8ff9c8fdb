(** Proofs about contexts and plugins. *)

From Coq Require Import String List NArith Bool Arith Lia.
From Verif Require Import PyStr PyStrFacts Dict DictFacts Headless Contexts ContextsSpec.
Import ListNotations.

(** ** Paths *)

Definition clean (s : pystr) : Prop := s <> [] /\ s <> DOT /\ s <> DOTS /\ ~ In SLASH s.

Lemma resolve_clean segs : forall base, Forall clean base -> Forall (fun s => ~ In SLASH s) segs -> Forall clean (resolve base segs).
Proof.
  induction segs as [|s t IH]; intros base Hb Hs; [exact Hb|]. inversion Hs; subst. cbn [resolve]. apply IH; [|assumption].
  destruct (str_in s [[]; DOT]) eqn:E1; [exact Hb|]. destruct (str_eqb s DOTS) eqn:E2.
  - destruct base; [constructor|]. now inversion Hb.
  - constructor; [|exact Hb]. apply str_in_not_In in E1. apply str_eqb_neq in E2. repeat split; auto; intros ->; apply E1; cbn; auto.
Qed.
Lemma resolve_app a : forall base b, resolve base (a ++ b) = resolve (resolve base a) b.
Proof. induction a as [|s t IH]; intros base b; [reflexivity|]. cbn [app resolve]. apply IH. Qed.
Lemma resolve_all_clean segs : forall base, Forall clean segs -> resolve base segs = rev segs ++ base.
Proof.
  induction segs as [|s t IH]; intros base H; [reflexivity|]. inversion H as [|? ? (A & B & C & _) Ht]; subst. cbn [resolve rev].
  replace (str_in s [[]; DOT]) with false by (symmetry; apply str_in_not_In; intros [F|[F|[]]]; symmetry in F; contradiction).
  replace (str_eqb s DOTS) with false by (symmetry; now apply str_eqb_neq). rewrite IH by assumption. now rewrite <- app_assoc.
Qed.
Lemma resolve_up n : forall base, resolve base (repeat DOTS n) = skipn n base.
Proof.
  induction n as [|n IH]; intros base; [reflexivity|]. cbn [repeat resolve].
  change (str_in DOTS [[]; DOT]) with false. change (str_eqb DOTS DOTS) with true. cbv iota. rewrite IH. destruct base; [now rewrite skipn_nil|reflexivity].
Qed.

Lemma abs_segs_clean cwd p : Forall clean (abs_segs cwd p).
Proof.
  unfold abs_segs. destruct (startswith (lit "/") p); apply Forall_rev; repeat (apply resolve_clean; [|apply split_forall_no_sep]); constructor.
Qed.

Lemma common_prefix (a b : list pystr) : exists r s, a = common str_eqb a b ++ r /\ b = common str_eqb a b ++ s.
Proof.
  revert b. induction a as [|x a IH]; intros b; [exists [], b; now split|]. destruct b as [|y b]; [exists (x :: a), []; now split|].
  cbn [common]. destruct (str_eqb x y) eqn:E; [apply str_eqb_eq in E as ->; destruct (IH b) as (r & s & Hr & Hs); exists r, s; split; cbn [app]; congruence|].
  exists (x :: a), (y :: b). now split.
Qed.

Lemma not_rooted s t : ~ In SLASH s -> s <> [] -> startswith (lit "/") (s ++ t) = false.
Proof.
  intros H N. destruct s as [|c s]; [congruence|]. apply not_true_is_false. intros E. apply startswith_iff in E as (r & E).
  injection E as -> _. apply H. now left.
Qed.

Lemma relpath_back cwd path start :
  abs_segs (abspath cwd start) (relpath cwd path start) = abs_segs cwd path.
Proof.
  unfold relpath. pose proof (abs_segs_clean cwd path) as Cp. pose proof (abs_segs_clean cwd start) as Cs.
  set (P := abs_segs cwd path) in *. set (S := abs_segs cwd start) in *.
  destruct (common_prefix S P) as (r & s & Er & Es). clearbody P. revert Er Es. generalize (common str_eqb S P) as k. intros k Er Es.
  assert (B : forall q, startswith (lit "/") q = false -> abs_segs (abspath cwd start) q = rev (resolve (rev S) (split SLASH q))).
  { intros q Hq. unfold abs_segs at 1. rewrite Hq. f_equal. f_equal. unfold abspath. fold S.
    change (lit "/" ++ join (lit "/") S) with ([] ++ SLASH :: join (lit "/") S). rewrite split_cons by (intros []). cbn [resolve].
    change (str_in [] [[]; DOT]) with true. cbv iota. destruct S as [|s0 S0]; [reflexivity|].
    etransitivity; [|apply app_nil_r]. rewrite <- (resolve_all_clean (s0 :: S0) [] Cs). f_equal. apply split_join; [discriminate|].
    eapply Forall_impl; [|exact Cs]. now intros x (_ & _ & _ & H). }
  replace (length S - length k) with (length r) by (rewrite Er at 1; rewrite app_length; lia).
  replace (skipn (length k) P) with s by (rewrite Es; now rewrite skipn_app_exact).
  assert (Cr : Forall clean s) by (rewrite Es in Cp; now apply Forall_app in Cp as (_ & Cp)).
  destruct (repeat DOTS (length r) ++ s) as [|h t] eqn:Eh.
  - rewrite B by reflexivity. cbn [split]. change (split SLASH DOT) with [DOT]. cbn [resolve]. change (str_in DOT [[]; DOT]) with true. cbv iota.
    rewrite rev_involutive. apply app_eq_nil in Eh as (E1 & ->). destruct r; [|discriminate]. congruence.
  - rewrite <- Eh. assert (Hns : Forall (fun x : pystr => x <> [] /\ ~ In SLASH x) (repeat DOTS (length r) ++ s)).
    { apply Forall_app. split; [|eapply Forall_impl; [|exact Cr]; now intros x (? & _ & _ & ?)].
      apply Forall_forall. intros x Hx. apply repeat_spec in Hx as ->. split; [discriminate|]. cbn. intuition discriminate. }
    rewrite B.
    + replace (split SLASH (join (lit "/") (repeat DOTS (length r) ++ s))) with (repeat DOTS (length r) ++ s).
      2:{ symmetry. apply split_join; [rewrite Eh; discriminate|]. eapply Forall_impl; [|exact Hns]. now intros x (_ & ?). }
      rewrite resolve_app, resolve_up. rewrite resolve_all_clean by exact Cr. rewrite rev_app_distr, rev_involutive.
      rewrite Er at 1. rewrite rev_app_distr. rewrite <- (rev_length r). rewrite skipn_app_exact. rewrite rev_involutive. symmetry. exact Es.
    + rewrite Eh in *. inversion Hns as [|? ? (A & C) _]; subst. destruct t as [|h2 t].
      * change (join (lit "/") [h]) with h. rewrite <- (app_nil_r h). now apply not_rooted.
      * change (join (lit "/") (h :: h2 :: t)) with (h ++ lit "/" ++ join (lit "/") (h2 :: t)). now apply not_rooted.
Qed.

(** ** Names of files *)

Lemma py_not_nxt dir name : py_file dir name <> nxt_file dir name.
Proof.
  unfold py_file, nxt_file. intros H. apply app_inv_head in H. apply app_inv_head in H. apply app_inv_head in H. discriminate.
Qed.
Lemma stem_ext a e : ~ In 46%N e -> forallb (N.eqb 46) a = false -> stem (a ++ DOT ++ e) = a.
Proof.
  intros He Ha. unfold stem. change (a ++ DOT ++ e) with (a ++ 46%N :: e). replace DOT with [46%N] by reflexivity.
  rewrite rpartition_opt_char_found by exact He. now rewrite Ha.
Qed.
Lemma stem_py name : stem (lit "custom_" ++ name ++ lit "_context.py") = lit "custom_" ++ name ++ lit "_context".
Proof.
  replace (lit "custom_" ++ name ++ lit "_context.py") with ((lit "custom_" ++ name ++ lit "_context") ++ DOT ++ lit "py").
  - apply stem_ext; [cbn; intuition discriminate|reflexivity].
  - rewrite <- !app_assoc. reflexivity.
Qed.
Lemma module_py dir name : module_file dir (lit "custom_" ++ name ++ lit "_context") = py_file dir name.
Proof. unfold module_file, py_file. rewrite <- !app_assoc. reflexivity. Qed.

(** ** Texts *)

Lemma harmless_quoted t : harmless t -> quoted t = Text t.
Proof.
  intros H. unfold quoted. replace (forallb (fun c => plain c || N.eqb c 35) t) with true; [reflexivity|]. symmetry. apply forallb_forall. intros c Hc.
  apply (proj1 (Forall_forall _ _) H) in Hc. unfold plain. cbn [existsb In] in *.
  destruct (N.eqb_spec c 10); [subst; tauto|]. destruct (N.eqb_spec c 13); [subst; tauto|]. destruct (N.eqb_spec c 39); [subst; tauto|].
  destruct (N.eqb_spec c 92); [subst; tauto|]. destruct (N.eqb c 35); reflexivity.
Qed.
Lemma forallb_plain a : Forall (fun c => ~ In c [10%N; 13%N; 35%N; 39%N; 92%N]) a -> forallb plain a = true.
Proof.
  intros H. apply forallb_forall. intros c Hc. apply (proj1 (Forall_forall _ _) H) in Hc. unfold plain. rewrite negb_true_iff.
  apply not_true_is_false. intros F. apply existsb_exists in F as (x & Hx & E). apply N.eqb_eq in E as ->. contradiction.
Qed.
Lemma apostrophe_quoted t : apostrophe t -> quoted t = Unterminated.
Proof.
  intros (a & b & -> & Ha & Hb & H). apply Forall_app in H as (H1 & H2). unfold quoted.
  replace (forallb (fun c => plain c || N.eqb c 35) (a ++ lit "'" ++ b)) with false.
  2:{ symmetry. rewrite !forallb_app. cbn. now rewrite andb_false_r. }
  change (a ++ lit "'" ++ b) with (a ++ 39%N :: b). rewrite split_cons, split_no_sep.
  - destruct a; [congruence|]. destruct b; [congruence|]. now rewrite !forallb_plain by assumption.
  - intros F. apply (proj1 (Forall_forall _ _) H2) in F. apply F. cbn. auto 6.
  - intros F. apply (proj1 (Forall_forall _ _) H1) in F. apply F. cbn. auto 6.
Qed.
Lemma quoted_text t v : quoted t = Text v -> v = t.
Proof.
  unfold quoted. destruct (forallb _ t); [now intros [= <-]|]. destruct (split 39 t) as [|[|? ?] [|[|? ?] [|? ?]]]; try discriminate.
  destruct (_ && _); discriminate.
Qed.
Lemma run_registers n e g a c : run_plugin n e g a = Registers c -> c = {| c_name := n; c_exe := e; c_graph := g; c_args := a |}.
Proof.
  unfold run_plugin. destruct (quoted n) eqn:A, (quoted e) eqn:B, (quoted g) eqn:C; try discriminate. intros [= <-].
  apply quoted_text in A, B, C. now subst.
Qed.

(** ** Plugins *)

Section Load.
Variables (listdir : pystr -> option (list pystr)) (found : dict content).

Definition among (d : pystr) (names : list pystr) (m : pystr) : Prop :=
  exists f, In f names /\ stem f = m /\ dget (module_file d m) found <> None.

Lemma load_module_works d m c st :
  match load_module d m c st, contexts_of c with
  | Some st', Some l => st' = {| l_names := l_names st ++ [m]; l_known := l_known st ++ l; l_run := l_run st ++ [module_file d m] |}
  | None, None => True
  | _, _ => False
  end.
Proof.
  unfold load_module, contexts_of. destruct c as [n e g a|[l|]|? ?]; try exact I.
  - destruct (run_plugin n e g a); try exact I. reflexivity.
  - f_equal. revert st. unfold register_context. intros st. generalize (l_known st). induction l as [|x l IH]; intros k; cbn [fold_left]; [now rewrite app_nil_r|].
    rewrite IH, <- app_assoc. reflexivity.
Qed.

Lemma load_files_spec d names : forall st,
  match load_files found d names st with
  | Some st' =>
      exists new, l_names st' = l_names st ++ new /\ NoDup new /\ l_run st' = l_run st ++ map (module_file d) new /\
        l_known st' = l_known st ++ flat_map (fun m => contexts_at found (d, m)) new /\
        (forall m, In m new -> among d names m /\ ~ In m (l_names st) /\ ~ raises_at found d m) /\
        (forall m, among d names m -> In m (l_names st'))
  | None => exists m, among d names m /\ ~ In m (l_names st) /\ raises_at found d m
  end.
Proof.
  induction names as [|f t IH]; intros st; cbn [load_files].
  - exists []. repeat split; try (now rewrite app_nil_r); try constructor; try contradiction. intros m (x & [] & _).
  - destruct (str_in (stem f) (l_names st)) eqn:E1.
    { specialize (IH st). apply str_in_In in E1. destruct (load_files found d t st) as [st'|].
      - destruct IH as (new & H1 & H2 & H3 & H4 & H5 & H6). exists new. repeat split; auto.
        + apply H5 in H as ((x & ? & ? & ?) & _). exists x. repeat split; auto. now right.
        + now apply H5.
        + now apply H5.
        + intros m (x & [->|Hx] & Hs & Hm); [rewrite H1, <- Hs; apply in_or_app; now left|]. apply H6. now exists x.
      - destruct IH as (m & (x & ? & ? & ?) & H2). exists m. split; [|exact H2]. exists x. repeat split; auto. now right. }
    apply str_in_not_In in E1. destruct (dget (module_file d (stem f)) found) as [c|] eqn:E2.
    + pose proof (load_module_works d (stem f) c st) as L. destruct (load_module d (stem f) c st) as [st1|].
      * destruct (contexts_of c) as [l|] eqn:Ec; [|contradiction]. specialize (IH st1). subst st1. cbn [l_names l_known l_run] in IH.
        assert (R : contexts_at found (d, stem f) = l) by (unfold contexts_at; cbn [fst snd]; now rewrite E2, Ec).
        destruct (load_files found d t _) as [st'|].
        -- destruct IH as (new & H1 & H2 & H3 & H4 & H5 & H6). exists (stem f :: new). rewrite H1, H3, H4, <- !app_assoc. cbn [app map flat_map]. rewrite R.
           assert (A : forall m, In m new -> m <> stem f) by (intros m Hm ->; apply H5 in Hm as (_ & Hm & _); apply Hm, in_or_app; right; now left).
           split; [reflexivity|]. split; [constructor; [intros F; now apply (A _ F)|exact H2]|]. split; [reflexivity|]. split; [reflexivity|]. split.
           ++ intros m [<-|Hm].
              ** split; [exists f; split; [now left|]; split; [reflexivity|congruence]|]. split; [exact E1|]. intros (c' & Hc & Hn). congruence.
              ** apply H5 in Hm as ((x & ? & ? & ?) & Hn & Hr). split; [exists x; repeat split; auto; now right|]. split; [|exact Hr]. intros F. apply Hn, in_or_app. now left.
           ++ intros m (x & [->|Hx] & Hs & Hm); [rewrite <- Hs; apply in_or_app; right; now left|].
              assert (F : among d t m) by now exists x. apply H6 in F. rewrite H1, <- app_assoc in F. exact F.
        -- destruct IH as (m & (x & ? & ? & ?) & Hn & Hr). exists m. split; [exists x; repeat split; auto; now right|]. split; [|exact Hr].
           intros F. apply Hn, in_or_app. now left.
      * destruct (contexts_of c) eqn:Ec; [contradiction|]. exists (stem f). split; [exists f; split; [now left|]; split; [reflexivity|congruence]|]. split; [exact E1|]. now exists c.
    + specialize (IH st). destruct (load_files found d t st) as [st'|].
      * destruct IH as (new & H1 & H2 & H3 & H4 & H5 & H6). exists new. repeat split; auto.
        -- apply H5 in H as ((x & ? & ? & ?) & _). exists x. repeat split; auto. now right.
        -- now apply H5.
        -- now apply H5.
        -- intros m (x & [->|Hx] & Hs & Hm); [exfalso; subst m; congruence|]. apply H6. now exists x.
      * destruct IH as (m & (x & ? & ? & ?) & H2). exists m. split; [|exact H2]. exists x. repeat split; auto. now right.
Qed.

Lemma offers_among d m : offers listdir found d m <-> exists names, listdir d = Some names /\ among d names m.
Proof.
  split.
  - intros (names & f & A & B & C & D). exists names. split; [exact A|]. now exists f.
  - intros (names & A & f & B & C & D). now exists names, f.
Qed.

Lemma first_offer_cons d dirs x m :
  first_offer listdir found (d :: dirs) x m <-> (x = d /\ offers listdir found d m) \/ (~ offers listdir found d m /\ first_offer listdir found dirs x m).
Proof.
  split.
  - intros (b & a & E & O & F). destruct b as [|b0 b]; cbn [app] in E; injection E as -> E.
    + now left.
    + right. inversion F; subst. split; [assumption|]. now exists b, a.
  - intros [(-> & O)|(N & b & a & -> & O & F)]; [exists [], dirs; repeat split; auto; constructor|]. exists (d :: b), a. repeat split; auto.
Qed.
Lemma first_offer_some dirs m : (exists d, In d dirs /\ offers listdir found d m) \/ ~ (exists d, In d dirs /\ offers listdir found d m).
Proof.
  induction dirs as [|d dirs IH]; [right; now intros (d & [] & _)|].
  assert (D : offers listdir found d m \/ ~ offers listdir found d m).
  { destruct (listdir d) as [names|] eqn:E; [|right; intros (n & f & A & _); congruence].
    destruct (dget (module_file d m) found) eqn:G; [|right; intros (n & f & _ & _ & _ & B); congruence].
    destruct (str_in m (map stem names)) eqn:S.
    - apply str_in_In in S. apply in_map_iff in S as (f & S & I). left. exists names, f. repeat split; auto. congruence.
    - right. intros (n & f & A & B & C & _). apply str_in_not_In in S. apply S. replace n with names in B by congruence. apply in_map_iff. now exists f. }
  destruct D as [D|D]; [left; exists d; split; [now left|exact D]|]. destruct IH as [(x & H & O)|H]; [left; exists x; split; [now right|exact O]|].
  right. intros (x & [->|Hx] & O); [contradiction|]. apply H. now exists x.
Qed.

Lemma load_plugins_spec dirs : forall st,
  match load_plugins listdir found dirs st with
  | Some st' =>
      exists new : list (pystr * pystr), l_names st' = l_names st ++ map snd new /\ NoDup (map snd new) /\
        l_run st' = l_run st ++ map (fun dm => module_file (fst dm) (snd dm)) new /\
        l_known st' = l_known st ++ flat_map (contexts_at found) new /\
        (forall d m, In (d, m) new -> first_offer listdir found dirs d m /\ ~ In m (l_names st) /\ ~ raises_at found d m) /\
        (forall d m, In d dirs -> offers listdir found d m -> In m (l_names st'))
  | None => exists d m, first_offer listdir found dirs d m /\ ~ In m (l_names st) /\ raises_at found d m
  end.
Proof.
  induction dirs as [|d dirs IH]; intros st; cbn [load_plugins].
  - exists []. cbn [map flat_map]. rewrite !app_nil_r. repeat split; try constructor; try contradiction.
  - destruct (listdir d) as [names|] eqn:El.
    2:{ specialize (IH st). assert (N : forall m, ~ offers listdir found d m) by (intros m (n & f & A & _); congruence).
        destruct (load_plugins listdir found dirs st) as [st'|].
        - destruct IH as (new & H1 & H2 & H3 & H4 & H5 & H6). exists new. repeat split; auto.
          + apply first_offer_cons. right. split; [apply N|]. now apply H5.
          + now apply (H5 d0 m).
          + now apply H5.
          + intros x m [->|Hx] O; [now destruct (N m)|]. now apply (H6 x).
        - destruct IH as (x & m & F & H). exists x, m. split; [|exact H]. apply first_offer_cons. right. split; [apply N|exact F]. }
    pose proof (load_files_spec d names st) as LF. destruct (load_files found d names st) as [st1|].
    2:{ destruct LF as (m & A & H). exists d, m. split; [|exact H]. apply first_offer_cons. left. split; [reflexivity|]. apply offers_among. now exists names. }
    destruct LF as (new1 & A1 & A2 & A3 & A4 & A5 & A6). specialize (IH st1).
    assert (O1 : forall m, offers listdir found d m -> In m (l_names st1)).
    { intros m O. apply offers_among in O as (n & E & O). apply A6. now replace names with n by congruence. }
    destruct (load_plugins listdir found dirs st1) as [st'|].
    + destruct IH as (new & H1 & H2 & H3 & H4 & H5 & H6). exists (map (pair d) new1 ++ new).
      rewrite H1, H3, H4, A1, A3, A4, !map_app, flat_map_app, !map_map, <- !app_assoc. cbn [fst snd]. rewrite map_id.
      replace (flat_map (contexts_at found) (map (pair d) new1)) with (flat_map (fun m => contexts_at found (d, m)) new1)
        by (clear; induction new1 as [|x l IHl]; cbn [map flat_map]; [reflexivity|now rewrite IHl]).
      split; [reflexivity|]. split.
      { clear - A1 A2 H2 H5. revert A2. assert (X : forall m, In m new1 -> ~ In m (map snd new)).
        { intros m Hm F. apply in_map_iff in F as ((x & m') & E & F). cbn in E. subst m'. apply H5 in F as (_ & F & _). apply F. rewrite A1. apply in_or_app. now right. }
        clear - X H2. intros N. induction N as [|a l Na N IHl]; [exact H2|]. cbn [app]. constructor.
        - rewrite in_app_iff. intros [F|F]; [contradiction|]. apply (X a); [now left|exact F].
        - apply IHl. intros m Hm. apply X. now right. }
      split; [reflexivity|]. split; [reflexivity|]. split.
      * intros x m Hm. apply in_app_or in Hm as [Hm|Hm].
        -- apply in_map_iff in Hm as (m' & [= -> ->] & Hm). apply A5 in Hm as (B1 & B2 & B3). split; [|now split]. apply first_offer_cons. left. split; [reflexivity|].
           apply offers_among. now exists names.
        -- apply H5 in Hm as (B1 & B2 & B3). split; [|split; [|exact B3]].
           ++ apply first_offer_cons. right. split; [|exact B1]. intros O. apply B2. now apply O1.
           ++ intros F. apply B2. rewrite A1. apply in_or_app. now left.
      * intros x m [->|Hx] O.
        -- apply O1 in O. rewrite A1 in O. rewrite app_assoc. apply in_or_app. now left.
        -- apply (H6 x m Hx) in O. rewrite H1, A1, <- app_assoc in O. exact O.
    + destruct IH as (x & m & F & N & R). exists x, m. split; [|split; [|exact R]].
      * apply first_offer_cons. right. split; [|exact F]. intros O. apply N. now apply O1.
      * intros G. apply N. rewrite A1. apply in_or_app. now left.
Qed.

Lemma first_offer_unique dirs : forall d d' m, first_offer listdir found dirs d m -> first_offer listdir found dirs d' m -> d = d'.
Proof.
  induction dirs as [|x dirs IH]; intros d d' m H H'.
  - destruct H as (b & a & E & _). destruct b; discriminate.
  - apply first_offer_cons in H, H'. destruct H as [(-> & O)|(N & H)], H' as [(-> & O')|(N' & H')]; try contradiction; [reflexivity|]. now apply (IH d d' m).
Qed.
End Load.
