(** Proofs about file tokens with fallbacks. *)

From Coq Require Import String List NArith Bool Lia Arith.
From Verif Require Import PyStr PyStrFacts Dict NxtPath PathSpec PathProofs Tokens TokenSpec TokenProofs PyVal LayerOver LayerOverProofs
  Resolve ResolveSpec ResolveProofs ResolveEndProofs Fallbacks FallbacksSpec.
Import ListNotations.

(** *** Texts *)

Lemma found_empty r : found r = negb (is_empty r).
Proof. now destruct r. Qed.

Lemma active_taking_part ls : get_active_layers sl_muted sl_soloed ls = taking_part ls.
Proof.
  rewrite active_layers_spec. unfold taking_part. destruct (existsb sl_soloed ls).
  - apply filter_ext. intros l. cbn. rewrite orb_false_r. apply andb_comm.
  - apply filter_ext. intros l. cbn. rewrite orb_true_r. now rewrite andb_true_r.
Qed.

Lemma body_atomic b : contains (lit "${") b = false -> contains (lit "}") b = false -> body b.
Proof.
  induction b as [|c b IH]; intros H1 H2; [constructor|]. cbn [contains] in H1, H2. apply orb_false_iff in H1 as [H1 H1'], H2 as [H2 H2'].
  apply body_char; auto.
  - intros E. injection E as ->. cbn in H2. discriminate.
  - intros [r E]. rewrite E in H1. rewrite startswith_app in H1. discriminate.
Qed.
Lemma refers_body b : refers b -> body b.
Proof. intros (_ & H1 & H2 & _). now apply body_atomic. Qed.
Lemma refers_kind b : refers b -> kind_of b = KRef.
Proof.
  intros (H0 & _ & _ & H1 & H2 & H3 & H4 & H5 & H6). unfold kind_of. destruct b as [|c b]; [congruence|]. cbn [is_empty].
  rewrite (startswith_no "file::") by auto. unfold FILE_LIST_PREFIX, FILEPATH_PREFIX, CONTENTS_PREFIX, PATH_PREFIX, COLOR_PREFIX.
  rewrite (startswith_no "filelist::"), (startswith_no "path::"), (startswith_no "contents::") by auto.
  apply str_eqb_neq in H5, H6. now rewrite H5, H6.
Qed.
Lemma kind_file c : kind_of (lit "file::" ++ c) = KFile.
Proof. reflexivity. Qed.

Lemma body_lit b p : contains (lit "${") b = false -> contains (lit "}") b = false -> ~ (exists r, b = r ++ lit "$") -> body p -> body (b ++ p).
Proof.
  induction b as [|c b IH]; intros H1 H2 H3 H; [exact H|]. cbn [contains app] in *. apply orb_false_iff in H1 as [H1 H1'], H2 as [H2 H2'].
  apply body_char; auto.
  - intros E. injection E as ->. cbn in H2. discriminate.
  - intros [r E]. destruct b as [|c' b].
    + cbn [app] in E. injection E as -> E. apply H3. now exists [].
    + cbn in E. injection E as -> -> _. cbn in H1. discriminate.
  - apply IH; auto. intros [r ->]. apply H3. exists (c :: r). reflexivity.
Qed.
Lemma body_file c : body c -> body (FILE_PREFIX ++ c).
Proof. apply body_lit; try reflexivity. intros [r E]. change (lit "$") with [36%N] in E. apply (f_equal (fun l => List.last l 0%N)) in E. rewrite last_last in E. discriminate. Qed.
Lemma body_list c : body c -> body (FILE_LIST_PREFIX ++ c).
Proof. apply body_lit; try reflexivity. intros [r E]. change (lit "$") with [36%N] in E. apply (f_equal (fun l => List.last l 0%N)) in E. rewrite last_last in E. discriminate. Qed.

Lemma replace_tok b x : body b -> replace (tok b) x (tok b) = x.
Proof.
  intros Hb. pose proof (replace_all_pieces (fun _ => x) [Tok b] [b]) as R. cbn [cutting toks fold_left] in R.
  specialize (R (conj Hb I) (fun y H => H)).
  assert (C : forall y, In y [b] -> body y /\ clear_in y [Tok b]).
  { intros y [<-|[]]. split; auto. intros c [<-|[]]. now apply not_in_itself. }
  specialize (R C [] (or_introl (conj eq_refl (le_n _)))). unfold flat, now in R. cbn in R. rewrite !app_nil_r in R.
  rewrite (str_eqb_refl b) in R. exact R.
Qed.

Lemma partition_prefix (p c : pystr) : p <> [] -> partition p (p ++ c) = ([], p, c).
Proof.
  intros Hp. pose proof (partition_first p [] c) as E. cbn [app] in E. apply E. intros [|x b1] b2 Q; [cbn in Q; congruence|discriminate].
Qed.

(** The innermost tokens of a text without nested tokens. *)
Lemma pieces_segs ps : cutting ps -> (forall b, In b (toks ps) -> contains TOKEN_PREFIX b = false /\ contains TOKEN_SUFFIX b = false) ->
  exists t0 segs, contains TOKEN_PREFIX t0 = false /\
    Forall (fun p => contains TOKEN_PREFIX (fst p) = false /\ contains TOKEN_SUFFIX (fst p) = false /\ contains TOKEN_PREFIX (snd p) = false) segs /\
    flat tok ps = t0 ++ concat (map (fun p => tok (fst p) ++ snd p) segs) /\ toks ps = map fst segs.
Proof.
  induction ps as [|[c|b] ps IH]; cbn [cutting toks]; intros Hc Hb.
  - exists [], []. now repeat split.
  - destruct Hc as [Hn Hc]. destruct (IH Hc Hb) as (t0 & segs & H0 & Hs & E & Et). exists (c :: t0), segs.
    split; [|split; [exact Hs|]; split; [|exact Et]].
    + cbn [contains]. rewrite H0, orb_false_r. apply startswith_false_iff. intros r Er. apply Hn.
      destruct t0 as [|c' t0]; [discriminate|]. cbn in Er. injection Er as -> -> ->. rewrite E. exists (r ++ concat (map (fun p => tok (fst p) ++ snd p) segs)). reflexivity.
    + change (flat tok (Char c :: ps)) with (c :: flat tok ps). now rewrite E.
  - destruct Hc as [_ Hc]. destruct (IH Hc (fun x H => Hb x (or_intror H))) as (t0 & segs & H0 & Hs & E & Et). exists [], ((b, t0) :: segs).
    destruct (Hb b (or_introl eq_refl)) as [B1 B2].
    split; [reflexivity|]. split; [constructor; auto|]. split; [|cbn; now rewrite Et].
    change (flat tok (Tok b :: ps)) with (tok b ++ flat tok ps). rewrite E. cbn [map concat fst snd app]. now rewrite <- app_assoc.
Qed.
Lemma atomic_of_pieces ps : cutting ps -> (forall b, In b (toks ps) -> contains TOKEN_PREFIX b = false /\ contains TOKEN_SUFFIX b = false) ->
  get_atomic_tokens_fuel (S (length (flat tok ps))) (flat tok ps) = Some (rev (map tok (toks ps))).
Proof.
  intros Hc Hb. destruct (pieces_segs ps Hc Hb) as (t0 & segs & H0 & Hs & E & Et).
  rewrite E. rewrite (atomic_tokens_flat t0 segs) by (auto; lia). now rewrite Et, map_map.
Qed.

Lemma standalone_any s ts : parse s ts -> get_standalone_tokens s [ATTR_PREFIX; FILE_PREFIX] = ts.
Proof.
  intros H. rewrite (standalone_of_parse s ts) by auto. pose proof (parse_toks s ts H) as Hf. clear H.
  induction Hf as [|t ts (b & -> & _) Hf IH]; auto. cbn [filter].
  assert (K : keep_token [ATTR_PREFIX; FILE_PREFIX] (tok b) = true).
  { unfold keep_token, ATTR_PREFIX. cbn [existsb]. rewrite app_nil_r. assert (Q : startswith TOKEN_PREFIX (tok b) = true) by reflexivity. now rewrite Q. }
  rewrite K. now rewrite IH.
Qed.
Lemma standalone_one (p c : pystr) : body (p ++ c) -> get_standalone_tokens (tok (p ++ c)) [p] = [tok (p ++ c)].
Proof.
  intros Hb. rewrite (standalone_of_parse _ [tok (p ++ c)]).
  - cbn [filter]. assert (K : keep_token [p] (tok (p ++ c)) = true).
    { unfold keep_token. cbn [existsb]. rewrite orb_false_r. apply startswith_iff. exists (c ++ lit "}"). unfold tok. now rewrite <- !app_assoc. }
    now rewrite K.
  - rewrite <- (app_nil_r (tok (p ++ c))) at 1. apply parse_tok; [exact Hb|constructor].
Qed.

Section Meaning.
Context {node : Type}.
Variable w : files node.

(** *** Where a file is looked for *)

Lemma tried f ds r : (exists o, try_roots w f ds = Ok o /\ r = match o with Some x => x | None => [] end) <-> located w f ds r.
Proof.
  split.
  - intros (o & E & ->). revert o E. induction ds as [|d ds IH]; cbn [try_roots]; intros o E.
    + injection E as <-. constructor.
    + destruct (expand_at w f d) as [x|e] eqn:Ex; [|discriminate]. cbn [bind] in E. destruct (on_disk w x) eqn:Ed.
      * injection E as <-. now apply located_here.
      * eapply located_next; eauto.
  - induction 1 as [|d ds x Ex Ed|d ds x r Ex Ed H IH]; cbn [try_roots].
    + now exists None.
    + exists (Some x). now rewrite Ex; cbn [bind]; rewrite Ed.
    + rewrite Ex; cbn [bind]; rewrite Ed. exact IH.
Qed.
Lemma try_app f a b : try_roots w f (a ++ b) = bind (try_roots w f a) (fun o => match o with Some x => Ok (Some x) | None => try_roots w f b end).
Proof.
  induction a as [|d a IH]; cbn [try_roots app bind]; auto. destruct (expand_at w f d) as [x|e]; cbn [bind]; auto. destruct (on_disk w x); auto.
Qed.
Lemma fallback_located f dir r : file_root_fallback w f dir = Ok r <-> located w f (places w dir) r.
Proof.
  rewrite <- tried. unfold places. rewrite try_app. unfold file_root_fallback, iter_env_roots.
  assert (E : filter (on_disk w) match env_roots w with Some s => split (path_sep w) s | None => [] end =
          match env_roots w with Some s => filter (on_disk w) (split (path_sep w) s) | None => [] end) by now destruct (env_roots w).
  rewrite E. clear E. destruct (try_roots w f _) as [[x|]|e]; cbn [bind].
  - split; [intros Q; injection Q as <-; eauto|intros (o & Q & ->); now injection Q as <-].
  - cbn [filter]. rewrite found_empty. destruct (negb (is_empty dir) && on_disk w dir); cbn [try_roots bind].
    + destruct (expand_at w f dir) as [x|e]; cbn [bind]; [|split; [discriminate|intros (o & Q & _); discriminate]]. destruct (on_disk w x).
      * split; [intros Q; injection Q as <-; eauto|intros (o & Q & ->); now injection Q as <-].
      * split; [intros Q; injection Q as <-; eauto|intros (o & Q & ->); now injection Q as <-].
    + split; [intros Q; injection Q as <-; eauto|intros (o & Q & ->); now injection Q as <-].
  - split; [discriminate|intros (o & Q & _); discriminate].
Qed.
Lemma located_there f ds r : located w f ds r -> r <> [] -> on_disk w r = true /\ exists d, In d ds /\ expand_at w f d = Ok r.
Proof.
  induction 1 as [|d ds x Ex Ed|d ds x r Ex Ed H IH]; intros Hr; [congruence| |].
  - split; auto. exists d. split; [now left|auto].
  - destruct (IH Hr) as (A & d' & B & C). split; auto. exists d'. split; [now right|auto].
Qed.

Section Layers.
Variables (active : list sub_layer) (depth : nat).

Lemma points_source m ref q a : points w m ref q a -> source w m ref = (node_at w q, a).
Proof.
  intros [p b q' Hs Hq|r Hs Hw]; unfold source.
  - rewrite (partition_splits _ _ _ Hs). destruct Hs as (_ & Hp & Hb & _). destruct p; [congruence|]. destruct b; [congruence|].
    cbn [is_empty negb andb]. now rewrite Hq.
  - assert (E : match (if is_empty (where_is w m) then Some (where_is w m) else expand_relative_node_path (where_is w m) (where_is w m)) with
                | Some q => node_at w q | None => None end = node_at w (where_is w m)).
    { rewrite Hw. change (lit "/" ++ r) with (SLASH :: r). cbn [is_empty]. now rewrite expand_relative_absolute. }
    destruct (path_attr_partition ref) as [p [b|]] eqn:Ep; [|now rewrite E].
    destruct p as [|c p]; [cbn [is_empty negb andb]; now rewrite E|]. exfalso. apply (Hs (c :: p) b). apply partition_splits_inv; auto. discriminate.
Qed.

(** What the reference [b] is replaced by. *)
Definition brought f (m : node) (b : pystr) : option (res pystr) :=
  let '(source_node, attr_name) := source w m b in
  obind (Some (infer w active depth source_node)) (fun historical_node =>
  match read w historical_node attr_name with
  | VStr value => deeper w active (attr_refs w active depth f) (Some m) value
  | _ => Some (Raise TypeError)
  end).

Lemma says_brought f m b v : says w active depth m b v -> brought f m b = deeper w active (attr_refs w active depth f) (Some m) v.
Proof.
  intros (q & a & k & k' & Hp & Hn & Ha & Hv). unfold brought. rewrite (points_source _ _ _ _ Hp), Hn.
  assert (E : infer w active depth (Some k) = Ok (Some k')) by (unfold infer, as_of in *; destruct depth; [now subst|now rewrite Ha]).
  rewrite E. cbn [obind read]. destruct Hv as [->|(-> & [->| ->])]; [|reflexivity|reflexivity].
  unfold truthy. now destruct v.
Qed.

Hypothesis order_set : forall l, NoDup (set_order w l) /\ forall x, In x (set_order w l) <-> In x l.

Lemma refs_step f m s ps : cutting ps -> s = flat tok ps -> (forall b, In b (toks ps) -> refers b) ->
  exists bs, (forall b, In b bs <-> In b (toks ps)) /\
  attr_refs w active depth (S f) (Some m) s = fold_out (fun acc b => obind (brought f m b) (fun r => Some (Ok (replace (tok b) r acc)))) bs s.
Proof.
  intros Hc -> Hr. cbn [attr_refs]. unfold attr_step.
  rewrite atomic_of_pieces by (auto; intros b Hb; destruct (Hr b Hb) as (_ & R1 & R2 & _); now split).
  destruct (order_set (rev (map tok (toks ps)))) as [_ Hin].
  set (ts := set_order w (rev (map tok (toks ps)))) in *.
  assert (Ht : forall t, In t ts <-> exists b, t = tok b /\ In b (toks ps)).
  { intros t. rewrite Hin, <- in_rev, in_map_iff. split; intros (b & A & B); exists b; auto. }
  clearbody ts. clear Hin. exists (map get_token_content ts). split.
  - intros b. rewrite in_map_iff. split.
    + intros (t & <- & It). apply Ht in It as (b' & -> & Hb'). now rewrite tok_make, token_content_round_trip.
    + intros Hb. exists (tok b). split; [now rewrite tok_make, token_content_round_trip|]. apply Ht. eauto.
  - assert (Hts : forall t, In t ts -> exists b, t = tok b) by (intros t It; apply Ht in It as (b & -> & _); eauto). clear Ht.
    generalize (flat tok ps). induction ts as [|t ts IH]; intros acc; cbn [fold_out map]; auto.
    destruct (Hts t (or_introl eq_refl)) as [b ->]. rewrite tok_make, token_content_round_trip.
    unfold brought at 1. destruct (source w m b) as [sn an]. destruct (infer w active depth sn) as [h|e]; cbn [obind]; auto.
    destruct (read w h an); cbn [obind]; auto. destruct (deeper _ _ _ _ _) as [[v|e]|]; cbn [obind]; auto. rewrite <- tok_make. apply IH. intros t It. apply Hts. now right.
Qed.

Lemma fold_brought f m rep bs acc : (forall b, In b bs -> brought f m b = Some (Ok (rep b))) ->
  fold_out (fun acc b => obind (brought f m b) (fun r => Some (Ok (replace (tok b) r acc)))) bs acc
  = Some (Ok (fold_left (fun acc b => replace (tok b) (rep b) acc) bs acc)).
Proof.
  revert acc. induction bs as [|b bs IH]; intros acc H; cbn [fold_out fold_left]; auto.
  rewrite (H b) by now left. cbn [obind]. apply IH. intros; apply H; now right.
Qed.

(** All references of [s] are known from fuel [f0] on, and filling them in gives [o]. *)
Definition known (m : node) (s o : pystr) : Prop :=
  exists ps (rep : pystr -> pystr) f0, cutting ps /\ s = flat tok ps /\ (forall b, In b (toks ps) -> refers b) /\ o = flat rep ps /\
  forall f b, f0 <= f -> In b (toks ps) -> brought f m b = Some (Ok (rep b)).

Lemma known_refs m s o : known m s o -> contains (lit "${") o = false -> ends_in (fun f => attr_refs w active depth f (Some m) s) (Ok o).
Proof.
  intros (ps & rep & f0 & Hc & -> & Hr & -> & Hk) Ho. exists (S f0). intros f Hf. destruct f as [|f]; [lia|].
  destruct (refs_step f m _ ps Hc eq_refl Hr) as (bs & Hbs & ->).
  rewrite (fold_brought f m rep) by (intros b Hb; apply Hk; [lia|now apply Hbs]). do 2 f_equal.
  change (flat tok ps) with (flat (now rep []) ps). rewrite replace_all_pieces; auto.
  - rewrite app_nil_r. apply flat_ext. intros b Hb. unfold now. assert (H : str_in b (rev bs) = true) by (apply str_in_In; rewrite <- in_rev; now apply Hbs). now rewrite H.
  - intros b Hb. now apply Hbs.
  - intros b Hb. apply Hbs in Hb. split; [now apply refers_body, Hr|]. intros c Hci (x & y & E).
    destruct (Hr c Hci) as (_ & R & _). assert (Q : contains (lit "${") c = true); [|congruence].
    rewrite E. apply contains_iff. exists x, (b ++ lit "}" ++ y). unfold tok. now rewrite <- !app_assoc.
Qed.
Lemma refs_plain f m o : contains (lit "${") o = false -> attr_refs w active depth (S f) (Some m) o = Some (Ok o).
Proof.
  intros H. cbn [attr_refs]. unfold attr_step. cbn [get_atomic_tokens_fuel]. rewrite (atomic_partition_flat_nil o H).
  destruct (order_set []) as [_ Hin]. destruct (set_order w []) as [|x l]; [reflexivity|]. destruct (proj1 (Hin x) (or_introl eq_refl)).
Qed.

Lemma usable_is c f : usable c f = if is_empty f && negb (is_empty c) then INVALID_PATH else f.
Proof. unfold usable. rewrite !found_empty, negb_involutive, andb_comm. reflexivity. Qed.

(** A text that is one file token. *)
Lemma file_ref_one attrs (prefix : pystr) n (c : pystr) : prefix <> [] -> body (prefix ++ c) ->
  file_ref w active attrs prefix n (tok (prefix ++ c)) =
  obind (attrs n c) (fun f => Some (file_root_fallback w (usable c f) (layer_dir active))).
Proof.
  intros Hp Hb. unfold file_ref. rewrite (standalone_one prefix c Hb). cbn [fold_out]. rewrite tok_make, token_content_round_trip, (partition_prefix prefix c Hp), <- tok_make.
  destruct (attrs n c) as [[f|e]|]; cbn [obind]; auto. rewrite usable_is.
  destruct (file_root_fallback w _ _) as [r|e]; cbn [obind]; auto. now rewrite (replace_tok _ _ Hb).
Qed.

Theorem meaning_filled m :
  (forall s o, filled w active depth m s o -> known m s o) /\
  (forall b o, brings w active depth m b o -> ends_in (fun f => brought f m b) (Ok o)).
Proof.
  apply filled_brings_ind.
  - exists [], (fun _ => []), 0. split; [exact I|]. split; [reflexivity|]. split; [intros b []|]. split; [reflexivity|]. intros f b _ [].

  - intros c s o Hn _ (ps & rep & f0 & Hc & -> & Hr & -> & Hk). exists (Char c :: ps), rep, f0. split; [now split|]. split; [reflexivity|]. split; [exact Hr|]. split; [reflexivity|exact Hk].
  - intros b s r o Hb _ [f1 H1] _ (ps & rep & f0 & Hc & -> & Hr & -> & Hk).
    exists (Tok b :: ps), (fun x => if str_eqb x b then r else rep x), (f0 + f1).
    split; [split; auto; now apply refers_body|]. split; [reflexivity|]. split; [intros x [<-|Hx]; auto|]. split.
    + change (flat (fun x => if str_eqb x b then r else rep x) (Tok b :: ps)) with ((if str_eqb b b then r else rep b) ++ flat (fun x => if str_eqb x b then r else rep x) ps).
      rewrite str_eqb_refl. f_equal. apply flat_ext. intros x Hx. destruct (str_eqb_spec x b) as [->|]; auto.
      specialize (Hk (f0 + f1) b ltac:(lia) Hx). rewrite H1 in Hk by lia. now injection Hk.
    + intros f x Hf Hx. destruct (str_eqb_spec x b) as [->|Hne]; [apply H1; lia|]. destruct Hx as [Hx|Hx]; [congruence|]. apply Hk; [lia|auto].
  - intros b v o Hs _ Hk Ho. pose proof (known_refs m v o Hk Ho) as [f1 H1]. destruct Hk as (ps & rep & f0 & Hc & -> & Hr & -> & Hk).
    exists (S f1). intros f Hf. rewrite (says_brought f m b _ Hs). unfold deeper. rewrite (standalone_any _ _ (cutting_parse ps Hc)).
    assert (G : forall ts, (forall t, In t ts -> exists x, t = tok x /\ refers x) ->
      fold_out (fun value token_content => match kind_of (get_token_content token_content) with
        | KRef => attr_refs w active depth f (Some m) value | KFile => file_ref w active (attr_refs w active depth f) FILE_PREFIX (Some m) token_content
        | KOther => Some (Ok value) end) ts (flat rep ps) = Some (Ok (flat rep ps))).
    { induction ts as [|t ts IH]; intros Hts; cbn [fold_out]; auto. destruct (Hts t (or_introl eq_refl)) as (x & -> & Hx).
      rewrite tok_make, token_content_round_trip, (refers_kind x Hx). destruct f as [|f]; [lia|]. rewrite refs_plain by auto. cbn [obind]. apply IH. intros t It. apply Hts. now right. }
    assert (Ht : forall t, In t (map tok (toks ps)) -> exists x, t = tok x /\ refers x) by (intros t It; apply in_map_iff in It as (x & <- & Hx); eauto).
    destruct (map tok (toks ps)) as [|t ts] eqn:Em; cbn [fold_out].
    + assert (E : flat tok ps = flat rep ps) by (apply flat_ext; intros x Hx; destruct (toks ps); [destruct Hx|discriminate]). now rewrite E.
    + destruct (Ht t (or_introl eq_refl)) as (x & -> & Hx). rewrite tok_make, token_content_round_trip, (refers_kind x Hx), H1 by lia. cbn [obind].
      apply G. intros t It. apply Ht. now right.
  - intros b c f r Hs Hbc _ Hk Hf Hl. destruct (known_refs m c f Hk Hf) as [f1 H1].
    exists f1. intros g Hg. rewrite (says_brought g m b _ Hs). unfold deeper.
    assert (P : parse (tok (lit "file::" ++ c)) [tok (lit "file::" ++ c)]).
    { rewrite <- (app_nil_r (tok (lit "file::" ++ c))) at 1. apply parse_tok; [now apply (body_file c)|constructor]. }
    rewrite (standalone_any _ _ P). cbn [fold_out]. rewrite tok_make, token_content_round_trip, kind_file, <- tok_make.
    change (lit "file::") with FILE_PREFIX. rewrite file_ref_one; [|discriminate|now apply body_file]. rewrite H1 by lia. cbn [obind].
    apply fallback_located in Hl. now rewrite Hl.
Qed.
Lemma reads_refs m c f : reads w active depth m c f -> ends_in (fun g => attr_refs w active depth g (Some m) c) (Ok f).
Proof. intros [H1 H2]. apply known_refs; auto. now apply meaning_filled. Qed.
End Layers.

(** *** Through the layers *)

Section Stack.
Hypothesis order_set : forall l, NoDup (set_order w l) /\ forall x, In x (set_order w l) <-> In x l.
Variables (last : nat) (n : node) (c : pystr).
Variable prefix : pystr.
Hypothesis prefix_some : prefix <> [].
Hypothesis whole : body (prefix ++ c).

Definition step (fuel d : nat) := at_depth w fuel last prefix n (make_token_str (prefix ++ c)) d.
Definition given (r : option pystr) : pystr := match r with Some x => x | None => [] end.

Lemma candidate_step d r : candidate w last n c d r -> exists f0, forall f, f0 <= f -> exists x, step f d = Some (Ok x) /\ given x = r.
Proof.
  intros [E|l ls m f r' E Ha Hr Hl]; unfold step, at_depth, between; rewrite active_taking_part, E.
  - exists 0. intros g _. now exists None.
  - destruct (reads_refs (l :: ls) d order_set m c f Hr) as [f0 H0]. exists f0. intros g Hg.
    assert (I : infer w (l :: ls) d (Some n) = Ok (Some m)) by (unfold infer, as_of in *; destruct d; [now subst|now rewrite Ha]).
    rewrite I. cbn [obind]. rewrite <- tok_make, file_ref_one by auto. rewrite (H0 g Hg). cbn [obind omap].
    change (layer_dir (l :: ls)) with (sl_dir l). apply fallback_located in Hl. rewrite Hl. cbn. now exists (Some r').
Qed.
(** Whatever the text: a value that is found is there. *)
Lemma step_there f d x : step f d = Some (Ok x) -> given x <> [] ->
  on_disk w (given x) = true /\ exists t dir, expand_at w t dir = Ok (given x) /\
  exists l ls, taking_part (firstn (last - d) (skipn d (sub_layers w))) = l :: ls /\ In dir (places w (sl_dir l)).
Proof.
  unfold step, at_depth, between. rewrite active_taking_part. destruct (taking_part _) as [|l ls] eqn:E.
  - intros Q. injection Q as <-. cbn. congruence.
  - destruct (infer w (l :: ls) d (Some n)) as [h|e]; cbn [obind]; [|discriminate]. rewrite <- tok_make, file_ref_one by auto.
    destruct (attr_refs w (l :: ls) d f h c) as [[t|e]|]; cbn [obind omap]; try discriminate.
    change (layer_dir (l :: ls)) with (sl_dir l).
    destruct (file_root_fallback w (usable c t) (sl_dir l)) as [r|e] eqn:Ef; cbn [obind]; [|discriminate].
    intros Q. injection Q as <-. cbn [given]. intros Hr. apply fallback_located in Ef. destruct (located_there _ _ _ Ef Hr) as (A & dir & B & C).
    split; auto. exists (usable c t), dir. split; auto. exists l, ls. auto.
Qed.
End Stack.

(** first_value and all_values, on the steps. *)
Lemma first_skip one ds rest : Forall (fun d => exists x, one d = Some (Ok x) /\ given x = []) ds -> first_value one (ds ++ rest) = first_value one rest.
Proof.
  induction 1 as [|d ds (x & E & G) H IH]; cbn [app first_value]; auto. rewrite E. cbn [obind]. destruct x as [[|a x]|]; auto. discriminate.
Qed.
Lemma first_spec one ds r : first_value one ds = Some (Ok r) -> r <> [] -> exists d x, In d ds /\ one d = Some (Ok x) /\ given x = r.
Proof.
  induction ds as [|d ds IH]; cbn [first_value]; intros E Hr; [injection E as <-; congruence|].
  destruct (one d) as [[x|e]|] eqn:Eo; cbn [obind] in E; try discriminate.
  assert (D : first_value one ds = Some (Ok r) \/ given x = r).
  { destruct x as [[|a x]|]; auto. injection E as <-. now right. }
  destruct D as [D|D].
  - destruct (IH D Hr) as (d' & x' & A & B & C). exists d', x'. split; [now right|auto].
  - exists d, x. split; [now left|auto].
Qed.
Lemma all_step one d ds seen x : one d = Some (Ok x) ->
  all_values one seen (d :: ds) = all_values one (if found (given x) && negb (str_in (given x) seen) then seen ++ [given x] else seen) ds.
Proof.
  intros E. cbn [all_values]. rewrite E. cbn [obind]. destruct x as [[|a x]|]; cbn [given]; auto. rewrite found_empty. cbn [is_empty negb andb].
  now destruct (str_in (a :: x) seen).
Qed.
(** Adding the new ones of [rs] to [seen]. *)
Definition adds (seen rs : list pystr) : list pystr :=
  fold_left (fun seen r => if found r && negb (str_in r seen) then seen ++ [r] else seen) rs seen.
Lemma all_adds one ds rs : Forall2 (fun d r => exists x, one d = Some (Ok x) /\ given x = r) ds rs -> forall seen, all_values one seen ds = Some (Ok (adds seen rs)).
Proof.
  induction 1 as [|d r ds rs (x & E & <-) H IH]; intros seen; [reflexivity|]. rewrite (all_step one d ds seen x E). apply IH.
Qed.
Lemma all_inv one ds seen l : all_values one seen ds = Some (Ok l) -> exists rs, Forall2 (fun d r => exists x, one d = Some (Ok x) /\ given x = r) ds rs /\ l = adds seen rs.
Proof.
  revert seen. induction ds as [|d ds IH]; intros seen E.
  - injection E as <-. exists []. split; [constructor|reflexivity].
  - destruct (one d) as [[x|e]|] eqn:Eo; [|cbn [all_values] in E; rewrite Eo in E; discriminate|cbn [all_values] in E; rewrite Eo in E; discriminate].
    rewrite (all_step one d ds seen x Eo) in E. destruct (IH _ E) as (rs & H & ->). exists (given x :: rs). split; [constructor; eauto|reflexivity].
Qed.
Lemma first_all one ds rs : Forall2 (fun d r => exists x, one d = Some (Ok x) /\ given x = r) ds rs -> first_value one ds = Some (Ok (hd [] (filter found rs))).
Proof.
  induction 1 as [|d r ds rs (x & E & <-) H IH]; [reflexivity|]. cbn [first_value filter]. rewrite E. cbn [obind]. destruct x as [[|a x]|]; auto.
Qed.
End Meaning.

(** *** Each once *)

Lemma filter_twice {A} (p q : A -> bool) l : filter p (filter q l) = filter (fun x => q x && p x) l.
Proof. induction l as [|x l IH]; cbn; auto. destruct (q x); cbn; rewrite ?IH; auto. Qed.
Lemma once_in l x : In x (once_each l) <-> In x l.
Proof.
  induction l as [|y l IH]; cbn [once_each In]; [tauto|]. rewrite filter_In, IH. destruct (str_eqb_spec y x) as [->|Hn]; cbn; intuition congruence.
Qed.
Lemma once_nodup l : NoDup (once_each l).
Proof.
  induction l as [|y l IH]; cbn [once_each]; constructor.
  - rewrite filter_In. intros [_ H]. now rewrite str_eqb_refl in H.
  - now apply NoDup_filter.
Qed.
Lemma once_filter p l : once_each (filter p l) = filter p (once_each l).
Proof.
  induction l as [|x l IH]; cbn [filter once_each]; auto. destruct (p x) eqn:E; cbn [once_each].
  - f_equal. rewrite IH, !filter_twice. apply filter_ext. intros y. apply andb_comm.
  - rewrite IH, filter_twice. apply filter_ext_in. intros y _. destruct (p y) eqn:E2; [|now rewrite andb_false_r]. destruct (str_eqb_spec x y) as [->|]; [congruence|reflexivity].
Qed.
Lemma adds_once seen rs : adds seen rs = seen ++ filter (fun r => negb (str_in r seen)) (once_each (filter found rs)).
Proof.
  revert seen. induction rs as [|r rs IH]; intros seen; cbn [adds fold_left filter once_each]; [now rewrite app_nil_r|].
  fold (adds (if found r && negb (str_in r seen) then seen ++ [r] else seen) rs). rewrite IH.
  destruct (found r) eqn:Ef; cbn [andb once_each filter]; auto. destruct (str_in r seen) eqn:Es; cbn [negb].
  - f_equal. rewrite filter_twice. apply filter_ext_in. intros y _. destruct (str_eqb_spec r y) as [->|]; [now rewrite Es|reflexivity].
  - rewrite <- app_assoc. f_equal. cbn [app]. f_equal. rewrite filter_twice. apply filter_ext. intros y. unfold str_in. rewrite existsb_app. cbn [existsb].
    rewrite orb_false_r, negb_orb, andb_comm. f_equal. f_equal. destruct (str_eqb_spec y r), (str_eqb_spec r y); congruence.
Qed.
Lemma adds_nothing rs : adds [] rs = once_each (filter found rs).
Proof.
  rewrite adds_once. cbn [app]. induction (once_each (filter found rs)) as [|x l IH]; [reflexivity|]. cbn [filter str_in existsb negb]. f_equal. exact IH.
Qed.
