(** Proofs about resolving: replacing the tokens of a text one after the other
    is filling in all of them at once, when no token is inside another and the
    result has no token start. *)

From Coq Require Import String List NArith Bool Lia Arith.
From Verif Require Import PyStr PyStrFacts Dict NxtPath PathSpec PathProofs Tokens TokenSpec TokenProofs PyVal NodeIO Resolve ResolveSpec.
Import ListNotations.

(** *** Tokens inside tokens *)

Lemma tok_prefix_eq b b' x y : body b -> body b' -> tok b ++ x = tok b' ++ y -> b = b'.
Proof.
  assert (G : forall b b' x y, body b -> body b' -> length b <= length b' -> tok b ++ x = tok b' ++ y -> b = b').
  { clear. intros b b' x y Hb Hb' Hl E.
    assert (exists z, tok b' = tok b ++ z) as [z Ez].
    { exists (skipn (length (tok b)) (tok b')).
      rewrite <- (firstn_skipn (length (tok b)) (tok b')) at 1. f_equal.
      assert (F : firstn (length (tok b)) (tok b ++ x) = firstn (length (tok b)) (tok b' ++ y)) by now rewrite E.
      rewrite firstn_app_exact, firstn_app in F.
      replace (length (tok b) - length (tok b')) with 0 in F by (rewrite !tok_length; lia).
      cbn [firstn] in F. rewrite app_nil_r in F. symmetry. exact F. }
    assert (P' : parse (tok b') [tok b']).
    { rewrite <- (app_nil_r (tok b')) at 1. apply parse_tok; [auto|constructor]. }
    destruct (token_text_classified z) as [[ts Hz]|Hz].
    - assert (P : parse (tok b ++ z) (tok b :: ts)) by (apply parse_tok; auto).
      rewrite <- Ez in P. pose proof (parse_function _ _ _ P P') as F. apply (f_equal (hd [])) in F. cbn [hd] in F.
      apply (f_equal get_token_content) in F. rewrite !tok_make, !token_content_round_trip in F. exact F.
    - exfalso. destruct Hz as (p & ts & o & Hp & Ho & ->).
      assert (U : unclosed (tok b')).
      { rewrite Ez. exists (tok b ++ p), (tok b :: ts), o. split; [now apply parse_tok|]. split; auto.
        now rewrite <- app_assoc. }
      apply (standalone_unclosed _ ALL_PREFIXES) in U. rewrite (standalone_all _ _ P') in U. discriminate U. }
  intros Hb Hb' E. destruct (Nat.le_ge_cases (length b) (length b')) as [H|H].
  - eapply G; eauto.
  - symmetry. eapply G; eauto.
Qed.

Lemma tok_starts b s : startswith (tok b) s = true -> exists r, s = DOLLAR :: LBRACE :: r.
Proof.
  rewrite startswith_iff. intros (r & ->). rewrite tok_app. eauto.
Qed.

Lemma tok_inside s : body s ->
  forall a u y b, s = a ++ u -> u <> [] -> body b ->
  startswith (tok b) (u ++ RBRACE :: y) = true -> exists v, u = tok b ++ v.
Proof.
  induction 1 as [|c s Hc Hn Hs IH|b1 s Hb1 IH1 Hs IH2]; intros a u y b E Hu Hb St.
  - destruct a; [|discriminate]. destruct u; [congruence|discriminate].
  - destruct a as [|c' a].
    + cbn [app] in E. subst u. destruct (tok_starts _ _ St) as [r Er].
      cbn [app] in Er. injection Er as -> Er. exfalso. destruct s as [|c2 s].
      * cbn in Er. discriminate.
      * cbn [app] in Er. injection Er as -> _. apply Hn. now exists s.
    + cbn [app] in E. injection E as _ E. eauto.
  - rewrite tok_app in E.
    destruct a as [|c0 a].
    { cbn [app] in E. rewrite <- tok_app in E. subst u.
      apply startswith_iff in St as [z Ez]. rewrite <- app_assoc in Ez.
      assert (b1 = b) by (eapply tok_prefix_eq; eauto). subst b1. eauto. }
    cbn [app] in E. injection E as <- E. destruct a as [|c0 a].
    { cbn [app] in E. subst u. destruct (tok_starts _ _ St) as [r Er]. discriminate Er. }
    cbn [app] in E. injection E as <- E.
    destruct (Nat.le_gt_cases (length a) (length b1)) as [Hl|Hl].
    + (* the start is in b1 or at its closing brace *)
      assert (exists u', b1 = a ++ u' /\ u = u' ++ RBRACE :: s) as (u' & -> & ->).
      { exists (skipn (length a) b1).
        assert (F : firstn (length a) (b1 ++ RBRACE :: s) = firstn (length a) (a ++ u)) by now rewrite E.
        rewrite firstn_app_exact, firstn_app in F. replace (length a - length b1) with 0 in F by lia.
        cbn [firstn] in F. rewrite app_nil_r in F.
        assert (G : skipn (length a) (b1 ++ RBRACE :: s) = skipn (length a) (a ++ u)) by now rewrite E.
        rewrite skipn_app_exact, skipn_app in G. replace (length a - length b1) with 0 in G by lia.
        cbn [skipn] in G. split; [|auto]. rewrite <- F at 1. now rewrite firstn_skipn. }
      destruct u' as [|c' u'].
      { destruct (tok_starts _ _ St) as [r Er]. discriminate Er. }
      rewrite <- app_assoc in St. cbn [app] in St.
      destruct (IH1 a (c' :: u') (s ++ RBRACE :: y) b eq_refl) as [v Ev]; auto; [discriminate|].
      rewrite Ev. exists (v ++ RBRACE :: s). now rewrite <- app_assoc.
    + assert (exists a', s = a' ++ u) as [a' ->].
      { exists (skipn (S (length b1)) a).
        assert (G : skipn (S (length b1)) (b1 ++ RBRACE :: s) = skipn (S (length b1)) (a ++ u)) by now rewrite E.
        replace (b1 ++ RBRACE :: s) with ((b1 ++ [RBRACE]) ++ s) in G by now rewrite <- app_assoc.
        replace (S (length b1)) with (length (b1 ++ [RBRACE])) in G at 1 by (rewrite app_length; cbn; lia).
        rewrite skipn_app_exact, skipn_app in G. replace (S (length b1) - length a) with 0 in G by lia.
        exact G. }
      eauto.
Qed.

(** *** Pieces of a text *)

(** A plain character, or a token with its contents. *)
Inductive piece := Char (c : N) | Tok (b : pystr).

Definition put (g : pystr -> pystr) (p : piece) : pystr :=
  match p with Char c => [c] | Tok b => g b end.
Definition flat (g : pystr -> pystr) (ps : list piece) : pystr := flat_map (put g) ps.

Fixpoint cutting (ps : list piece) : Prop :=
  match ps with
  | [] => True
  | Char c :: t => not_opening c (flat tok t) /\ cutting t
  | Tok b :: t => body b /\ cutting t
  end.

Fixpoint toks (ps : list piece) : list pystr :=
  match ps with
  | [] => []
  | Char _ :: t => toks t
  | Tok b :: t => b :: toks t
  end.

Lemma cutting_parse ps : cutting ps -> parse (flat tok ps) (map tok (toks ps)).
Proof.
  induction ps as [|[c|b] ps IH]; cbn [cutting toks]; intros H.
  - constructor.
  - apply (parse_char c). all: tauto.
  - apply parse_tok; tauto.
Qed.

Lemma parse_cutting s ts : parse s ts -> exists ps, cutting ps /\ s = flat tok ps /\ ts = map tok (toks ps).
Proof.
  induction 1 as [|c s ts Hc H (ps & Hp & -> & ->)|b s ts Hb H (ps & Hp & -> & ->)].
  - exists []. now repeat split.
  - exists (Char c :: ps). now repeat split.
  - exists (Tok b :: ps). now repeat split.
Qed.

Section Sequence.
Variable rep : pystr -> pystr.

(** The text with the tokens in [D] filled in. *)
Definition now (D : list pystr) (b : pystr) : pystr := if str_in b D then rep b else tok b.

Lemma head_brace D ps r : flat (now D) ps = LBRACE :: r -> exists r', flat rep ps = LBRACE :: r'.
Proof.
  revert r. induction ps as [|[c|b] ps IH]; intros r E; [discriminate| |].
  - cbn in E |- *. injection E as -> _. eauto.
  - cbn [flat flat_map put] in E |- *. unfold now at 1 in E.
    destruct (str_in b D).
    + destruct (rep b) as [|c0 t]; cbn [app] in E |- *; [eauto|]. injection E as -> _. eauto.
    + rewrite tok_app in E. discriminate E.
Qed.

Lemma contains_suffix sub a b : contains sub b = true -> contains sub (a ++ b) = true.
Proof. rewrite !contains_iff. intros (x & y & ->). exists (a ++ x), y. now rewrite <- app_assoc. Qed.
Lemma contains_start r : contains TOKEN_PREFIX (DOLLAR :: LBRACE :: r) = true.
Proof. apply contains_iff. exists [], r. reflexivity. Qed.

Definition clear_in (b : pystr) (ps : list piece) : Prop :=
  forall c, In c (toks ps) -> ~ substring (tok b) c.

Lemma replace_pieces D b ps :
  body b -> cutting ps -> clear_in b ps ->
  (D = [] \/ contains TOKEN_PREFIX (flat rep ps) = false) ->
  replace_aux (tok b) (rep b) None 0 (flat (now D) ps) = flat (now (b :: D)) ps.
Proof.
  intros Hb. induction ps as [|p ps IH]; intros Hc Hcl HD; [reflexivity|].
  assert (HD' : D = [] \/ contains TOKEN_PREFIX (flat rep ps) = false).
  { destruct HD as [HD|HD]; auto. right. destruct (contains TOKEN_PREFIX (flat rep ps)) eqn:E; auto.
    cbn [flat flat_map] in HD. fold (flat rep ps) in HD. rewrite contains_suffix in HD; auto. }
  assert (Hcl' : clear_in b ps).
  { intros c Hin. apply Hcl. destruct p; cbn [toks]; [exact Hin|now right]. }
  assert (Htok : tok b <> []) by (unfold tok; rewrite lit_prefix; discriminate).
  destruct p as [c|b'].
  - destruct Hc as [Hno Hc]. specialize (IH Hc Hcl' HD').
    change (flat (now D) (Char c :: ps)) with ([c] ++ flat (now D) ps).
    change (flat (now (b :: D)) (Char c :: ps)) with ([c] ++ flat (now (b :: D)) ps).
    rewrite replace_aux_step; [now rewrite IH|].
    intros a1 a2 E Hne. assert (a1 = [] /\ a2 = [c]) as [-> ->].
    { destruct a1; cbn in E; [auto|]. injection E as -> E. destruct a1; [|discriminate]. destruct a2; [congruence|discriminate]. }
    destruct (startswith (tok b) ([c] ++ flat (now D) ps)) eqn:St; auto. exfalso.
    apply tok_starts in St as [r Er]. cbn [app] in Er. injection Er as -> Er.
    destruct HD as [->|HD].
    + change (flat (now []) ps) with (flat tok ps) in Er. apply Hno. exists r. now rewrite Er.
    + apply head_brace in Er as [r' Er]. change (flat rep (Char DOLLAR :: ps)) with (DOLLAR :: flat rep ps) in HD.
      rewrite Er, contains_start in HD. discriminate.
  - destruct Hc as [Hb' Hc]. specialize (IH Hc Hcl' HD').
    change (flat (now D) (Tok b' :: ps)) with (now D b' ++ flat (now D) ps).
    change (flat (now (b :: D)) (Tok b' :: ps)) with (now (b :: D) b' ++ flat (now (b :: D)) ps).
    unfold now at 1 3. cbn [str_in existsb].
    change (existsb (str_eqb b') D) with (str_in b' D).
    destruct (str_in b' D) eqn:InD.
    + rewrite orb_true_r. rewrite replace_aux_step; [now rewrite IH|].
      intros a1 a2 E Hne. destruct HD as [->|HD]; [discriminate InD|].
      destruct (startswith (tok b) (a2 ++ flat (now D) ps)) eqn:St; auto. exfalso.
      apply tok_starts in St as [r Er].
      change (flat rep (Tok b' :: ps)) with (rep b' ++ flat rep ps) in HD. rewrite E in HD.
      destruct a2 as [|c a2]; [congruence|]. cbn [app] in Er. injection Er as -> Er.
      rewrite <- app_assoc in HD. destruct a2 as [|c2 a2].
      * cbn [app] in Er. apply head_brace in Er as [r' Er].
        rewrite contains_suffix in HD; [discriminate|]. cbn [app]. rewrite Er. apply contains_start.
      * cbn [app] in Er. injection Er as -> Er. rewrite contains_suffix in HD; [discriminate|]. cbn [app]. apply contains_start.
    + rewrite orb_false_r. destruct (str_eqb_spec b' b) as [->|Hne].
      * rewrite replace_aux_hit; [|auto|discriminate]. cbn [option_map]. now rewrite IH.
      * rewrite replace_aux_step; [now rewrite IH|].
        intros a1 a2 E Hne2.
        destruct (startswith (tok b) (a2 ++ flat (now D) ps)) eqn:St; auto. exfalso.
        destruct a1 as [|c1 a1].
        { cbn [app] in E. subst a2. apply startswith_iff in St as [z Ez].
          apply Hne. eapply tok_prefix_eq; eauto. }
        rewrite <- (app_nil_r (tok b')), tok_app in E. cbn [app] in E. injection E as <- E.
        destruct a1 as [|c1 a1].
        { cbn [app] in E. subst a2. apply tok_starts in St as [r Er]. discriminate Er. }
        cbn [app] in E. injection E as <- E.
        destruct (exists_last Hne2) as (u & x & ->). rewrite app_assoc in E. apply app_inj_tail in E as [E <-].
        rewrite <- app_assoc in St. cbn [app] in St.
        destruct u as [|c' u].
        { apply tok_starts in St as [r Er]. discriminate Er. }
        destruct (tok_inside b' Hb' a1 (c' :: u) (flat (now D) ps) b E) as [v Ev]; auto; [discriminate|].
        apply (Hcl b'); [now left|]. exists a1, v. now rewrite E, Ev.
Qed.

Lemma flat_ext g h ps : (forall b, In b (toks ps) -> g b = h b) -> flat g ps = flat h ps.
Proof.
  induction ps as [|[c|b] ps IH]; intros H; auto; unfold flat in *; cbn [flat_map put].
  - rewrite IH; auto.
  - cbn [toks] in H. rewrite IH by (intros; apply H; now right). rewrite (H b); auto. now left.
Qed.

Lemma now_more b D x : In b D -> now (b :: D) x = now D x.
Proof.
  intros H. unfold now. cbn [str_in existsb]. change (existsb (str_eqb x) D) with (str_in x D).
  destruct (str_eqb_spec x b) as [->|]; auto. apply str_in_In in H. now rewrite H.
Qed.

Lemma replace_all_pieces ps bs :
  cutting ps -> (forall b, In b bs -> In b (toks ps)) ->
  (forall b, In b bs -> body b /\ clear_in b ps) ->
  forall D, (D = [] /\ length bs <= 1) \/ contains TOKEN_PREFIX (flat rep ps) = false ->
  fold_left (fun acc b => replace (tok b) (rep b) acc) bs (flat (now D) ps) = flat (now (rev bs ++ D)) ps.
Proof.
  intros Hc. induction bs as [|b bs IH]; intros Hin Hb D HD; [reflexivity|].
  cbn [fold_left]. destruct (Hb b (or_introl eq_refl)) as [Hbb Hcl].
  assert (E : replace (tok b) (rep b) (flat (now D) ps) = flat (now (b :: D)) ps).
  { unfold replace. rewrite <- (replace_pieces D b ps Hbb Hc Hcl); [reflexivity|tauto]. }
  rewrite E. destruct HD as [[-> Hl]|HD].
  - destruct bs; [|cbn in Hl; lia]. reflexivity.
  - rewrite IH; auto.
    + cbn [rev]. now rewrite <- app_assoc.
    + intros x Hx. apply Hin. now right.
    + intros x Hx. apply Hb. now right.
Qed.
End Sequence.

Lemma cutting_bodies ps b : cutting ps -> In b (toks ps) -> body b.
Proof.
  induction ps as [|[c|x] ps IH]; cbn [cutting toks]; intros Hc Hi.
  - destruct Hi.
  - tauto.
  - destruct Hi as [->|Hi]; tauto.
Qed.

Lemma not_in_itself b c : length b <= length c -> ~ substring (tok c) b.
Proof.
  intros H (x & y & E). apply (f_equal (@length N)) in E. rewrite !app_length, tok_length in E. lia.
Qed.

(** Replacing one after the other fills in all tokens. *)
Lemma sequential_fill rep ps :
  cutting ps -> settled (flat tok ps) (flat rep ps) ->
  fold_left (fun acc b => replace (tok b) (rep b) acc) (toks ps) (flat tok ps) = flat rep ps.
Proof.
  intros Hc (ts & Hp & Hs).
  pose proof (parse_function _ _ _ Hp (cutting_parse ps Hc)) as ->.
  rewrite map_length in Hs.
  change (flat tok ps) with (flat (now rep []) ps) at 1.
  rewrite replace_all_pieces; auto.
  - rewrite app_nil_r. apply flat_ext. intros b Hb. unfold now.
    assert (H : str_in b (rev (toks ps)) = true) by (apply str_in_In, in_rev; now rewrite rev_involutive).
    now rewrite H.
  - intros b Hb. split; [eapply cutting_bodies; eauto|]. intros c Hin.
    destruct Hs as [Hs|[Hs _]].
    + destruct (toks ps) as [|x [|y l]]; try discriminate. destruct Hb as [<-|[]]. destruct Hin as [<-|[]].
      now apply not_in_itself.
    + apply Hs; [now apply in_map|]. apply in_map_iff. eauto.
  - destruct Hs as [Hs|[_ Hs]]; [left; split; auto; lia|now right].
Qed.

(** *** More fuel *)

Section Fuel.
Context {node : Type}.
Variable w : surroundings node.

Definition below {A} (x y : option A) : Prop := forall r, x = Some r -> y = Some r.

Lemma below_refl {A} (x : option A) : below x x.
Proof. intros r H. exact H. Qed.
Lemma below_obind {A B} (x y : option (res A)) (f g : A -> option (res B)) :
  below x y -> (forall a, below (f a) (g a)) -> below (obind x f) (obind y g).
Proof.
  intros H Hf r E. destruct x as [[a|e]|]; cbn [obind] in E; [| |discriminate].
  - rewrite (H _ eq_refl). cbn [obind]. now apply Hf.
  - rewrite (H _ eq_refl). exact E.
Qed.
Lemma below_fold {A B} (f g : A -> B -> option (res A)) l :
  (forall a x, below (f a x) (g a x)) -> forall a, below (fold_out f l a) (fold_out g l a).
Proof.
  intros H. induction l as [|x l IH]; intros a; cbn [fold_out]; [apply below_refl|].
  apply below_obind; auto.
Qed.

Lemma below_omap {A B} (h : A -> B) x y : below x y -> below (omap h x) (omap h y).
Proof. intros H. apply below_obind; auto. intros; apply below_refl. Qed.

Section Rec.
Variables r1 r2 : option node -> pystr -> option (res pystr).
Hypothesis Hr : forall n s, below (r1 n s) (r2 n s).

Lemma below_attr_value n a : below (get_node_attr_value w r1 n a) (get_node_attr_value w r2 n a).
Proof.
  unfold get_node_attr_value. destruct (truthy _); [now apply below_omap|].
  destruct (str_in _ _); [apply below_refl|]. apply below_refl.
Qed.
Lemma below_attr_ref n t : below (resolve_attr_ref_token w r1 n t) (resolve_attr_ref_token w r2 n t).
Proof.
  unfold resolve_attr_ref_token. apply below_obind; [apply Hr|]. intros ref.
  destruct (match path_attr_partition ref with (p, Some a) => _ | (_, None) => _ end) as [a sp].
  assert (L : below
    (obind match get_attr w n a with Some v => Some (Ok v) | None => get_node_attr_value w r1 n a end
       (fun v => if truthy v then Some (Ok v) else Some (Ok (VStr (lit """${" ++ ref ++ lit "}""")))))
    (obind match get_attr w n a with Some v => Some (Ok v) | None => get_node_attr_value w r2 n a end
       (fun v => if truthy v then Some (Ok v) else Some (Ok (VStr (lit """${" ++ ref ++ lit "}""")))))).
  { apply below_obind; [|intros; apply below_refl]. destruct (get_attr w n a); [apply below_refl|apply below_attr_value]. }
  destruct sp as [sp|]; [|exact L]. destruct (is_empty sp); [exact L|].
  destruct (expand_from sp (path_of w n)) as [q|e]; [apply below_attr_value|apply below_refl].
Qed.
Lemma below_path n t : below (resolve_file_path_token w r1 n t) (resolve_file_path_token w r2 n t).
Proof. apply below_obind; [apply Hr|]. intros; apply below_refl. Qed.
Lemma below_file n t : below (resolve_file_token w r1 n t) (resolve_file_token w r2 n t).
Proof.
  apply below_obind; [apply Hr|]. intros a. apply below_obind; [apply below_path|]. intros; apply below_refl.
Qed.
Lemma below_contents n t : below (resolve_contents_token w r1 n t) (resolve_contents_token w r2 n t).
Proof.
  apply below_obind; [apply Hr|]. intros p. destruct (file_text w p); [apply Hr|apply below_refl].
Qed.
Lemma below_replacement n t : below (replacement w r1 n t) (replacement w r2 n t).
Proof.
  unfold replacement. destruct (determine_token_type w (get_token_content t)) as [[p| | | | | |]|].
  - destruct (pl_resolve p); apply below_refl.
  - apply below_omap, below_file.
  - apply below_omap, below_path.
  - apply below_omap, below_contents.
  - apply below_refl.
  - apply below_refl.
  - apply below_attr_ref.
  - apply below_refl.
Qed.
Lemma below_step n s : below (resolve_step w r1 n s) (resolve_step w r2 n s).
Proof.
  unfold resolve_step. apply below_fold. intros a x. apply below_obind; [apply below_replacement|].
  intros v. apply below_obind; [apply below_refl|]. intros; apply below_refl.
Qed.
End Rec.

Lemma resolve_S f n s : below (resolve w f n s) (resolve w (S f) n s).
Proof.
  revert n s. induction f as [|f IH]; intros n s; [intros r H; discriminate H|].
  cbn [resolve]. apply below_step. exact IH.
Qed.
Lemma resolve_mono f g n s : f <= g -> below (resolve w f n s) (resolve w g n s).
Proof.
  induction 1 as [|g Hle IH]; [apply below_refl|]. intros r H. apply resolve_S. now apply IH.
Qed.

Lemma ends_unique {A} (run : nat -> option A) r r' : ends_in run r -> ends_in run r' -> r = r'.
Proof.
  intros [f H] [f' H']. specialize (H (f + f') ltac:(lia)). specialize (H' (f + f') ltac:(lia)). congruence.
Qed.
Lemma ends_resolve f n s r : resolve w f n s = Some r -> ends_in (fun f => resolve w f n s) r.
Proof. intros H. exists f. intros g Hg. eapply resolve_mono; eauto. Qed.

(** *** What the resolver does with each token *)

Lemma find_none b : no_plugin w b -> List.find (fun p => pl_detect p b) (plugins w) = None.
Proof.
  unfold no_plugin. induction (plugins w) as [|p l IH]; intros H; cbn [List.find]; auto.
  rewrite (H p) by now left. apply IH. intros; apply H; now right.
Qed.
Lemma startswith_no (p : string) b : (forall r, b <> lit p ++ r) -> startswith (lit p) b = false.
Proof. intros H. apply startswith_false_iff. exact H. Qed.

Lemma type_reference b : reference w b -> determine_token_type w b = Some TAttr.
Proof.
  intros (Hne & Hp & H1 & H2 & H3 & H4 & H5). unfold determine_token_type.
  destruct b as [|c b]; [congruence|]. cbn [is_empty]. rewrite find_none by auto.
  unfold FILE_PREFIX, FILEPATH_PREFIX, CONTENTS_PREFIX, PATH_PREFIX, COLOR_PREFIX.
  rewrite !startswith_no by auto. apply str_eqb_neq in H4, H5. now rewrite H4, H5.
Qed.

Lemma type_plain b : b <> [] -> no_plugin w b -> determine_token_type w b =
  if startswith FILE_PREFIX b then Some TFile else if startswith FILEPATH_PREFIX b then Some TFilePath
  else if startswith CONTENTS_PREFIX b then Some TContents else if str_eqb b PATH_PREFIX then Some TPath
  else if str_eqb b COLOR_PREFIX then Some TColor else Some TAttr.
Proof.
  intros Hne Hp. unfold determine_token_type. destruct b; [congruence|]. cbn [is_empty]. now rewrite find_none.
Qed.
Transparent lit.
Lemma type_file c : no_plugin w (lit "file::" ++ c) -> determine_token_type w (lit "file::" ++ c) = Some TFile.
Proof. intros H. rewrite type_plain; [reflexivity|discriminate|exact H]. Qed.
Lemma type_path c : no_plugin w (lit "path::" ++ c) -> determine_token_type w (lit "path::" ++ c) = Some TFilePath.
Proof. intros H. rewrite type_plain; [reflexivity|discriminate|exact H]. Qed.
Lemma type_contents c : no_plugin w (lit "contents::" ++ c) -> determine_token_type w (lit "contents::" ++ c) = Some TContents.
Proof. intros H. rewrite type_plain; [reflexivity|discriminate|exact H]. Qed.
Lemma type_nxtpath : no_plugin w (lit "_nxtpath") -> determine_token_type w (lit "_nxtpath") = Some TPath.
Proof. intros H. rewrite type_plain; [reflexivity|discriminate|exact H]. Qed.
Lemma type_color : no_plugin w (lit "_nxtcolor") -> determine_token_type w (lit "_nxtcolor") = Some TColor.
Proof. intros H. rewrite type_plain; [reflexivity|discriminate|exact H]. Qed.
Lemma type_plugin b before p after : b <> [] -> plugins w = before ++ p :: after -> pl_detect p b = true ->
  (forall p', In p' before -> pl_detect p' b = false) -> determine_token_type w b = Some (TPlugin p).
Proof.
  intros Hne E Hd Hb. unfold determine_token_type. destruct b as [|c b]; [congruence|]. cbn [is_empty]. rewrite E.
  clear E. assert (F : List.find (fun p => pl_detect p (c :: b)) (before ++ p :: after) = Some p).
  { induction before as [|q l IH]; cbn [app List.find]; [now rewrite Hd|].
    rewrite (Hb q) by now left. apply IH. intros; apply Hb; now right. }
  now rewrite F.
Qed.

Lemma replacement_tok rec n b : replacement w rec n (tok b) =
  match determine_token_type w b with
  | Some (TPlugin p) =>
      match pl_resolve p with
      | Some f => Some (f n (skipn (length (pl_prefix p)) b))
      | None => Some (Ok (VStr (lit "BADRESOLVE")))
      end
  | Some TFile => omap VStr (resolve_file_token w rec n (skipn (length FILE_PREFIX) b))
  | Some TFilePath => omap VStr (resolve_file_path_token w rec n (skipn (length FILEPATH_PREFIX) b))
  | Some TContents => omap VStr (resolve_contents_token w rec n (skipn (length CONTENTS_PREFIX) b))
  | Some TAttr => resolve_attr_ref_token w rec n b
  | Some TPath => Some (Ok (match path_of w n with Some p => VStr p | None => VNone end))
  | Some TColor => Some (color_of w n)
  | None => Some (Ok (VStr (lit "BADRESOLVE")))
  end.
Proof.
  unfold replacement. rewrite tok_make, token_content_round_trip.
  destruct (determine_token_type w b) as [[p| | | | | |]|]; reflexivity.
Qed.

Lemma skipn_prefix {A} (p r : list A) : skipn (length p) (p ++ r) = r.
Proof. apply skipn_app_exact. Qed.

(** *** References *)

Lemma partition_splits ref p a : splits ref p a -> path_attr_partition ref = (p, Some a).
Proof.
  intros (-> & Hp & Ha & Hd). rewrite app_assoc. apply (path_attr_partition_make p a); auto.
  now apply contains_char_false.
Qed.
Lemma partition_splits_inv ref p a :
  path_attr_partition ref = (p, Some a) -> p <> [] -> splits ref p a.
Proof.
  intros H Hp. apply path_attr_partition_inv in H as (-> & Ha & Hd). unfold make_attr_path.
  split; [now rewrite <- app_assoc|]. split; [auto|]. split; [auto|]. now apply contains_char_false.
Qed.

(** The node and the attribute a reference leads to. *)
Definition goal (n : option node) (ref : pystr) : res (option (option node * pystr)) :=
  match path_attr_partition ref with
  | (p, Some a) =>
      if negb (is_empty p) && negb (is_empty a)
      then bind (expand_from p (path_of w n)) (fun q => Ok (Some (match q with Some q => find w q | None => None end, a)))
      else match path_of w n with
           | Some (c :: t) => bind (expand_from (c :: t) (path_of w n)) (fun q => Ok (Some (match q with Some q => find w q | None => None end, ref)))
           | _ => Ok None
           end
  | (_, None) =>
      match path_of w n with
      | Some (c :: t) => bind (expand_from (c :: t) (path_of w n)) (fun q => Ok (Some (match q with Some q => find w q | None => None end, ref)))
      | _ => Ok None
      end
  end.

Definition loose rec (n : option node) (ref : pystr) : option (res pyval) :=
  obind match get_attr w n ref with Some v => Some (Ok v) | None => get_node_attr_value w rec n ref end
    (fun v => if truthy v then Some (Ok v) else Some (Ok (VStr (lit """${" ++ ref ++ lit "}""")))).

Lemma attr_ref_goal rec n t : resolve_attr_ref_token w rec n t =
  obind (rec n t) (fun ref =>
  match goal n ref with
  | Raise e => Some (Raise e)
  | Ok (Some (m, a)) => get_node_attr_value w rec m a
  | Ok None => loose rec n ref
  end).
Proof.
  unfold resolve_attr_ref_token. destruct (rec n t) as [[ref|e]|]; cbn [obind]; auto.
  unfold goal, loose. destruct (path_attr_partition ref) as [p [a|]].
  - destruct (negb (is_empty p) && negb (is_empty a)) eqn:E.
    + apply andb_true_iff in E as [E _]. apply negb_true_iff in E. rewrite E.
      now destruct (expand_from p (path_of w n)).
    + destruct (path_of w n) as [[|c u]|] eqn:Ep; auto.
  - destruct (path_of w n) as [[|c u]|] eqn:Ep; auto.
Qed.

Lemma names_goal n ref m a : names w n ref m a -> goal n ref = Ok (Some (m, a)).
Proof.
  intros [p b here q Hs Hh Hq|p b r Hs ->|here Hs Hh [r ->]]; unfold goal.
  - rewrite (partition_splits _ _ _ Hs), Hh. destruct Hs as (_ & Hp & Hb & _).
    destruct p; [congruence|]. destruct b; [congruence|]. cbn [is_empty negb andb expand_from]. now rewrite Hq.
  - rewrite (partition_splits _ _ _ Hs). destruct Hs as (_ & Hp & Hb & _).
    destruct b; [congruence|]. change (lit "/" ++ r) with (SLASH :: r). cbn [is_empty negb andb].
    destruct (path_of w n) as [s|]; cbn [expand_from].
    + rewrite expand_relative_absolute. reflexivity.
    + cbn [is_empty]. destruct (str_eqb (SLASH :: r) WORLD); reflexivity.
  - assert (E : match path_of w n with
           | Some (c :: t) => bind (expand_from (c :: t) (path_of w n)) (fun q => Ok (Some (match q with Some q => find w q | None => None end, ref)))
           | _ => Ok None
           end = Ok (Some (find w (lit "/" ++ r), ref))).
    { rewrite Hh. change (lit "/" ++ r) with (SLASH :: r). cbn [expand_from]. now rewrite expand_relative_absolute. }
    destruct (path_attr_partition ref) as [p [b|]] eqn:Ep; [|exact E].
    destruct p as [|c p]; [exact E|]. exfalso. apply (Hs (c :: p) b). apply partition_splits_inv; auto. discriminate.
Qed.

(** *** The meaning is what resolve answers *)

Definition answer f n b : option (res pystr) :=
  obind (replacement w (resolve w f) n (tok b)) (fun v => Some (as_replacement v)).

Lemma step_tokens f n s ps : cutting ps -> s = flat tok ps ->
  resolve w (S f) n s =
  fold_out (fun acc b => obind (answer f n b) (fun r => Some (Ok (replace (tok b) r acc)))) (toks ps) s.
Proof.
  intros Hc ->. cbn [resolve]. unfold resolve_step.
  rewrite (standalone_all _ _ (cutting_parse ps Hc)).
  generalize (flat tok ps). induction (toks ps) as [|b l IH]; intros acc; cbn [map fold_out]; auto.
  unfold answer at 1. destruct (replacement w (resolve w f) n (tok b)) as [[v|e]|]; cbn [obind]; auto.
  destruct (as_replacement v) as [r|e]; cbn [obind]; auto.
Qed.

Lemma fold_out_fill f n rep bs acc :
  (forall b, In b bs -> answer f n b = Some (Ok (rep b))) ->
  fold_out (fun acc b => obind (answer f n b) (fun r => Some (Ok (replace (tok b) r acc)))) bs acc
  = Some (Ok (fold_left (fun acc b => replace (tok b) (rep b) acc) bs acc)).
Proof.
  revert acc. induction bs as [|b bs IH]; intros acc H; cbn [fold_out fold_left]; auto.
  rewrite (H b) by now left. cbn [obind]. apply IH. intros; apply H; now right.
Qed.

Lemma resolve_unclosed f n s : unclosed s -> resolve w (S f) n s = Some (Ok s).
Proof. intros H. cbn [resolve]. unfold resolve_step. now rewrite (standalone_unclosed s ALL_PREFIXES H). Qed.

Definition rep_of f n b : pystr := match answer f n b with Some (Ok r) => r | _ => [] end.

Lemma ends_obind {A B} (run : nat -> option (res A)) (g : nat -> A -> option (res B)) a r :
  ends_in run (Ok a) -> ends_in (fun f => g f a) r -> ends_in (fun f => obind (run f) (g f)) r.
Proof.
  intros [f1 H1] [f2 H2]. exists (f1 + f2). intros f Hf. rewrite H1 by lia. cbn [obind]. apply H2. lia.
Qed.
Lemma ends_const {A} (r : A) : ends_in (fun _ => Some r) r.
Proof. now exists 0. Qed.
Lemma ends_ext {A} (run run' : nat -> option A) r : (forall f, run' f = run f) -> ends_in run r -> ends_in run' r.
Proof. intros E [f0 H]. exists f0. intros f Hf. rewrite E. now apply H. Qed.
Lemma obind_assoc {A B C} (x : option (res A)) (f : A -> option (res B)) (g : B -> option (res C)) :
  obind (obind x f) g = obind x (fun a => obind (f a) g).
Proof. now destruct x as [[a|e]|]. Qed.

Hypothesis str_id : forall s, to_str w (VStr s) = s.

Theorem meaning_resolves :
  (forall n s o, gives w n s o -> ends_in (fun f => resolve w f n s) (Ok o)) /\
  (forall n s o, filled w n s o ->
     exists ps f0, cutting ps /\ s = flat tok ps /\ forall f, f0 <= f ->
       o = flat (rep_of f n) ps /\ forall b, In b (toks ps) -> answer f n b = Some (Ok (rep_of f n b))) /\
  (forall n b r, means w n b r -> ends_in (fun f => answer f n b) (Ok r)) /\
  (forall m a r, holds w m a r ->
     ends_in (fun f => obind (get_node_attr_value w (resolve w f) m a) (fun v => Some (as_replacement v))) (Ok r)).
Proof.
  apply (meaning_ind w).
  - intros n s H. exists 1. intros [|f] Hf; [lia|]. now apply resolve_unclosed.
  - intros n s o _ (ps & f0 & Hc & -> & H) Hs. exists (S f0). intros [|f] Hf; [lia|].
    destruct (H f) as [-> Ha]; [lia|].
    rewrite (step_tokens f n _ ps Hc eq_refl), (fold_out_fill f n (rep_of f n)) by auto.
    now rewrite sequential_fill.
  - intros n. exists [], 0. repeat split. intros b [].
  - intros n c s o Hc _ (ps & f0 & Hp & -> & H). exists (Char c :: ps), f0. split; [now split|]. split; [reflexivity|].
    intros f Hf. destruct (H f Hf) as [-> Ha]. split; [reflexivity|exact Ha].
  - intros n b s r o Hb _ [f1 H1] _ (ps & f0 & Hp & -> & H). exists (Tok b :: ps), (f0 + f1).
    split; [now split|]. split; [reflexivity|]. intros f Hf. destruct (H f) as [-> Ha]; [lia|].
    specialize (H1 f ltac:(lia)). split.
    + cbn [flat flat_map put]. unfold rep_of at 2. now rewrite H1.
    + intros b' [<-|Hin]; [|auto]. unfold rep_of. now rewrite H1.
  - (* reference *)
    intros n b ref m a r Hr _ H1 Hn _ H2. unfold answer.
    eapply ends_ext.
    { intros f. rewrite replacement_tok, (type_reference _ Hr), attr_ref_goal, obind_assoc. reflexivity. }
    eapply (ends_obind (fun f => resolve w f n b)); [exact H1|].
    cbn beta. rewrite (names_goal _ _ _ _ Hn). exact H2.
  - intros n p Hp E. eapply ends_ext; [|apply (ends_const (Ok p))].
    intros f. unfold answer. rewrite replacement_tok, (type_nxtpath Hp), E. reflexivity.
  - intros n c Hp E. eapply ends_ext; [|apply (ends_const (Ok c))].
    intros f. unfold answer. rewrite replacement_tok, (type_color Hp), E. reflexivity.
  - intros n c t f0 Hp _ H E. unfold answer.
    eapply ends_ext.
    { intros f. rewrite replacement_tok, (type_path _ Hp). unfold FILEPATH_PREFIX. rewrite skipn_prefix.
      unfold resolve_file_path_token, omap. rewrite !obind_assoc. reflexivity. }
    eapply (ends_obind (fun f => resolve w f n c)); [exact H|]. cbn beta. rewrite E. apply (ends_const (Ok f0)).
  - intros n c t t' f0 Hp _ H _ H' E. unfold answer.
    eapply ends_ext.
    { intros f. rewrite replacement_tok, (type_file _ Hp). unfold FILE_PREFIX. rewrite skipn_prefix.
      unfold resolve_file_token, resolve_file_path_token, omap. rewrite !obind_assoc. reflexivity. }
    eapply (ends_obind (fun f => resolve w f n c)); [exact H|].
    eapply ends_ext; [intros f; rewrite !obind_assoc; reflexivity|].
    eapply (ends_obind (fun f => resolve w f n t)); [exact H'|]. cbn beta. rewrite E. cbn [obind as_replacement].
    apply (ends_const (Ok (if file_exists w f0 then f0 else []))).
  - intros n c p text r Hp _ H E _ H'. unfold answer.
    eapply ends_ext.
    { intros f. rewrite replacement_tok, (type_contents _ Hp). unfold CONTENTS_PREFIX. rewrite skipn_prefix.
      unfold resolve_contents_token, omap. rewrite !obind_assoc. reflexivity. }
    eapply (ends_obind (fun f => resolve w f n c)); [exact H|]. cbn beta. rewrite E.
    eapply (ends_obind (fun f => resolve w f n text)); [exact H'|]. cbn [obind as_replacement]. apply (ends_const (Ok r)).
  - intros n c p Hp _ H E. unfold answer.
    eapply ends_ext.
    { intros f. rewrite replacement_tok, (type_contents _ Hp). unfold CONTENTS_PREFIX. rewrite skipn_prefix.
      unfold resolve_contents_token, omap. rewrite !obind_assoc. reflexivity. }
    eapply (ends_obind (fun f => resolve w f n c)); [exact H|]. cbn beta. rewrite E.
    cbn [obind as_replacement]. apply (ends_const (Ok [])).
  - intros n b before p after g r Hne E Hd Hb Hg Hr.
    eapply ends_ext; [|apply (ends_const (Ok r))].
    intros f. unfold answer. rewrite replacement_tok, (type_plugin b before p after) by auto.
    now rewrite Hg, Hr.
  - intros m a v r E Ht _ H. unfold get_node_attr_value. rewrite E, Ht.
    eapply ends_ext; [intros f; unfold omap; rewrite !obind_assoc; reflexivity|].
    eapply (ends_obind (fun f => resolve w f m (to_str w v))); [exact H|]. cbn [obind as_replacement]. apply (ends_const (Ok r)).
  - intros m a E. unfold get_node_attr_value. rewrite E. cbn [truthy].
    eapply ends_ext; [|apply (ends_const (Ok []))]. intros f. now destruct (str_in a _).
  - intros m a v E Ht Hv Hr. unfold get_node_attr_value. rewrite E, Ht.
    assert (F : str_in a (PROTECTED (builtin_names w)) = false) by now apply str_in_not_In. rewrite F.
    eapply ends_ext; [|apply (ends_const (Ok (to_str w v)))]. intros f. destruct v; try reflexivity. congruence.
  - intros m a E. unfold get_node_attr_value. rewrite E. cbn [truthy].
    eapply ends_ext; [|apply (ends_const (Ok []))]. intros f. destruct (str_in a _); [reflexivity|]. now rewrite str_id.
  - intros m a E. unfold get_node_attr_value. rewrite E. cbn [truthy].
    eapply ends_ext; [|apply (ends_const (Ok []))]. intros f. destruct (str_in a _); [reflexivity|]. now rewrite str_id.
Qed.
End Fuel.
