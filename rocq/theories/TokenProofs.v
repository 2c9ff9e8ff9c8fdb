(** Proofs about [Tokens]. *)

From Coq Require Import String List NArith Bool Lia Arith.
From Verif Require Import PyStr PyStrFacts Tokens TokenSpec.
Import ListNotations.

Lemma lit_prefix : lit "${" = TOKEN_PREFIX. Proof. reflexivity. Qed.
Lemma lit_suffix : lit "}" = TOKEN_SUFFIX. Proof. reflexivity. Qed.
Lemma tok_make c : tok c = make_token_str c. Proof. reflexivity. Qed.

Opaque lit.

(** *** C09 *)
Lemma token_content_round_trip c : get_token_content (make_token_str c) = c.
Proof.
  unfold get_token_content, make_token_str.
  assert (P : partition TOKEN_PREFIX (TOKEN_PREFIX ++ c ++ TOKEN_SUFFIX)
              = ([], TOKEN_PREFIX, c ++ TOKEN_SUFFIX)).
  { apply (partition_first TOKEN_PREFIX [] (c ++ TOKEN_SUFFIX)).
    intros [|] [|]; discriminate || congruence. }
  rewrite P. unfold TOKEN_SUFFIX.
  rewrite rpartition_char_found; auto.
Qed.

(** *** C11: the scanner *)

Definition is_open (c : N) (rest : pystr) : bool :=
  N.eqb c DOLLAR && match rest with c2 :: _ => N.eqb c2 LBRACE | [] => false end.

Lemma is_open_false c s : not_opening c s -> is_open c s = false.
Proof.
  intros H. unfold is_open. destruct (N.eqb_spec c DOLLAR) as [->|]; auto.
  destruct s as [|c2 s]; auto. cbn.
  destruct (N.eqb_spec c2 LBRACE) as [->|]; auto.
  exfalso. apply H. exists s. now rewrite lit_prefix.
Qed.

Lemma is_open_app c s r :
  is_open c s = false -> (forall t, r <> LBRACE :: t) -> is_open c (s ++ r) = false.
Proof.
  unfold is_open. destruct (N.eqb c DOLLAR); cbn; auto.
  destruct s as [|c2 s]; auto. intros _ H.
  destruct r as [|c2 r]; auto. cbn.
  destruct (N.eqb_spec c2 LBRACE) as [->|]; auto. now destruct (H r).
Qed.

Lemma is_open_not c s : is_open c s = false -> not_opening c s.
Proof.
  intros H (r & E). rewrite lit_prefix in E. injection E as -> ->.
  cbn in H. discriminate.
Qed.

Lemma is_open_true c s : is_open c s = true -> c = DOLLAR /\ exists r, s = LBRACE :: r.
Proof.
  unfold is_open. intros H. apply andb_true_iff in H as [H1 H2].
  apply N.eqb_eq in H1. split; auto. destruct s as [|c2 s]; [discriminate|].
  apply N.eqb_eq in H2 as ->. eauto.
Qed.

(** One step of the scanner, by cases. *)
Lemma scan_open rest i s e o bs :
  S s <> e ->
  scan (DOLLAR :: LBRACE :: rest) i s e o bs
  = scan rest (S (S i)) (S s) e (if Nat.eqb s 0 then i else o) bs.
Proof.
  intros He. cbn [scan].
  replace (N.eqb DOLLAR DOLLAR) with true by reflexivity.
  replace (N.eqb LBRACE LBRACE) with true by reflexivity.
  replace (N.eqb LBRACE DOLLAR) with false by reflexivity.
  replace (N.eqb LBRACE RBRACE) with false by reflexivity.
  cbn [andb].
  assert (Hn : Nat.eqb (S s) e = false) by now apply Nat.eqb_neq.
  cbn [scan].
  repeat rewrite ?Hn, ?andb_false_r; cbn [andb Nat.eqb negb]; reflexivity.
Qed.

Lemma scan_plain c rest i s e o bs :
  is_open c rest = false -> (c <> RBRACE \/ s = 0) -> (s = 0 \/ s <> e) ->
  scan (c :: rest) i s e o bs = scan rest (S i) s e o bs.
Proof.
  intros Ho Hc Hse. cbn [scan]. unfold is_open in Ho. rewrite Ho.
  assert (H1 : negb (Nat.eqb s 0) && N.eqb c RBRACE = false).
  { destruct Hc as [Hc| ->]; [|reflexivity].
    apply N.eqb_neq in Hc. rewrite Hc. apply andb_false_r. }
  rewrite H1.
  assert (H2 : Nat.ltb 0 s && Nat.eqb s e = false).
  { destruct Hse as [->|Hse]; [reflexivity|].
    apply Nat.eqb_neq in Hse. rewrite Hse. apply andb_false_r. }
  now rewrite H2.
Qed.

Lemma scan_close rest i s e o bs :
  0 < s ->
  scan (RBRACE :: rest) i s e o bs
  = if Nat.eqb s (S e) then scan rest (S i) 0 0 0 (bs ++ [(o, S i)])
    else scan rest (S i) s (S e) o bs.
Proof.
  intros Hs. cbn [scan].
  replace (N.eqb RBRACE DOLLAR) with false by reflexivity. cbn [andb].
  replace (N.eqb RBRACE RBRACE) with true by reflexivity.
  assert (H : Nat.eqb s 0 = false) by (apply Nat.eqb_neq; lia).
  rewrite H. cbn [negb andb].
  assert (H2 : Nat.ltb 0 s = true) by (apply Nat.ltb_lt; lia).
  rewrite H2. reflexivity.
Qed.

Lemma tok_app b r : tok b ++ r = DOLLAR :: LBRACE :: b ++ RBRACE :: r.
Proof.
  unfold tok. rewrite lit_prefix, lit_suffix.
  unfold TOKEN_PREFIX, TOKEN_SUFFIX. rewrite <- !app_assoc. reflexivity.
Qed.

Lemma tok_length b : length (tok b) = length b + 3.
Proof.
  unfold tok. rewrite lit_prefix, lit_suffix, !app_length. cbn. lia.
Qed.

Lemma scan_body b :
  body b -> forall r i s e o bs,
  e < s -> (forall t, r <> LBRACE :: t) ->
  exists k, scan (b ++ r) i s e o bs
            = scan r (i + length b) (s + k) (e + k) o bs.
Proof.
  induction 1 as [|c b Hc Hop Hb IH|b1 b2 Hb1 IH1 Hb2 IH2];
    intros r i s e o bs Hlt Hr.
  - exists 0. cbn. now rewrite !Nat.add_0_r.
  - cbn [app]. rewrite scan_plain.
    + destruct (IH r (S i) s e o bs Hlt Hr) as [k ->]. exists k.
      cbn [length]. now rewrite Nat.add_succ_r.
    + apply is_open_app; auto. now apply is_open_false.
    + left. intros ->. apply Hc. now rewrite lit_suffix.
    + right. lia.
  - rewrite <- app_assoc, tok_app.
    rewrite scan_open by lia.
    destruct (IH1 (RBRACE :: b2 ++ r) (S (S i)) (S s) e
                  (if Nat.eqb s 0 then i else o) bs) as [k1 ->];
      [lia | intros t Ht; discriminate |].
    rewrite scan_close by lia.
    assert (Hn : Nat.eqb (S s + k1) (S (e + k1)) = false)
      by (apply Nat.eqb_neq; lia).
    rewrite Hn.
    destruct (IH2 r (S (S (S i) + length b1)) (S s + k1) (S (e + k1))
                  (if Nat.eqb s 0 then i else o) bs) as [k2 ->]; auto; [lia|].
    exists (S k1 + k2).
    assert (Hs : Nat.eqb s 0 = false) by (apply Nat.eqb_neq; lia).
    rewrite Hs, app_length, tok_length.
    f_equal; lia.
Qed.

Lemma scan_tok b r i o bs :
  body b ->
  scan (tok b ++ r) i 0 0 o bs
  = scan r (i + length (tok b)) 0 0 0 (bs ++ [(i, i + length (tok b))]).
Proof.
  intros Hb. rewrite tok_app, scan_open by lia. cbn [Nat.eqb].
  destruct (scan_body b Hb (RBRACE :: r) (S (S i)) 1 0 i bs) as [k ->];
    [lia | intros t Ht; discriminate |].
  rewrite scan_close by lia.
  assert (E : Nat.eqb (1 + k) (S (0 + k)) = true) by (apply Nat.eqb_eq; lia).
  rewrite E, tok_length.
  replace (S (S (S i) + length b)) with (i + (length b + 3)) by lia.
  reflexivity.
Qed.

Lemma slice_mid pre t post :
  slice (length pre) (length pre + length t) (pre ++ t ++ post) = t.
Proof.
  unfold slice. rewrite skipn_app_exact.
  replace (length pre + length t - length pre) with (length t) by lia.
  apply firstn_app_exact.
Qed.

Lemma scan_parse p ts :
  parse p ts -> forall pre r o bs,
  (forall t, r <> LBRACE :: t) ->
  exists bs' o', scan (p ++ r) (length pre) 0 0 o bs
              = scan r (length pre + length p) 0 0 o' (bs ++ bs') /\
              map (fun b => slice (fst b) (snd b) (pre ++ p ++ r)) bs' = ts.
Proof.
  induction 1 as [|c p ts Hop Hp IH|b p ts Hb Hp IH]; intros pre r o bs Hr.
  - exists [], o. cbn. rewrite Nat.add_0_r, app_nil_r. auto.
  - cbn [app]. rewrite scan_plain; auto.
    2:{ apply is_open_app; auto. now apply is_open_false. }
    destruct (IH (pre ++ [c]) r o bs Hr) as (bs' & o' & E & Hm).
    exists bs', o'. rewrite app_length in E. cbn in E.
    rewrite Nat.add_1_r in E. rewrite E. split.
    + cbn [length]. f_equal. lia.
    + rewrite <- app_assoc in Hm. exact Hm.
  - rewrite <- app_assoc, scan_tok by auto.
    destruct (IH (pre ++ tok b) r 0 (bs ++ [(length pre, length pre + length (tok b))]) Hr)
      as (bs' & o' & E & Hm).
    rewrite app_length in E. rewrite E.
    exists ((length pre, length pre + length (tok b)) :: bs'), o'. split.
    + rewrite app_length, <- app_assoc. f_equal. lia.
    + cbn [map fst snd]. rewrite slice_mid. f_equal.
      rewrite <- app_assoc in Hm. exact Hm.
Qed.

Lemma standalone_of_parse s ts prefixes :
  parse s ts -> get_standalone_tokens s prefixes = filter (keep_token prefixes) ts.
Proof.
  intros H. unfold get_standalone_tokens.
  destruct s as [|c s'] eqn:Es.
  - inversion H as [| |b ? ? ? ? E]; subst; auto.
  - rewrite <- Es in *. clear Es.
    destruct (scan_parse s ts H [] [] 0 []) as (bs' & o' & E & Hm);
      [discriminate|].
    rewrite !app_nil_r in E, Hm. cbn [length app] in E, Hm.
    cbn [scan] in E. rewrite E. cbn. now rewrite Hm.
Qed.

Lemma keep_all t : (exists b, t = tok b) -> keep_token ALL_PREFIXES t = true.
Proof.
  intros (b & ->). unfold keep_token, ALL_PREFIXES. cbn [existsb].
  unfold ATTR_PREFIX. rewrite app_nil_r.
  assert (H : startswith TOKEN_PREFIX (tok b) = true) by reflexivity.
  rewrite H. now rewrite !orb_true_r.
Qed.

Lemma parse_toks s ts : parse s ts -> Forall (fun t => exists b, t = tok b /\ body b) ts.
Proof. induction 1; auto. constructor; eauto. Qed.

Lemma standalone_all s ts :
  parse s ts -> get_standalone_tokens s ALL_PREFIXES = ts.
Proof.
  intros H. rewrite (standalone_of_parse s ts) by auto.
  pose proof (parse_toks s ts H) as Hf. clear H.
  induction Hf as [|t ts (b & -> & _) Hf IH]; auto.
  cbn [filter]. rewrite keep_all by eauto. now rewrite IH.
Qed.

(** Unclosed tokens. *)
Lemma scan_open_body b :
  open_body b -> forall i s e o bs,
  e < s -> exists s' e' bs', scan b i s e o bs = (s', e', bs') /\ e' < s'.
Proof.
  induction 1 as [b Hb|b t Hb Ht IH]; intros i s e o bs Hlt.
  - destruct (scan_body b Hb [] i s e o bs Hlt) as [k E]; [discriminate|].
    rewrite app_nil_r in E. rewrite E. cbn [scan].
    exists (s + k), (e + k), bs. split; auto. lia.
  - rewrite lit_prefix. unfold TOKEN_PREFIX.
    destruct (scan_body b Hb ([DOLLAR; LBRACE] ++ t) i s e o bs Hlt) as [k E];
      [discriminate|].
    rewrite E. cbn [app]. rewrite scan_open by lia.
    apply IH. lia.
Qed.

Lemma standalone_unclosed s prefixes :
  unclosed s -> get_standalone_tokens s prefixes = [].
Proof.
  intros (p & ts & b & Hp & Hb & ->). unfold get_standalone_tokens.
  destruct (p ++ lit "${" ++ b) as [|c s'] eqn:Es; auto.
  rewrite <- Es. clear Es. rewrite lit_prefix.
  destruct (scan_parse p ts Hp [] (TOKEN_PREFIX ++ b) 0 []) as (bs' & o' & E & _);
    [discriminate|].
  cbn [length] in E. rewrite E. unfold TOKEN_PREFIX. cbn [app].
  rewrite scan_open by lia.
  destruct (scan_open_body b Hb (S (S (0 + length p))) 1 0 (0 + length p) bs')
    as (s2 & e2 & bs2 & E2 & Hlt); [lia|].
  cbn [Nat.eqb]. rewrite E2.
  assert (Hn : Nat.eqb s2 e2 = false) by (apply Nat.eqb_neq; lia).
  now rewrite Hn.
Qed.

(** Every string is classified. *)
Lemma open_body_char c s :
  [c] <> lit "}" -> is_open c s = false -> open_body s -> open_body (c :: s).
Proof.
  intros Hc Ho H. revert Ho. induction H as [b Hb|b t Hb Ht IH]; intros Ho.
  - apply open_end. constructor; auto. now apply is_open_not.
  - change (c :: b ++ lit "${" ++ t) with ((c :: b) ++ lit "${" ++ t).
    apply open_nest; auto. constructor; auto.
    apply is_open_not. destruct b as [|x b]; auto.
Qed.

Lemma open_body_tok b s : body b -> open_body s -> open_body (tok b ++ s).
Proof.
  intros Hb H. induction H as [b2 Hb2|b2 t Hb2 Ht IH].
  - apply open_end. now constructor.
  - rewrite app_assoc. apply open_nest; auto. now constructor.
Qed.

Lemma inside_classified n s :
  length s <= n ->
  (exists b r, s = b ++ lit "}" ++ r /\ body b) \/ open_body s.
Proof.
  revert s. induction n as [|n IH]; intros s Hl.
  - destruct s; [|cbn in Hl; lia]. right. apply open_end. constructor.
  - destruct s as [|c t]; [right; apply open_end; constructor|].
    cbn in Hl. destruct (N.eq_dec c RBRACE) as [->|Hc].
    { left. exists [], t. rewrite lit_suffix. split; [reflexivity|constructor]. }
    destruct (is_open c t) eqn:Ho.
    + apply is_open_true in Ho as (-> & t' & ->). cbn in Hl.
      destruct (IH t') as [(b1 & r1 & -> & Hb1)|Hopen]; [lia| |].
      * rewrite !app_length in Hl.
        destruct (IH r1) as [(b2 & r2 & -> & Hb2)|Hopen2]; [lia| |].
        -- left. exists (tok b1 ++ b2), r2. split; [|now constructor].
           rewrite <- app_assoc, tok_app, lit_suffix. reflexivity.
        -- right. replace (DOLLAR :: LBRACE :: b1 ++ lit "}" ++ r1)
             with (tok b1 ++ r1) by (rewrite tok_app, lit_suffix; reflexivity).
           now apply open_body_tok.
      * right. change (DOLLAR :: LBRACE :: t') with ([] ++ TOKEN_PREFIX ++ t').
        rewrite <- lit_prefix. apply open_nest; [constructor|auto].
    + assert (Hc' : [c] <> lit "}") by (rewrite lit_suffix; intros E; injection E as E; auto).
      destruct (IH t) as [(b & r & -> & Hb)|Hopen]; [lia| |].
      * left. exists (c :: b), r. split; auto. constructor; auto.
        apply is_open_not. destruct b as [|x b].
        -- unfold is_open. apply andb_false_r.
        -- unfold is_open in *. now destruct (N.eqb c DOLLAR).
      * right. now apply open_body_char.
Qed.

Lemma classified n s :
  length s <= n -> (exists ts, parse s ts) \/ unclosed s.
Proof.
  revert s. induction n as [|n IH]; intros s Hl.
  - destruct s; [|cbn in Hl; lia]. left. exists []. constructor.
  - destruct s as [|c t]; [left; exists []; constructor|].
    cbn in Hl. destruct (is_open c t) eqn:Ho.
    + apply is_open_true in Ho as (-> & t' & ->). cbn in Hl.
      destruct (inside_classified (length t') t' (le_n _))
        as [(b & r & -> & Hb)|Hopen].
      * rewrite !app_length in Hl.
        replace (DOLLAR :: LBRACE :: b ++ lit "}" ++ r) with (tok b ++ r)
          by (rewrite tok_app, lit_suffix; reflexivity).
        destruct (IH r) as [(ts & Hp)|(p & ts & b2 & Hp & Hb2 & ->)]; [lia| |].
        -- left. exists (tok b :: ts). now constructor.
        -- right. exists (tok b ++ p), (tok b :: ts), b2.
           split; [now constructor|]. split; auto. now rewrite <- app_assoc.
      * right. exists [], [], t'. split; [constructor|]. split; auto.
    + destruct (IH t) as [(ts & Hp)|(p & ts & b2 & Hp & Hb2 & ->)]; [lia| |].
      * left. exists ts. constructor; auto. now apply is_open_not.
      * right. exists (c :: p), ts, b2. split; [|split; auto].
        constructor; auto. apply is_open_not.
        destruct p as [|x p]; unfold is_open in *; [apply andb_false_r|].
        now destruct (N.eqb c DOLLAR).
Qed.

Lemma token_text_classified s : (exists ts, parse s ts) \/ unclosed s.
Proof. now apply (classified (length s)). Qed.

Lemma parse_function s ts1 ts2 : parse s ts1 -> parse s ts2 -> ts1 = ts2.
Proof.
  intros H1 H2. apply standalone_all in H1. apply standalone_all in H2. congruence.
Qed.

Lemma parse_concat s ts :
  parse s ts ->
  exists texts, length texts = S (length ts) /\
  s = hd [] texts ++ concat (map (fun p => fst p ++ snd p) (combine ts (tl texts))).
Proof.
  induction 1 as [|c s ts Ho Hp (texts & Hl & E)|b s ts Hb Hp (texts & Hl & E)].
  - exists [[]]. auto.
  - destruct texts as [|t0 texts]; [discriminate|].
    exists ((c :: t0) :: texts). split; auto. cbn in *. now rewrite E.
  - exists ([] :: texts). split; [cbn; lia|]. cbn [hd tl app].
    destruct texts as [|t0 texts]; [discriminate|].
    cbn in *. rewrite E at 1. now rewrite <- !app_assoc.
Qed.

(** *** C10 *)
Lemma partition_suffix_spec a tkn sep2 after :
  partition TOKEN_SUFFIX a = (tkn, sep2, after) ->
  (sep2 = TOKEN_SUFFIX /\ a = tkn ++ TOKEN_SUFFIX ++ after /\ ~ In RBRACE tkn)
  \/ (sep2 = [] /\ ~ In RBRACE a).
Proof.
  intros H. apply partition_spec in H as [(-> & -> & Hf)|(-> & -> & -> & Hc)].
  - left. repeat split; auto. intros Hi. apply in_split in Hi as (u & v & ->).
    specialize (Hf u (RBRACE :: v) eq_refl ltac:(discriminate)).
    cbn in Hf. discriminate.
  - right. split; auto. now apply contains_char_false in Hc.
Qed.

Lemma atomic_partition_spec v before t after :
  atomic_token_partition v = Some (before, t, after) ->
  v = before ++ t ++ after /\ atomic t /\
  exists c, t = tok c /\ contains (lit "${") (c ++ lit "}" ++ after) = false.
Proof.
  unfold atomic_token_partition, rpartition.
  destruct (rpartition_opt TOKEN_PREFIX v) as [[b a]|] eqn:E; [|discriminate].
  cbn [TOKEN_PREFIX].
  apply rpartition_opt_some in E as [-> Hl].
  specialize (Hl ltac:(discriminate)).
  destruct (partition TOKEN_SUFFIX a) as [[tkn sep2] aft] eqn:P.
  apply partition_suffix_spec in P as [(-> & -> & Hn)|(-> & Hn)]; [|discriminate].
  cbn [TOKEN_SUFFIX]. intros H; injection H as <- <- <-.
  assert (Hno : contains TOKEN_PREFIX (tkn ++ TOKEN_SUFFIX ++ aft) = false).
  { cbn [TOKEN_PREFIX app tl contains] in Hl.
    apply orb_false_iff in Hl as [_ Hl]. exact Hl. }
  split; [|split].
  - unfold make_token_str. now rewrite <- !app_assoc.
  - exists tkn. split; [reflexivity|]. rewrite lit_prefix, lit_suffix.
    split.
    + destruct (contains TOKEN_PREFIX tkn) eqn:C; auto.
      apply contains_iff in C as (x & y & ->).
      assert (contains TOKEN_PREFIX ((x ++ TOKEN_PREFIX ++ y) ++ TOKEN_SUFFIX ++ aft) = true).
      { apply contains_iff. exists x, (y ++ TOKEN_SUFFIX ++ aft).
        now rewrite <- !app_assoc. }
      congruence.
    + now apply contains_char_false.
  - exists tkn. rewrite lit_prefix, lit_suffix. split; [reflexivity|auto].
Qed.

Lemma atomic_partition_none v :
  atomic_token_partition v = None <->
  (contains (lit "${") v = false \/
   exists b c, v = b ++ lit "${" ++ c /\ contains (lit "}") c = false).
Proof.
  rewrite lit_prefix, lit_suffix. unfold atomic_token_partition, rpartition.
  destruct (rpartition_opt TOKEN_PREFIX v) as [[b a]|] eqn:E.
  - assert (Hc : contains TOKEN_PREFIX v = true).
    { destruct (contains TOKEN_PREFIX v) eqn:C; auto.
      apply rpartition_opt_none in C. congruence. }
    apply rpartition_opt_some in E as [-> Hl]. cbn [TOKEN_PREFIX].
    destruct (partition TOKEN_SUFFIX a) as [[tkn sep2] aft] eqn:P.
    apply partition_suffix_spec in P as [(-> & -> & Hn)|(-> & Hn)].
    + cbn [TOKEN_SUFFIX]. split; [discriminate|].
      intros [H|(b' & c & H & Hnc)]; [congruence|]. exfalso.
      (* the last start is ours; [c] would have to contain the suffix *)
      apply contains_char_false in Hnc.
      specialize (Hl ltac:(discriminate)).
      cbn [TOKEN_PREFIX app tl contains] in Hl.
      apply orb_false_iff in Hl as [_ Hl].
      fold TOKEN_PREFIX in *.
      assert (Hin : In RBRACE (tkn ++ RBRACE :: aft)) by (apply in_or_app; right; now left).
      (* compare the two decompositions by length *)
      destruct (le_gt_dec (length b') (length b)) as [Hle|Hgt].
      * (* b is at least as long: c is longer than ours, contains the brace *)
        assert (Hpre : exists x, b ++ TOKEN_PREFIX = b' ++ x /\ x ++ tkn ++ RBRACE :: aft = TOKEN_PREFIX ++ c).
        { assert (Hb : b' = firstn (length b') (b ++ TOKEN_PREFIX ++ tkn ++ [RBRACE] ++ aft)).
          { change TOKEN_SUFFIX with [RBRACE] in H. rewrite H.
            now rewrite firstn_app_exact. }
          rewrite firstn_app in Hb. replace (length b' - length b) with 0 in Hb by lia.
          cbn [firstn] in Hb. rewrite app_nil_r in Hb.
          exists (skipn (length b') b ++ TOKEN_PREFIX). split.
          - rewrite Hb at 1. rewrite app_assoc, firstn_skipn. reflexivity.
          - rewrite <- app_assoc.
            change TOKEN_SUFFIX with [RBRACE] in H.
            rewrite <- (firstn_skipn (length b') b) in H at 1.
            rewrite <- Hb, <- app_assoc in H. apply app_inv_head in H.
            rewrite <- H. reflexivity. }
        destruct Hpre as (x & _ & Hx).
        assert (Hin2 : In RBRACE (TOKEN_PREFIX ++ c)).
        { rewrite <- Hx. apply in_or_app. now right. }
        apply in_app_or in Hin2 as [Hin2|Hin2]; [|auto].
        cbn in Hin2. destruct Hin2 as [|[|[]]]; discriminate.
      * (* b' is longer: its start lies inside our tail *)
        assert (Hx : exists x, b' = b ++ x /\ x <> []).
        { exists (skipn (length b) b'). split.
          - rewrite <- (firstn_skipn (length b) b') at 1. f_equal.
            assert (Hb : firstn (length b) (b ++ TOKEN_PREFIX ++ tkn ++ TOKEN_SUFFIX ++ aft) = b)
              by apply firstn_app_exact.
            rewrite H, firstn_app in Hb.
            replace (length b - length b') with 0 in Hb by lia.
            cbn [firstn] in Hb. now rewrite app_nil_r in Hb.
          - intros Hn0. assert (length (skipn (length b) b') = 0) by now rewrite Hn0.
            rewrite skipn_length in *. lia. }
        destruct Hx as (x & -> & Hxne). rewrite <- app_assoc in H.
        apply app_inv_head in H. destruct x as [|y x]; [congruence|].
        cbn [TOKEN_PREFIX app] in H. injection H as <- H.
        assert (contains TOKEN_PREFIX (LBRACE :: tkn ++ TOKEN_SUFFIX ++ aft) = true).
        { apply contains_iff. exists x, c. exact H. }
        cbn [contains] in H0. apply orb_true_iff in H0 as [H0|H0]; [discriminate|].
        congruence.
    + split; [|reflexivity]. intros _. right. exists b, a.
      split; auto. now apply contains_char_false.
  - split; [|reflexivity]. intros _. left. now apply rpartition_opt_none.
Qed.

(** *** C12 *)
Lemma atomic_partition_shorter v b t a :
  atomic_token_partition v = Some (b, t, a) ->
  length b + 3 <= length v /\ length a + 3 <= length v.
Proof.
  intros H. apply atomic_partition_spec in H as (-> & (c & -> & _) & _).
  rewrite !app_length, tok_length. lia.
Qed.

Lemma atomic_tokens_terminate f v :
  length v < f -> exists l, get_atomic_tokens_fuel f v = Some l.
Proof.
  revert v. induction f as [|f IH]; intros v Hl; [lia|].
  cbn [get_atomic_tokens_fuel].
  destruct (atomic_token_partition v) as [[[b t] a]|] eqn:E; [|eauto].
  apply atomic_partition_shorter in E as [H1 H2].
  destruct (IH b) as [lb Eb]; [lia|]. destruct (IH a) as [la Ea]; [lia|].
  rewrite Eb, Ea. destruct b, a; eauto.
Qed.

Lemma atomic_tokens_mono f g v l :
  get_atomic_tokens_fuel f v = Some l -> f <= g ->
  get_atomic_tokens_fuel g v = Some l.
Proof.
  revert g v l. induction f as [|f IH]; intros g v l H Hle; [discriminate|].
  destruct g as [|g]; [lia|]. cbn [get_atomic_tokens_fuel] in *.
  destruct (atomic_token_partition v) as [[[b t] a]|]; auto.
  assert (Hb : forall l, match b with [] => Some [] | _ => get_atomic_tokens_fuel f b end = Some l ->
               match b with [] => Some [] | _ => get_atomic_tokens_fuel g b end = Some l).
  { destruct b; auto. intros l0 H0. apply (IH g); auto. lia. }
  assert (Ha : forall l, match a with [] => Some [] | _ => get_atomic_tokens_fuel f a end = Some l ->
               match a with [] => Some [] | _ => get_atomic_tokens_fuel g a end = Some l).
  { destruct a; auto. intros l0 H0. apply (IH g); auto. lia. }
  destruct (match b with [] => Some [] | _ => get_atomic_tokens_fuel f b end) as [lb|] eqn:Eb;
    [|discriminate].
  destruct (match a with [] => Some [] | _ => get_atomic_tokens_fuel f a end) as [la|] eqn:Ea;
    [|discriminate].
  now rewrite (Hb lb eq_refl), (Ha la eq_refl).
Qed.

Lemma substring_trans_app a b t : substring t a -> substring t (a ++ b).
Proof. intros (x & y & ->). exists x, (y ++ b). now rewrite <- !app_assoc. Qed.
Lemma substring_app_r a b t : substring t b -> substring t (a ++ b).
Proof. intros (x & y & ->). exists (a ++ x), y. now rewrite <- !app_assoc. Qed.

Lemma atomic_tokens_sound f v l :
  get_atomic_tokens_fuel f v = Some l ->
  forall t, In t l -> atomic t /\ substring t v.
Proof.
  revert v l. induction f as [|f IH]; intros v l H t Ht; [discriminate|].
  cbn [get_atomic_tokens_fuel] in H.
  destruct (atomic_token_partition v) as [[[b t0] a]|] eqn:E.
  2:{ injection H as <-. destruct Ht. }
  destruct (match b with [] => Some [] | _ => get_atomic_tokens_fuel f b end) as [lb|] eqn:Eb;
    [|discriminate].
  destruct (match a with [] => Some [] | _ => get_atomic_tokens_fuel f a end) as [la|] eqn:Ea;
    [|discriminate].
  injection H as <-.
  apply atomic_partition_spec in E as (-> & Hat & _).
  destruct Ht as [<-|Ht].
  - split; auto. exists b, a. reflexivity.
  - apply in_app_or in Ht as [Ht|Ht].
    + destruct b as [|x b]; [injection Eb as <-; destruct Ht|].
      destruct (IH _ _ Eb t Ht) as [H1 H2]. split; auto.
      now apply substring_trans_app.
    + destruct a as [|x a]; [injection Ea as <-; destruct Ht|].
      destruct (IH _ _ Ea t Ht) as [H1 H2]. split; auto.
      apply substring_app_r. now apply substring_app_r.
Qed.

(** At least one token is found whenever the last start is closed. *)
Lemma atomic_tokens_nonempty f v :
  get_atomic_tokens_fuel f v = Some [] -> atomic_token_partition v = None.
Proof.
  destruct f; [discriminate|]. cbn [get_atomic_tokens_fuel].
  destruct (atomic_token_partition v) as [[[b t] a]|]; auto.
  destruct b; [|destruct (get_atomic_tokens_fuel f (n :: b)); [|discriminate]];
    (destruct a as [|x a]; [|destruct (get_atomic_tokens_fuel f (x :: a)); [|discriminate]]);
    discriminate.
Qed.

(** Flat text: no token is nested in another. *)
Lemma contains_app_char sub a c b :
  ~ In c sub -> contains sub a = false -> contains sub b = false ->
  contains sub (a ++ c :: b) = false.
Proof.
  intros Hn Ha Hb. destruct (contains sub (a ++ c :: b)) eqn:E; auto.
  apply contains_iff in E as (x & y & E).
  exfalso. apply app_eq_app in E as (l & [(-> & E2)|(-> & E2)]).
  - symmetry in E2. apply app_eq_app in E2 as (m & [(E3 & E4)|(E3 & E4)]).
    + subst l. assert (contains sub (x ++ sub ++ m) = true)
        by (apply contains_iff; now exists x, m).
      congruence.
    + (* sub = l ++ m, c :: b starts with m *)
      destruct m as [|z m].
      * rewrite app_nil_r in E3. subst l.
        assert (contains sub (x ++ sub) = true)
          by (apply contains_iff; exists x, []; now rewrite app_nil_r).
        congruence.
      * injection E4 as -> ->. apply Hn. subst sub. apply in_or_app. right. now left.
  - destruct l as [|z l]; cbn in E2.
    + destruct sub as [|s0 sub].
      * destruct b; cbn in Hb; discriminate.
      * injection E2 as -> ->. apply Hn. now left.
    + injection E2 as -> ->.
      assert (contains sub (l ++ sub ++ y) = true)
        by (apply contains_iff; now exists l, y).
      congruence.
Qed.

Lemma atomic_partition_last pre c txt :
  contains TOKEN_PREFIX c = false -> contains TOKEN_SUFFIX c = false ->
  contains TOKEN_PREFIX txt = false ->
  atomic_token_partition (pre ++ tok c ++ txt) = Some (pre, tok c, txt).
Proof.
  intros H1 H2 H3. unfold atomic_token_partition, rpartition.
  replace (pre ++ tok c ++ txt) with (pre ++ TOKEN_PREFIX ++ (c ++ RBRACE :: txt))
    by (now rewrite tok_app).
  rewrite rpartition_opt_last.
  - cbn [TOKEN_PREFIX]. unfold TOKEN_SUFFIX. rewrite partition_char_found; auto.
    now apply contains_char_false.
  - cbn [TOKEN_PREFIX app tl].
    change (LBRACE :: c ++ RBRACE :: txt) with ([LBRACE] ++ c ++ RBRACE :: txt).
    assert (Hx : contains TOKEN_PREFIX (c ++ RBRACE :: txt) = false).
    { apply contains_app_char; auto. intros [|[|[]]]; discriminate. }
    cbn [app contains]. rewrite Hx. reflexivity.
  - discriminate.
Qed.

Lemma atomic_partition_flat_nil txt :
  contains TOKEN_PREFIX txt = false -> atomic_token_partition txt = None.
Proof. intros H. apply atomic_partition_none. now left. Qed.

Lemma atomic_tokens_flat t0 (segs : list (pystr * pystr)) f :
  contains TOKEN_PREFIX t0 = false ->
  Forall (fun p => contains TOKEN_PREFIX (fst p) = false /\
                   contains TOKEN_SUFFIX (fst p) = false /\
                   contains TOKEN_PREFIX (snd p) = false) segs ->
  let s := t0 ++ concat (map (fun p => tok (fst p) ++ snd p) segs) in
  length s < f ->
  get_atomic_tokens_fuel f s = Some (rev (map (fun p => tok (fst p)) segs)).
Proof.
  intros H0 Hs. revert f. induction segs as [|[c txt] segs IH] using rev_ind; intros f s Hf.
  - destruct f; [lia|]. subst s. cbn [map concat rev] in *. rewrite app_nil_r in *.
    cbn [get_atomic_tokens_fuel]. now rewrite atomic_partition_flat_nil.
  - destruct f; [lia|].
    apply Forall_app in Hs as [Hs Hc]. apply Forall_inv in Hc as (H1 & H2 & H3).
    cbn [fst snd] in *. specialize (IH Hs).
    assert (Es : s = (t0 ++ concat (map (fun p => tok (fst p) ++ snd p) segs)) ++ tok c ++ txt).
    { subst s. rewrite map_app, concat_app, <- app_assoc. cbn. now rewrite app_nil_r. }
    clearbody s. subst s. cbn [get_atomic_tokens_fuel].
    rewrite atomic_partition_last by auto.
    rewrite map_app, rev_app_distr. cbn [map rev app].
    set (p := t0 ++ concat (map (fun p => tok (fst p) ++ snd p) segs)) in *.
    rewrite !app_length, tok_length in Hf.
    assert (Hp : get_atomic_tokens_fuel f p = Some (rev (map (fun p => tok (fst p)) segs)))
      by (apply IH; lia).
    assert (Ht : match txt with [] => Some [] | _ => get_atomic_tokens_fuel f txt end = Some []).
    { destruct txt; auto. destruct f; [lia|]. cbn [get_atomic_tokens_fuel].
      now rewrite atomic_partition_flat_nil. }
    rewrite Ht.
    assert (Hb : match p with [] => Some [] | _ => get_atomic_tokens_fuel f p end
                 = Some (rev (map (fun p => tok (fst p)) segs))).
    { destruct p eqn:Ep; auto. destruct f; [lia|]. rewrite <- Hp. reflexivity. }
    rewrite Hb. cbn [fst]. now rewrite app_nil_r.
Qed.
