(** Proofs about names (C26). *)

From Coq Require Import String List NArith Bool Lia Arith FinFun.
From Verif Require Import PyStr PyStrFacts NxtPath PathSpec PathProofs PyVal NodeIO Names NamesSpec.
Import ListNotations.

Lemma str_in_not x l : str_in x l = false -> ~ In x l.
Proof. intros H Hi. apply str_in_In in Hi. congruence. Qed.

(** *** Decimal numbers *)

Lemma dec_aux_app fuel : forall n acc, dec_aux fuel n acc = dec_aux fuel n [] ++ acc.
Proof.
  induction fuel as [|f IH]; intros n acc; [reflexivity|]. cbn [dec_aux].
  destruct (n / 10) as [|q] eqn:E; [reflexivity|].
  rewrite IH. rewrite (IH (S q) [_]). now rewrite <- app_assoc.
Qed.

Definition dval (s : pystr) : nat := fold_left (fun a c => 10 * a + digit_value c) s 0.

Lemma dval_snoc s c : dval (s ++ [c]) = 10 * dval s + digit_value c.
Proof. unfold dval. now rewrite fold_left_app. Qed.

Lemma digit_value_of n : n < 10 -> digit_value (48 + N.of_nat n) = n.
Proof. intros H. unfold digit_value. lia. Qed.

Lemma dec_aux_ok fuel : forall n, n < fuel ->
  let s := dec_aux fuel n [] in
  Forall (fun c => (48 <= c <= 57)%N) s /\ s <> [] /\ dval s = n /\
  (n = 0 -> s = [48%N]) /\ (n <> 0 -> hd 0%N s <> 48%N).
Proof.
  induction fuel as [|f IH]; intros n Hn; [lia|]. cbn [dec_aux].
  assert (Hm : n mod 10 < 10) by (apply Nat.mod_upper_bound; lia).
  assert (Hd : (48 <= 48 + N.of_nat (n mod 10) <= 57)%N) by lia.
  pose proof (Nat.div_mod n 10 ltac:(lia)) as Hdm.
  destruct (n / 10) as [|q] eqn:E.
  - split; [auto|]. split; [discriminate|].
    split; [cbn [dval fold_left]; unfold dval; cbn [fold_left]; rewrite digit_value_of; lia|].
    split; [intros ->; reflexivity|]. intros H. cbn [hd]. lia.
  - rewrite dec_aux_app.
    assert (Hq : S q < f) by (rewrite <- E; pose proof (Nat.div_lt n 10); lia).
    specialize (IH (S q) Hq) as (H1 & H2 & H3 & _ & H5).
    split; [apply Forall_app; auto|]. split; [intros H; destruct (app_eq_nil _ _ H); discriminate|].
    split; [rewrite dval_snoc, H3, digit_value_of; lia|].
    split; [lia|]. intros _.
    destruct (dec_aux f (S q) []) as [|c t]; [congruence|]. cbn [app hd] in *. apply H5. lia.
Qed.

Lemma dec_numeral n : numeral (dec n) n.
Proof.
  destruct (dec_aux_ok (S n) n ltac:(lia)) as (H1 & H2 & H3 & H4 & H5).
  split; [exact H1|]. split; [exact H2|]. split; [|symmetry; exact H3].
  destruct (Nat.eq_dec n 0) as [Hz|Hz]; [left; exact (H4 Hz)|right; exact (H5 Hz)].
Qed.

(** Numerals of the same number are equal. *)
Lemma numeral_rev_unique : forall s t : pystr,
  Forall (fun c => (48 <= c <= 57)%N) s -> Forall (fun c => (48 <= c <= 57)%N) t ->
  (s = [] \/ hd 0%N s <> 48%N) -> (t = [] \/ hd 0%N t <> 48%N) ->
  dval s = dval t -> s = t.
Proof.
  assert (P : forall s : pystr, Forall (fun c => (48 <= c <= 57)%N) s -> hd 0%N s <> 48%N ->
              s <> [] -> 0 < dval s).
  { intros s. induction s as [|c s IH] using rev_ind; [congruence|]. intros H Hh _.
    rewrite dval_snoc. apply Forall_app in H as [H Hc]. inversion Hc as [|? ? Hc' _]; subst.
    destruct s as [|d s]; [cbn in Hh; unfold digit_value; cbn; lia|].
    cbn [app hd] in Hh. assert (0 < dval (d :: s)) by (apply IH; [exact H|exact Hh|discriminate]). lia. }
  intros s. induction s as [|c s IH] using rev_ind; intros t Hs Ht Hhs Hht E.
  - destruct t as [|d t]; [reflexivity|]. destruct Hht as [Hht|Hht]; [discriminate|].
    pose proof (P _ Ht Hht ltac:(discriminate)) as Hp. change (dval []) with 0 in E. lia.
  - destruct t as [|d t] using rev_ind.
    + destruct Hhs as [Hhs|Hhs]; [destruct s; discriminate|].
      pose proof (P _ Hs Hhs ltac:(destruct s; discriminate)). change (dval []) with 0 in E. lia.
    + clear IHt. rewrite !dval_snoc in E.
      apply Forall_app in Hs as [Hs Hc]. apply Forall_app in Ht as [Ht Hd].
      inversion Hc as [|? ? Hc' _]; subst. inversion Hd as [|? ? Hd' _]; subst.
      assert (digit_value c < 10 /\ digit_value d < 10) as [? ?] by (unfold digit_value; lia).
      assert (digit_value c = digit_value d) as Ecd by lia.
      assert (c = d) by (unfold digit_value in Ecd; lia). subst d. f_equal.
      apply IH; [exact Hs|exact Ht| | |lia].
      * destruct s; [now left|right]. destruct Hhs as [Hhs|Hhs]; [discriminate|exact Hhs].
      * destruct t; [now left|right]. destruct Hht as [Hht|Hht]; [discriminate|exact Hht].
Qed.

Lemma numeral_unique s t n : numeral s n -> numeral t n -> s = t.
Proof.
  intros (H1 & H2 & H3 & H4) (K1 & K2 & K3 & K4).
  fold (dval s) in H4. fold (dval t) in K4. subst n.
  assert (Z : forall u, dval (48%N :: u) = dval u).
  { intros u. unfold dval. cbn [fold_left]. reflexivity. }
  destruct H3 as [->|H3], K3 as [->|K3]; [reflexivity| | |].
  - exfalso. assert (t = []); [|contradiction]. apply numeral_rev_unique; auto.
  - exfalso. assert (s = []); [|contradiction]. apply numeral_rev_unique; auto.
  - apply numeral_rev_unique; auto.
Qed.

Lemma numeral_dec s n : numeral s n -> s = dec n.
Proof. intros H. exact (numeral_unique _ _ _ H (dec_numeral n)). Qed.

Lemma dec_inj a b : dec a = dec b -> a = b.
Proof.
  intros E. destruct (dec_numeral a) as (_ & _ & _ & Ha), (dec_numeral b) as (_ & _ & _ & Hb).
  rewrite Ha, Hb. now rewrite E.
Qed.

Lemma numeral_inj s a b : numeral s a -> numeral s b -> a = b.
Proof. intros (_ & _ & _ & Ha) (_ & _ & _ & Hb). congruence. Qed.

(** *** Counting up *)

Lemma count_up_some taken base fuel : forall num test r,
  count_up taken base fuel num test = Some r ->
  taken r = false /\
  (r = test \/
   taken test = true /\ exists k, num < k /\ r = base ++ dec k /\
     forall j, num < j < k -> taken (base ++ dec j) = true).
Proof.
  induction fuel as [|f IH]; intros num test r E; cbn [count_up] in E;
    destruct (taken test) eqn:T.
  - discriminate.
  - injection E as <-. auto.
  - apply IH in E as (Hr & [->|(Ht & k & Hk & -> & Hj)]).
    + split; [exact Hr|]. right. split; [reflexivity|]. exists (S num). split; [lia|].
      split; [reflexivity|]. intros j Hj. lia.
    + split; [exact Hr|]. right. split; [reflexivity|]. exists k. split; [lia|].
      split; [reflexivity|]. intros j Hj'. destruct (Nat.eq_dec j (S num)) as [->|]; [exact Ht|].
      apply Hj. lia.
  - injection E as <-. auto.
Qed.

Lemma count_up_none taken base fuel : forall num test,
  count_up taken base fuel num test = None ->
  forall j, num < j <= num + fuel -> taken (base ++ dec j) = true.
Proof.
  induction fuel as [|f IH]; intros num test E j Hj; [lia|].
  cbn [count_up] in E. destruct (taken test); [|discriminate].
  destruct (Nat.eq_dec j (S num)) as [->|Hne].
  - destruct f; cbn [count_up] in E; destruct (taken (base ++ dec (S num))); congruence.
  - apply (IH _ _ E). lia.
Qed.

(** Counting up ends: there are only finitely many names to avoid. *)
Lemma count_up_ends (paths : list pystr) (f : pystr -> pystr) base fuel num test :
  (forall a b, f (base ++ dec a) = f (base ++ dec b) -> a = b) ->
  length paths < fuel ->
  exists r, count_up (fun x => str_in (f x) paths) base fuel num test = Some r.
Proof.
  intros Hf Hl. destruct (count_up _ base fuel num test) as [r|] eqn:E; [now exists r|exfalso].
  pose proof (count_up_none _ _ _ _ _ E) as H.
  assert (Hi : incl (map (fun j => f (base ++ dec j)) (seq (S num) fuel)) paths).
  { intros x Hx. apply in_map_iff in Hx as (j & <- & Hj). apply in_seq in Hj.
    apply str_in_In. apply H. lia. }
  apply NoDup_incl_length in Hi.
  - rewrite map_length, seq_length in Hi. lia.
  - apply FinFun.Injective_map_NoDup; [|apply seq_NoDup].
    intros a b Eab. now apply Hf.
Qed.

(** *** Legal names *)

Section Chars.
Variables uni_digit uni_word : N -> bool.
Let digit := isdigit uni_digit.
Let word := is_word uni_word.

Lemma word_underscore : word UNDERSCORE = true. Proof. reflexivity. Qed.
Lemma digit_underscore : digit UNDERSCORE = false. Proof. reflexivity. Qed.

Lemma legalize_form s :
  legalize_name uni_digit uni_word s
  = match s with [] => Raise IndexError | _ => Ok (legal_form digit word s) end.
Proof.
  destruct s as [|c t]; [reflexivity|]. unfold legalize_name, legal_form. fold digit word.
  destruct (digit c) eqn:D; reflexivity.
Qed.

Lemma legal_form_legal s : s <> [] -> legal digit word (legal_form digit word s).
Proof.
  intros H. destruct s as [|c t]; [congruence|].
  assert (F : Forall (fun x => word x = true) (map (fun c => if word c then c else 95%N) (c :: t))).
  { apply Forall_forall. intros x Hx. apply in_map_iff in Hx as (y & <- & _).
    destruct (word y) eqn:E; [exact E|reflexivity]. }
  unfold legal_form. destruct (digit c) eqn:D.
  - exists 95%N. eexists. split; [reflexivity|]. split; [reflexivity|]. constructor; [reflexivity|exact F].
  - cbn [app]. eexists. eexists. split; [reflexivity|]. split; [|exact F].
    destruct (word c); [exact D|reflexivity].
Qed.

Lemma legal_form_id s : legal digit word s -> legal_form digit word s = s.
Proof.
  intros (c & t & -> & D & F). unfold legal_form. rewrite D. cbn [app].
  rewrite <- (map_id (c :: t)) at 2. apply map_ext_in. intros x Hx.
  rewrite Forall_forall in F. now rewrite (F x Hx).
Qed.

Lemma legal_app s d : legal digit word s -> Forall (fun c => (48 <= c <= 57)%N) d ->
  legal digit word (s ++ d).
Proof.
  intros (c & t & -> & D & F) Hd. exists c, (t ++ d). split; [reflexivity|]. split; [exact D|].
  apply Forall_app. split; [exact F|]. revert Hd. apply Forall_impl.
  intros x Hx. unfold word, is_word, ascii_digit.
  assert (E1 : N.ltb x 128 = true) by (apply N.ltb_lt; lia).
  assert (E2 : N.leb 48 x = true) by (apply N.leb_le; lia).
  assert (E3 : N.leb x 57 = true) by (apply N.leb_le; lia).
  rewrite E1, E2, E3. reflexivity.
Qed.

(** Legal names are path components and contain no attribute separator. *)
Lemma legal_component s : legal digit word s -> component s /\ ~ In PERIOD s.
Proof.
  intros (c & t & -> & D & F). rewrite Forall_forall in F. split; [split; [discriminate|]|].
  - intros H. specialize (F _ H). vm_compute in F. discriminate.
  - intros H. specialize (F _ H). vm_compute in F. discriminate.
Qed.

(** *** Unique node names *)

Lemma wanted_preferred name : name <> Some [] ->
  wanted_node_name uni_digit uni_word name = Ok (preferred digit word name).
Proof.
  intros H. destruct name as [s|]; [|reflexivity]. unfold wanted_node_name, preferred.
  rewrite legalize_form. destruct s; [congruence|]. cbn [bind].
  destruct (str_eqb _ (lit "__name__")) eqn:E; [|reflexivity].
  apply str_eqb_eq in E. rewrite E. reflexivity.
Qed.

Lemma preferred_legal name : name <> Some [] ->
  legal digit word (preferred digit word name) /\ preferred digit word name <> lit "__name__".
Proof.
  intros H. destruct name as [s|]; cbn [preferred].
  - destruct (str_eqb _ (lit "__name__")) eqn:E.
    + split; [|discriminate]. eexists. eexists. split; [reflexivity|]. split; [reflexivity|].
      repeat constructor.
    + split; [apply legal_form_legal; congruence|]. intros E'. rewrite E' in E. discriminate.
  - split; [|discriminate]. eexists. eexists. split; [reflexivity|]. split; [reflexivity|].
    repeat constructor.
Qed.

Lemma name_not_reserved s d n : numeral d n -> s ++ d <> lit "__name__".
Proof.
  intros (F & Hn & _) E. destruct d as [|c d] using rev_ind; [congruence|].
  rewrite app_assoc in E. change (lit "__name__") with (lit "__name_" ++ [95%N]) in E.
  apply app_inj_tail in E as [_ ->]. apply Forall_app in F as [_ F]. inversion F. lia.
Qed.

Lemma unique_node_name paths fuel name ns :
  name <> Some [] -> Forall component ns -> length paths < fuel ->
  exists nm,
    get_unique_node_name uni_digit uni_word (fun p => str_in p paths) fuel name (abs_path ns)
    = Some (Ok nm) /\
    legal digit word nm /\ nm <> lit "__name__" /\
    ~ In (abs_path (ns ++ [nm])) paths /\
    (~ In (abs_path (ns ++ [preferred digit word name])) paths -> nm = preferred digit word name) /\
    (In (abs_path (ns ++ [preferred digit word name])) paths ->
     first_free (fun x => ~ In (abs_path (ns ++ [x])) paths) (preferred digit word name) 1 nm).
Proof.
  intros Hn Hns Hf. unfold get_unique_node_name. rewrite (wanted_preferred name Hn).
  destruct (preferred_legal name Hn) as [Hl Hr]. set (w := preferred digit word name) in *.
  assert (J : forall x, component x -> join_node_paths (abs_path ns) x = abs_path (ns ++ [x])).
  { intros x Hx. apply join_node_paths_abs. apply Forall_app. auto. }
  assert (C : forall j, component (w ++ dec j)).
  { intros j. apply legal_component. apply legal_app; [exact Hl|apply dec_numeral]. }
  assert (Cw : component w) by (apply legal_component; exact Hl).
  destruct (str_in (join_node_paths (abs_path ns) w) paths) eqn:T.
  - destruct (count_up_ends paths (join_node_paths (abs_path ns)) w fuel 1 w) as (r & E); [|exact Hf|].
    { intros a b Eab. rewrite (J _ (C a)), (J _ (C b)) in Eab.
      apply abs_path_inj in Eab; [|apply Forall_app; auto..].
      apply app_inv_head in Eab. injection Eab as Eab. apply app_inv_head in Eab. now apply dec_inj. }
    rewrite E. cbn [option_map]. exists r.
    apply count_up_some in E as (Hr' & H). cbv beta in Hr', H.
    destruct H as [->|(_ & k & Hk & -> & Hj)]; [discriminate (eq_trans (eq_sym T) Hr')|].
    rewrite (J _ (C k)) in Hr'.
    assert (Hnk : ~ In (abs_path (ns ++ [w ++ dec k])) paths).
    { apply str_in_not. assumption. }
    split; [reflexivity|]. split; [apply legal_app; [exact Hl|apply dec_numeral]|].
    split; [apply (name_not_reserved _ _ k); apply dec_numeral|].
    split; [exact Hnk|].
    split.
    { intros Hw. exfalso. apply Hw. rewrite (J _ Cw) in T. now apply str_in_In. }
    intros _. exists k, (dec k). split; [lia|]. split; [apply dec_numeral|]. split; [reflexivity|].
    split; [exact Hnk|]. intros j e Hj' He Hfree. apply Hfree. apply numeral_dec in He. subst e.
    apply str_in_In. rewrite <- (J _ (C j)). apply Hj. exact Hj'.
  - exists w. rewrite (J _ Cw) in T.
    assert (Hnw : ~ In (abs_path (ns ++ [w])) paths).
    { apply str_in_not. assumption. }
    split; [reflexivity|]. split; [exact Hl|]. split; [exact Hr|]. split; [exact Hnw|].
    split; [reflexivity|]. intros H. contradiction.
Qed.

(** *** Unique attribute names *)

Lemma drop_digits_split s : exists d, s = d ++ drop_digits s /\
  Forall (fun c => (48 <= c <= 57)%N) d /\
  (drop_digits s = [] \/ exists c t, drop_digits s = c :: t /\ ~ (48 <= c <= 57)%N).
Proof.
  induction s as [|c s IH]; [exists []; cbn; auto|]. cbn [drop_digits].
  destruct (ascii_digit c) eqn:E.
  - destruct IH as (d & Es & Hd & H). exists (c :: d).
    split; [cbn [app]; now rewrite <- Es|]. split; [|exact H]. constructor; [|exact Hd].
    unfold ascii_digit in E. apply andb_true_iff in E as [E1 E2].
    apply N.leb_le in E1. apply N.leb_le in E2. lia.
  - exists []. split; [reflexivity|]. split; [constructor|]. right. exists c, s. split; [reflexivity|].
    intros H. unfold ascii_digit in E. apply andb_false_iff in E as [E|E]; apply N.leb_gt in E; lia.
Qed.

(** A name is its stem followed by its trailing digits. *)
Lemma stem_split s : exists d, s = rstrip_digits s ++ d /\
  Forall (fun c => (48 <= c <= 57)%N) d /\ skipn (length (rstrip_digits s)) s = d /\
  (rstrip_digits s = [] \/ exists t c, rstrip_digits s = t ++ [c] /\ ~ (48 <= c <= 57)%N).
Proof.
  unfold rstrip_digits. destruct (drop_digits_split (rev s)) as (d & E & Hd & H).
  set (b := drop_digits (rev s)) in *. exists (rev d).
  assert (Es : s = rev b ++ rev d).
  { rewrite <- rev_app_distr, <- E. now rewrite rev_involutive. }
  split; [exact Es|]. split; [apply Forall_rev; exact Hd|].
  split.
  { rewrite Es at 1. now rewrite skipn_app, skipn_all, Nat.sub_diag. }
  destruct H as [H|(c & t & H & Hc)]; [left; now rewrite H|right].
  exists (rev t), c. rewrite H. split; [reflexivity|exact Hc].
Qed.

Lemma preferred_attr_legal name : name <> Some [] -> legal digit word (preferred_attr digit word name).
Proof.
  intros H. destruct name as [s|]; [apply legal_form_legal; congruence|].
  eexists. eexists. split; [reflexivity|]. split; [reflexivity|]. repeat constructor.
Qed.

(** The stem of a legal name is legal: its first character is not a digit. *)
Lemma stem_legal s : legal digit word s -> legal digit word (rstrip_digits s).
Proof.
  intros (c & t & Es & D & F). destruct (stem_split s) as (d & E & Hd & _ & Hs).
  rewrite E in F. apply Forall_app in F as [F _].
  destruct (rstrip_digits s) as [|x u] eqn:Er.
  - cbn [app] in E. subst d. rewrite Es in Hd. inversion Hd as [|? ? Hc _]; subst.
    unfold digit, isdigit, ascii_digit in D.
    replace (N.ltb c 128) with true in D by (symmetry; apply N.ltb_lt; lia).
    apply andb_false_iff in D as [D|D]; apply N.leb_gt in D; lia.
  - rewrite Es in E. injection E as -> _. exists x, u. auto.
Qed.

(** The number a name ends in, 1 if there is none. *)
Definition end_number (s : pystr) : nat :=
  match skipn (length (rstrip_digits s)) s with
  | [] => 1
  | d => fold_left (fun a c => 10 * a + digit_value c) d 0
  end.

Lemma int_of_dval s : int_of s = dval s.
Proof.
  unfold int_of, dval.
  assert (G : forall a, fold_left (fun a c => 10 * a + (N.to_nat c - 48)) s a
                        = fold_left (fun a c => 10 * a + digit_value c) s a).
  { induction s as [|c s IH]; intros a; [reflexivity|]. cbn [fold_left]. rewrite IH.
    f_equal. unfold digit_value. lia. }
  apply G.
Qed.

Lemma unique_attr_name local protected fuel name :
  name <> Some [] -> length (local ++ protected) < fuel ->
  let w := preferred_attr digit word name in
  exists nm,
    get_unique_attr_name uni_digit uni_word local protected fuel name = Some (Ok nm) /\
    legal digit word nm /\ ~ In nm (local ++ protected) /\
    (~ In w (local ++ protected) -> nm = w) /\
    (In w (local ++ protected) ->
     first_free (fun x => ~ In x (local ++ protected)) (rstrip_digits w) (end_number w) nm).
Proof.
  intros Hn Hf w. unfold get_unique_attr_name.
  assert (Ew : wanted_attr_name uni_digit uni_word name = Ok w).
  { unfold w, wanted_attr_name. destruct name as [s|]; [|reflexivity]. rewrite legalize_form.
    destruct s; [congruence|reflexivity]. }
  rewrite Ew. clear Ew. cbv zeta.
  assert (Hl : legal digit word w) by (apply preferred_attr_legal; exact Hn).
  pose proof (stem_legal w Hl) as Hsl.
  set (num := match skipn (length (rstrip_digits w)) w with [] => 1 | _ => _ end).
  assert (En : num = end_number w).
  { unfold num, end_number. destruct (skipn _ w) eqn:E; [reflexivity|]. rewrite <- E.
    apply int_of_dval. }
  destruct (count_up_ends (local ++ protected) (fun x => x) (rstrip_digits w) fuel num w) as (r & E); [|exact Hf|].
  { intros a b Eab. apply app_inv_head in Eab. now apply dec_inj. }
  rewrite E. cbn [option_map]. exists r. split; [reflexivity|].
  apply count_up_some in E as (Hr & H). cbv beta in Hr, H.
  assert (Hnr : ~ In r (local ++ protected)).
  { apply str_in_not. assumption. }
  destruct H as [->|(Ht & k & Hk & -> & Hj)].
  - split; [exact Hl|]. split; [exact Hnr|]. split; [reflexivity|]. intros H. contradiction.
  - split; [apply legal_app; [exact Hsl|apply dec_numeral]|]. split; [exact Hnr|].
    split; [intros H; exfalso; apply H; now apply str_in_In|]. intros _.
    exists k, (dec k). rewrite <- En. split; [exact Hk|]. split; [apply dec_numeral|].
    split; [reflexivity|]. split; [exact Hnr|]. intros j e Hj' He Hfree. apply Hfree.
    apply numeral_dec in He. subst e. apply str_in_In. apply Hj. exact Hj'.
Qed.

End Chars.

Lemma legalize_spec ud uw s :
  (s = [] -> legalize_name ud uw s = Raise IndexError) /\
  (s <> [] ->
   legalize_name ud uw s = Ok (legal_form (isdigit ud) (is_word uw) s) /\
   legal (isdigit ud) (is_word uw) (legal_form (isdigit ud) (is_word uw) s)) /\
  (legal (isdigit ud) (is_word uw) s -> legalize_name ud uw s = Ok s).
Proof.
  split; [intros ->; reflexivity|]. split.
  - intros H. split; [|now apply legal_form_legal]. rewrite legalize_form. now destruct s.
  - intros H. rewrite legalize_form, legal_form_id by exact H.
    destruct H as (c & t & -> & _). reflexivity.
Qed.

Lemma unique_attr_name_spec ud uw local protected fuel name :
  name <> Some [] -> length (local ++ protected) < fuel ->
  exists nm,
    get_unique_attr_name ud uw local protected fuel name = Some (Ok nm) /\
    legal (isdigit ud) (is_word uw) nm /\
    ~ In nm local /\ ~ In nm protected /\
    (~ In (preferred_attr (isdigit ud) (is_word uw) name) (local ++ protected) -> nm = preferred_attr (isdigit ud) (is_word uw) name) /\
    (In (preferred_attr (isdigit ud) (is_word uw) name) (local ++ protected) ->
     exists stem d,
       preferred_attr (isdigit ud) (is_word uw) name = stem ++ d /\
       Forall (fun c => (48 <= c <= 57)%N) d /\
       (forall s c, stem = s ++ [c] -> ~ (48 <= c <= 57)%N) /\
       first_free (fun x => ~ In x (local ++ protected)) stem
                  (match d with [] => 1 | _ => fold_left (fun a c => 10 * a + digit_value c) d 0 end) nm).
Proof.
  intros Hn Hf. destruct (unique_attr_name ud uw local protected fuel name Hn Hf)
    as (nm & E & Hl & Hi & Hw & Hu). exists nm. split; [exact E|]. split; [exact Hl|].
  rewrite in_app_iff in Hi. split; [tauto|]. split; [tauto|]. split; [exact Hw|].
  intros Hin. specialize (Hu Hin). set (w := preferred_attr (isdigit ud) (is_word uw) name) in *.
  destruct (stem_split w) as (d & Ed & Hd & Hs & Hlast).
  exists (rstrip_digits w), d. split; [exact Ed|]. split; [exact Hd|]. split.
  - intros s c Es Hc. destruct Hlast as [Hnil|(s' & c' & Es' & Hc')].
    + rewrite Hnil in Es. now destruct s.
    + rewrite Es' in Es. apply app_inj_tail in Es as [_ ->]. contradiction.
  - unfold end_number in Hu. rewrite Hs in Hu. destruct d; exact Hu.
Qed.
