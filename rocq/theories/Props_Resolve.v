(** Property theorems C35, C44: resolving tokens; C45: a node's code as run. *)

From Coq Require Import String List NArith ZArith Bool Lia.
From Verif Require Import PyStr PyStrFacts Dict NxtPath PathSpec PathProofs Tokens TokenSpec TokenProofs PyVal NodeIO
  Resolve ResolveSpec ResolveProofs ResolveEndProofs.
Import ListNotations.

(** *** C35 *)

(** Resolving ends in the meaning of the text: see ResolveSpec.v. *)
Theorem C35_resolves :
  forall node (w : surroundings node) n s o,
  (forall t, to_str w (VStr t) = t) ->
  gives w n s o ->
  exists enough, forall f, enough <= f -> resolve w f n s = Some (Ok o).
Proof. intros node w n s o H G. exact (proj1 (meaning_resolves w H) n s o G). Qed.
Print Assumptions C35_resolves.

(** A text means one thing only. *)
Theorem C35_meaning_unique :
  forall node (w : surroundings node) n s o o',
  (forall t, to_str w (VStr t) = t) ->
  gives w n s o -> gives w n s o' -> o = o'.
Proof.
  intros node w n s o o' H G G'. apply (proj1 (meaning_resolves w H)) in G, G'.
  pose proof (ends_unique _ _ _ G G') as E. now injection E.
Qed.
Print Assumptions C35_meaning_unique.

(** Text without a token start, and text with a token that is never closed,
    is left as it is. *)
Theorem C35_plain_text :
  forall node (w : surroundings node) f n s,
  contains (lit "${") s = false \/ unclosed s -> resolve w (S f) n s = Some (Ok s).
Proof.
  intros node w f n s [H|H]; [apply resolve_plain; now apply parse_nil_iff|now apply resolve_unclosed].
Qed.
Print Assumptions C35_plain_text.

(** Once resolving ends, its answer does not depend on the bound. *)
Theorem C35_one_answer :
  forall node (w : surroundings node) f g n s r, f <= g -> resolve w f n s = Some r -> resolve w g n s = Some r.
Proof. intros node w f g n s r H E. exact (resolve_mono w f g n s H r E). Qed.
Print Assumptions C35_one_answer.

(** It ends for every text from which references do not go round in circles
    or on for ever. *)
Theorem C35_ends :
  forall node (w : surroundings node) n s,
  (forall m p, path_of w m = Some p -> exists r, p = lit "/" ++ r) ->
  Acc (fun y x => needs w x y) (n, s) ->
  exists r, ends_in (fun f => resolve w f n s) r.
Proof. intros node w n s H A. exact (resolve_ends w H n s A). Qed.
Print Assumptions C35_ends.

(** In particular: when attributes can be numbered such that every attribute
    only refers to attributes with smaller numbers. *)
Theorem C35_ends_when_numbered :
  forall node (w : surroundings node) (rank : option node -> pystr -> nat),
  (forall m p, path_of w m = Some p -> exists r, p = lit "/" ++ r) ->
  (forall a v, get_attr w None a = Some v -> contains (lit "${") (to_str w v) = false) ->
  (forall m a v ts b, get_attr w m a = Some v -> truthy v = true ->
     parse (to_str w v) ts -> In (tok b) ts ->
     reference w b /\ contains (lit "${") b = false /\
     forall m' a', names w m b m' a' -> rank m' a' < rank m a) ->
  forall m a v, get_attr w m a = Some v -> truthy v = true ->
  exists r, ends_in (fun f => resolve w f m (to_str w v)) r.
Proof. intros node w rank H1 H2 H3. exact (numbered_ends w rank H1 H3 H2). Qed.
Print Assumptions C35_ends_when_numbered.

(** Reading an attribute resolved: the text of its value resolved. *)
Theorem C35_attribute :
  forall node (w : surroundings node) n a v r,
  (forall t, to_str w (VStr t) = t) ->
  get_attr w n a = Some v -> truthy v = true -> gives w n (to_str w v) r ->
  ends_in (fun f => attr_value w f true n a) (Ok (VStr r)).
Proof.
  intros node w n a v r H E Ht G. apply (proj1 (meaning_resolves w H)) in G as [f0 G].
  exists f0. intros f Hf. unfold attr_value, get_node_attr_value. now rewrite E, Ht, G.
Qed.
Print Assumptions C35_attribute.

(** Reading an attribute raw: its value; nothing reads as the empty text, and
    values such as 0, False or an empty list as their text, except those of the
    attributes that every node has. *)
Theorem C35_raw :
  forall node (w : surroundings node) f n a,
  (forall v, get_attr w n a = Some v -> truthy v = true -> attr_value w f false n a = Some (Ok v)) /\
  (get_attr w n a = None \/ get_attr w n a = Some (VStr []) -> (forall t, to_str w (VStr t) = t) -> attr_value w f false n a = Some (Ok (VStr []))) /\
  (forall v, get_attr w n a = Some v -> truthy v = false -> In a (PROTECTED (builtin_names w)) -> attr_value w f false n a = Some (Ok v)) /\
  (get_attr w n a = Some VNone -> ~ In a (PROTECTED (builtin_names w)) -> attr_value w f false n a = Some (Ok (VStr []))) /\
  (forall v, get_attr w n a = Some v -> truthy v = false -> v <> VNone -> ~ In a (PROTECTED (builtin_names w)) -> attr_value w f false n a = Some (Ok (VStr (to_str w v)))).
Proof.
  intros node w f n a. unfold attr_value. destruct (str_in a _) eqn:Ep; [apply str_in_In in Ep|apply not_true_iff_false in Ep; rewrite str_in_In in Ep]; (split; [|split; [|split; [|split]]]).
  - now intros v -> _.
  - now intros [-> | ->].
  - now intros v -> _ _.
  - contradiction.
  - now intros v _ _ _ [].
  - intros v -> Ht. rewrite Ht. destruct v; try reflexivity. discriminate.
  - intros [-> | ->] Et; cbn [truthy]; now rewrite ?Et.
  - contradiction.
  - now intros -> _.
  - intros v -> Ht Nn _. rewrite Ht. destruct v; try reflexivity. contradiction.
Qed.
Print Assumptions C35_raw.

(** *** Cases *)

(** Two nodes /n and /n/m. *)
Definition attrs_n : dict pyval :=
  [(lit "greeting", VStr (lit "hello")); (lit "who", VStr (lit "${m.name} of ${_nxtpath}"));
   (lit "text", VStr (lit "say ${greeting}, ${who}!")); (lit "key", VStr (lit "greeting"));
   (lit "indirect", VStr (lit "${${key}}")); (lit "loop", VStr (lit "${loop}"));
   (lit "open", VStr (lit "${greeting} ${")); (lit "both", VStr (lit "${open}${greeting}"));
   (lit "twice", VStr (lit "${key} ${${key}}")); (lit "_code", VList []); (lit "number", VInt 0%Z)].
Definition attrs_m : dict pyval := [(lit "name", VStr (lit "Ann")); (lit "up", VStr (lit "${...greeting}"))].
Definition home : surroundings nat := {|
  get_attr := fun n a => match n with
                         | Some 0 => dget a attrs_n
                         | Some 1 => dget a attrs_m
                         | _ => None end;
  path_of := fun n => match n with Some 0 => Some (lit "/n") | Some 1 => Some (lit "/n/m") | _ => None end;
  find := fun p => if str_eqb p (lit "/n") then Some 0 else if str_eqb p (lit "/n/m") then Some 1 else None;
  to_str := fun v => match v with VStr s => s | VInt _ => lit "0" | _ => [] end;
  expand_file := fun p => Ok (lit "/dir/" ++ p);
  file_exists := fun p => str_eqb p (lit "/dir/f");
  file_text := fun p => if str_eqb p (lit "g") then Some (lit "<${greeting}>") else None;
  color_of := fun _ => Ok (VStr (lit "#fff"));
  plugins := [];
  builtin_names := [] |}.

Example C35_ex :
  resolve home 9 (Some 0) (lit "say ${greeting}, ${who}!") = Some (Ok (lit "say hello, Ann of /n!")) /\
  resolve home 9 (Some 0) (lit "${${key}} ${m.name}") = Some (Ok (lit "hello Ann")) /\
  resolve home 9 (Some 1) (lit "${/n.text} ${...key}") = Some (Ok (lit "say hello, Ann of /n! greeting")) /\
  resolve home 9 (Some 0) (lit "${file::f}|${file::x}|${path::x}|${contents::g}|${_nxtcolor}|${number}|${nothing}|")
  = Some (Ok (lit "/dir/f||/dir/x|<hello>|#fff|0||")).
Proof. repeat split; vm_compute; reflexivity. Qed.

Ltac plain := match goal with |- not_opening _ _ => intros (?r & ?E); discriminate E end.
Ltac chars := repeat (apply parse_char; [plain|]).
Ltac fchars := repeat (apply filled_char; [plain|]).
Ltac bodies := repeat (apply body_char; [discriminate|plain|]); try apply body_nil.

Lemma plain_gives n s : contains (lit "${") s = false -> gives home n s s.
Proof.
  intros H. apply gives_filled.
  - induction s as [|c s IH]; [constructor|]. cbn [contains] in H. apply orb_false_iff in H as [H1 H2].
    constructor; auto. intros [r E]. rewrite E in H1. rewrite startswith_app in H1. discriminate.
  - exists []. split; [now apply parse_nil_iff|]. right. split; [intros t c []|exact H].
Qed.
Lemma plain_reference b : b <> [] -> startswith (lit "file::") b = false -> startswith (lit "path::") b = false ->
  startswith (lit "contents::") b = false -> str_eqb b (lit "_nxtpath") = false -> str_eqb b (lit "_nxtcolor") = false ->
  reference home b.
Proof.
  intros. rewrite startswith_false_iff in *. apply str_eqb_neq in H3, H4. split; auto. split; [intros p []|]. auto 6.
Qed.

Example C35_meaning_ex : gives home (Some 0) (lit "say ${greeting}!") (lit "say hello!").
Proof.
  apply gives_filled.
  - fchars. apply (filled_tok home (Some 0) (lit "greeting") (lit "!") (lit "hello") (lit "!")); [bodies| |fchars; constructor].
    apply (means_reference home (Some 0) (lit "greeting") (lit "greeting") (Some 0) (lit "greeting")).
    + apply plain_reference; [discriminate|reflexivity..].
    + apply plain_gives. reflexivity.
    + apply (names_here home (Some 0) (lit "greeting") (lit "/n")); [|reflexivity|now exists (lit "n")].
      intros p a (E & _). assert (In 46%N (lit "greeting")) as H.
      { rewrite E. apply in_or_app. right. now left. }
      cbn in H. decompose [or] H; try discriminate; contradiction.
    + apply (holds_value home (Some 0) (lit "greeting") (VStr (lit "hello"))); [reflexivity..|].
      apply plain_gives. reflexivity.
  - exists [lit "${greeting}"]. split; [|now left].
    chars. apply (parse_tok (lit "greeting") (lit "!") []); [bodies|]. chars. constructor.
Qed.

Example C35_numbered_ex :
  let w := {| get_attr := fun n a => match n with
                | Some 0 => dget a [(lit "a", VStr (lit "1 ${b}")); (lit "b", VStr (lit "2"))] | _ => None end;
              path_of := path_of home; find := find home; to_str := to_str home; expand_file := expand_file home;
              file_exists := file_exists home; file_text := file_text home; color_of := color_of home;
              plugins := []; builtin_names := [] |} in
  exists r, ends_in (fun f => resolve w f (Some 0) (lit "1 ${b}")) r.
Proof.
  intros w.
  apply (C35_ends_when_numbered nat w (fun _ a => if str_eqb a (lit "a") then 1 else 0)) with (a := lit "a") (v := VStr (lit "1 ${b}"));
    try reflexivity.
  - intros [[|[|m]]|] p E; cbn in E; try discriminate; injection E as <-; eexists; reflexivity.
  - intros a v E. discriminate E.
  - intros [[|m]|] a v ts b E Ht Hp Hin; try discriminate E. cbn [get_attr w dget] in E.
    destruct (str_eqb_spec (lit "a") a) as [<-|Ha]; [|destruct (str_eqb_spec (lit "b") a) as [<-|Hb]; [|discriminate E]].
    + injection E as <-. cbn [to_str w home] in Hp.
      assert (P : parse (lit "1 ${b}") [lit "${b}"]).
      { chars. apply (parse_tok (lit "b") [] []); [bodies|constructor]. }
      rewrite (parse_function _ _ _ Hp P) in Hin. destruct Hin as [E|[]].
      assert (b = lit "b") as ->.
      { apply (f_equal get_token_content) in E. change (tok b) with (make_token_str b) in E.
        rewrite token_content_round_trip in E. now rewrite <- E. }
      split; [|split; [reflexivity|]].
      * split; [discriminate|]. split; [intros p []|]. repeat split; intros; discriminate.
      * intros m' a' [p c here q (E' & _) _ _|p c r (E' & _) _|here _ _ _]; [| |cbn; lia];
          apply (f_equal (contains (lit "."))) in E'; symmetry in E'; rewrite contains_suffix in E'; discriminate E' || reflexivity.
    + injection E as <-. cbn [to_str w home] in Hp.
      assert (P : parse (lit "2") []) by (chars; constructor).
      rewrite (parse_function _ _ _ Hp P) in Hin. destruct Hin.
Qed.

(** A token that also occurs inside a later token is replaced there too, and
    then the later token is not found any more: "${key} ${${key}}" does not
    become "greeting hello". *)
Theorem C35_token_inside_token_refuted :
  resolve home 9 (Some 0) (lit "${key}") = Some (Ok (lit "greeting")) /\
  resolve home 9 (Some 0) (lit "${${key}}") = Some (Ok (lit "hello")) /\
  forall f, 9 <= f -> resolve home f (Some 0) (lit "${key} ${${key}}") = Some (Ok (lit "greeting ${greeting}")).
Proof.
  split; [vm_compute; reflexivity|]. split; [vm_compute; reflexivity|].
  intros f Hf. apply (C35_one_answer nat home 9 f); [exact Hf|vm_compute; reflexivity].
Qed.
Print Assumptions C35_token_inside_token_refuted.

(** The text of a value is searched again for the later tokens: "${open}" is
    "${greeting} ${" (left as it is), but next to "${greeting}" it changes. *)
Theorem C35_value_searched_again_refuted :
  resolve home 9 (Some 0) (lit "${open}") = Some (Ok (lit "${greeting} ${")) /\
  resolve home 9 (Some 0) (lit "${greeting}") = Some (Ok (lit "hello")) /\
  forall f, 9 <= f -> resolve home f (Some 0) (lit "${open}${greeting}") = Some (Ok (lit "hello ${hello")).
Proof.
  split; [vm_compute; reflexivity|]. split; [vm_compute; reflexivity|].
  intros f Hf. apply (C35_one_answer nat home 9 f); [exact Hf|vm_compute; reflexivity].
Qed.
Print Assumptions C35_value_searched_again_refuted.

(** An attribute that refers to itself never resolves, and nothing reports it. *)
Theorem C35_self_reference_refuted :
  forall f, resolve home f (Some 0) (lit "${loop}") = None.
Proof.
  induction f as [|f IH]; [reflexivity|].
  rewrite (step_tokens home f (Some 0) (lit "${loop}") [Tok (lit "loop")]); [|split; [bodies|exact I]|reflexivity].
  cbn [toks fold_out]. unfold answer. rewrite replacement_tok.
  change (determine_token_type home (lit "loop")) with (Some (@TAttr nat)). cbv iota.
  rewrite attr_ref_goal. destruct f as [|f]; [reflexivity|].
  rewrite (resolve_plain home f (Some 0) (lit "loop")) by (apply parse_nil_iff; reflexivity).
  cbn [obind]. change (goal home (Some 0) (lit "loop")) with (@Ok (option (option nat * pystr)) (Some (Some 0, lit "loop"))).
  cbv iota beta. unfold get_node_attr_value.
  change (get_attr home (Some 0) (lit "loop")) with (Some (VStr (lit "${loop}"))).
  change (truthy (VStr (lit "${loop}"))) with true. cbv iota zeta.
  change (to_str home (VStr (lit "${loop}"))) with (lit "${loop}"). rewrite IH. reflexivity.
Qed.
Print Assumptions C35_self_reference_refuted.

(** A malformed token may change: "${}" becomes "BADRESOLVE". *)
Theorem C35_empty_token_refuted :
  forall node (w : surroundings node) f n, resolve w (S f) n (lit "a ${} b") = Some (Ok (lit "a BADRESOLVE b")).
Proof. intros. cbn [resolve]. unfold resolve_step. vm_compute. reflexivity. Qed.
Print Assumptions C35_empty_token_refuted.

(** Referring to an internal attribute that is false but not None (code that is
    empty, a start point that is off) raises TypeError. *)
Theorem C35_internal_attribute_refuted :
  resolve home 9 (Some 0) (lit "${_code}") = Some (Raise TypeError).
Proof. vm_compute. reflexivity. Qed.
Print Assumptions C35_internal_attribute_refuted.

(** *** C44 *)

(** For text without nested tokens: the absolute paths of all attributes named
    with a path, from the last to the first. *)
Theorem C44_external_sources :
  forall node (w : surroundings node) n here t0 (segs : list (pystr * pystr)),
  plugins w = [] -> path_of w n = Some here ->
  contains (lit "${") t0 = false ->
  Forall (fun p => contains (lit "${") (fst p) = false /\
                   contains (lit "}") (fst p) = false /\
                   contains (lit "${") (snd p) = false) segs ->
  external_sources w n (t0 ++ concat (map (fun p => tok (fst p) ++ snd p) segs))
  = Ok (rev (map (fun c => expand_relative_node_path c here) (filter (contains (lit ".")) (map fst segs)))).
Proof.
  intros node w n here t0 segs Hpl Hh H0 Hs. unfold external_sources, get_tokens_from. rewrite Hh.
  rewrite (atomic_tokens_flat t0 segs _ H0 Hs (le_n _)). cbn [option_map].
  assert (F : forall l, filter (fun t => is_type (Some TAttr) (determine_token_type w t)) (map (fun p : pystr * pystr => tok (fst p)) l)
              = map (fun p => tok (fst p)) l).
  { induction l as [|x l IH]; auto. cbn [map filter]. rewrite IH.
    unfold determine_token_type. rewrite Hpl. reflexivity. }
  rewrite <- map_rev, F, map_rev.
  assert (G : forall (l : list (pystr * pystr)) acc,
    fold_res (fun out t => let ref := get_token_content t in
        if negb (is_attr_path ref) then Ok out else bind (expand_from ref (Some here)) (fun e => Ok (out ++ [e])))
      (map (fun p => tok (fst p)) l) acc
    = Ok (acc ++ map (fun c => expand_relative_node_path c here) (filter (contains (lit ".")) (map fst l)))).
  { induction l as [|x l IH]; intros acc; cbn [map fold_res filter]; [now rewrite app_nil_r|].
    change (tok (fst x)) with (make_token_str (fst x)). rewrite token_content_round_trip.
    change (is_attr_path (fst x)) with (contains (lit ".") (fst x)).
    destruct (contains (lit ".") (fst x)); cbn [negb].
    - cbn [expand_from bind]. etransitivity; [apply IH|]. cbn [map]. now rewrite <- app_assoc.
    - cbn [bind]. apply IH. }
  rewrite <- map_rev. etransitivity; [apply G|]. cbn [app]. f_equal. rewrite <- map_rev. f_equal.
  rewrite map_rev. induction (map fst segs) as [|c l IH]; auto. cbn [rev filter].
  rewrite filter_app, IH. cbn [filter]. destruct (contains (lit ".") c); cbn [rev app]; auto. now rewrite app_nil_r.
Qed.
Print Assumptions C44_external_sources.
Example C44_ex :
  external_sources home (Some 1) (lit "a ${/x.y} b ${../n.z} ${own} c")
  = Ok [Some (lit "/n/n.z"); Some (lit "/x.y")].
Proof. vm_compute. reflexivity. Qed.

(** A file token with a period in it is taken for a reference to an attribute. *)
Theorem C44_file_token_refuted :
  external_sources home (Some 0) (lit "${file::data.json}") = Ok [Some (lit "/n/file::data.json")].
Proof. vm_compute. reflexivity. Qed.
Print Assumptions C44_file_token_refuted.

(** Asking for the tokens of one of the other kinds never finds one: the kind
    is looked for in the text with the "${" still in front. *)
Theorem C44_tokens_by_kind_refuted :
  forall node (w : surroundings node) kind s l,
  plugins w = [] -> In kind [TFile; TFilePath; TContents; TPath; TColor] ->
  get_tokens_from w s (Some kind) = Some l -> l = [].
Proof.
  intros node w kind s l Hpl Hk. unfold get_tokens_from.
  destruct (get_atomic_tokens_fuel (S (length s)) s) as [toks|] eqn:E; [|discriminate].
  assert (A : forall t, In t toks -> is_type (Some kind) (determine_token_type w t) = false).
  { intros t Ht. destruct (proj1 (atomic_tokens_sound _ _ _ E t Ht)) as (c & -> & _).
    assert (T : determine_token_type w (tok c) = Some TAttr) by (unfold determine_token_type; rewrite Hpl; reflexivity).
    rewrite T. cbn in Hk. decompose [or] Hk; subst; try reflexivity. contradiction. }
  cbn [option_map]. intros H. assert (l = filter (fun t => is_type (Some kind) (determine_token_type w t)) toks) as -> by congruence.
  clear -A. induction toks as [|t toks IH]; auto. cbn [filter]. rewrite A by now left. apply IH. intros; apply A; now right.
Qed.
Print Assumptions C44_tokens_by_kind_refuted.
Example C44_tokens_ex :
  get_tokens_from home (lit "${file::a} ${b}") (Some TFile) = Some [] /\
  get_tokens_from home (lit "${file::a} ${b}") (Some TAttr) = Some [lit "${b}"; lit "${file::a}"].
Proof. split; vm_compute; reflexivity. Qed.

(** *** C45 *)

(** The code that is run: each line resolved, and cut at the newlines that
    resolving brought in. *)
Theorem C45_code_resolved :
  forall node (w : surroundings node) n lines outs,
  (forall t, to_str w (VStr t) = t) ->
  Forall2 (gives w n) lines outs ->
  ends_in (fun f => code_lines_resolved w f n lines) (Ok (concat (map (split 10%N) outs))).
Proof.
  intros node w n lines outs Hs H. unfold code_lines_resolved.
  assert (G : forall acc, ends_in (fun f => fold_out (fun result_lines line =>
      obind (resolve w f n line) (fun r => Some (Ok (result_lines ++ split 10%N r)))) lines acc)
      (Ok (acc ++ concat (map (split 10%N) outs)))).
  { induction H as [|l o lines outs Hlo H IH]; intros acc.
    - exists 0. intros f _. cbn. now rewrite app_nil_r.
    - apply (proj1 (meaning_resolves w Hs)) in Hlo as [f1 H1]. destruct (IH (acc ++ split 10%N o)) as [f2 H2].
      exists (f1 + f2). intros f Hf. cbn [fold_out]. rewrite H1 by lia. cbn [obind]. rewrite H2 by lia.
      cbn [map concat]. now rewrite <- app_assoc. }
  apply G.
Qed.
Print Assumptions C45_code_resolved.

(** Code without tokens is run as it is. *)
Theorem C45_code_as_written :
  forall node (w : surroundings node) f n lines,
  Forall (fun l => contains (lit "${") l = false /\ ~ In 10%N l) lines ->
  code_lines_resolved w (S f) n lines = Some (Ok lines).
Proof.
  intros node w f n lines H. unfold code_lines_resolved.
  assert (G : forall acc, fold_out (fun result_lines line =>
      obind (resolve w (S f) n line) (fun r => Some (Ok (result_lines ++ split 10%N r)))) lines acc = Some (Ok (acc ++ lines))).
  { induction H as [|l lines [H1 H2] H IH]; intros acc; cbn [fold_out]; [now rewrite app_nil_r|].
    rewrite (resolve_plain w f n l) by now apply parse_nil_iff. cbn [obind].
    rewrite IH, split_no_sep by auto. now rewrite <- app_assoc. }
  apply G.
Qed.
Print Assumptions C45_code_as_written.
Example C45_ex :
  code_lines_resolved home 9 (Some 0) [lit "x = 1"; lit "print('${greeting}', x) # ${"; lit "# ${m.name}"]
  = Some (Ok [lit "x = 1"; lit "print('${greeting}', x) # ${"; lit "# Ann"]).
Proof. vm_compute. reflexivity. Qed.
