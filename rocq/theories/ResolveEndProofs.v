(** Proofs about resolving: it ends when references do not go round in
    circles, and what it does with whole texts. *)

From Coq Require Import String List NArith Bool Lia Arith.
From Verif Require Import PyStr PyStrFacts Dict NxtPath PathSpec PathProofs Tokens TokenSpec TokenProofs PyVal NodeIO Resolve ResolveSpec ResolveProofs.
Import ListNotations.

Section Ends.
Context {node : Type}.
Variable w : surroundings node.

Lemma no_plugin_find b : List.find (fun p => pl_detect p b) (plugins w) = None -> no_plugin w b.
Proof. intros H p Hin. exact (List.find_none _ _ H p Hin). Qed.

Lemma type_cases b :
  match determine_token_type w b with
  | None => b = []
  | Some (TPlugin _) => True
  | Some TFile => no_plugin w b /\ exists c, b = lit "file::" ++ c
  | Some TFilePath => no_plugin w b /\ exists c, b = lit "path::" ++ c
  | Some TContents => no_plugin w b /\ exists c, b = lit "contents::" ++ c
  | Some TPath | Some TColor => True
  | Some TAttr => reference w b
  end.
Proof.
  unfold determine_token_type. destruct b as [|c b]; [reflexivity|]. cbn [is_empty].
  destruct (List.find (fun p => pl_detect p (c :: b)) (plugins w)) as [p|] eqn:Ef; [exact I|].
  apply no_plugin_find in Ef.
  destruct (startswith FILE_PREFIX (c :: b)) eqn:E1; [apply startswith_iff in E1; auto|].
  destruct (startswith FILEPATH_PREFIX (c :: b)) eqn:E2; [apply startswith_iff in E2; auto|].
  destruct (startswith CONTENTS_PREFIX (c :: b)) eqn:E3; [apply startswith_iff in E3; auto|].
  destruct (str_eqb_spec (c :: b) PATH_PREFIX) as [|E4]; [exact I|].
  destruct (str_eqb_spec (c :: b) COLOR_PREFIX) as [|E5]; [exact I|].
  rewrite startswith_false_iff in E1, E2, E3.
  split; [discriminate|]. repeat split; auto.
Qed.

Definition rooted : Prop := forall n p, path_of w n = Some p -> exists r, p = lit "/" ++ r.

Lemma goal_names n ref m a : rooted -> goal w n ref = Ok (Some (m, a)) -> names w n ref m a \/ m = None.
Proof.
  intros Hr. unfold goal.
  assert (here : (forall p a, ~ splits ref p a) ->
    match path_of w n with
    | Some (c :: t) => bind (expand_from (c :: t) (path_of w n)) (fun q => Ok (Some (match q with Some q => find w q | None => None end, ref)))
    | _ => Ok None
    end = Ok (Some (m, a)) -> names w n ref m a \/ m = None).
  { intros Hs. destruct (path_of w n) as [p|] eqn:Ep; [|discriminate].
    destruct (Hr _ _ Ep) as [r ->]. change (lit "/" ++ r) with (SLASH :: r). cbn [expand_from].
    rewrite expand_relative_absolute. cbn [bind]. intros H. injection H as <- <-. left.
    apply (names_here w n ref (SLASH :: r)); auto. now exists r. }
  destruct (path_attr_partition ref) as [p [b|]] eqn:Ep.
  - destruct p as [|c p].
    + cbn [is_empty negb andb]. apply here. intros p' b' Hs. rewrite (partition_splits _ _ _ Hs) in Ep.
      injection Ep as -> ->. now destruct Hs as (_ & Hs & _).
    + assert (Hs : splits ref (c :: p) b) by (apply partition_splits_inv; auto; discriminate).
      destruct b as [|c' b]; [now destruct Hs as (_ & _ & Hs & _)|]. cbn [is_empty negb andb].
      destruct (path_of w n) as [s|] eqn:En.
      * cbn [expand_from]. unfold bind. intros H. injection H as <- <-.
        destruct (expand_relative_node_path (c :: p) s) as [q|] eqn:Eq; [|now right].
        left. eapply names_there; eauto.
      * cbn [expand_from is_empty]. destruct (str_eqb (c :: p) WORLD || startswith NODE_SEP (c :: p)) eqn:Ew.
        -- cbn [bind]. intros H. injection H as <- <-. left.
           assert (exists r, c :: p = lit "/" ++ r) as [r Er].
           { apply orb_true_iff in Ew as [Ew|Ew].
             - apply str_eqb_eq in Ew. rewrite Ew. now exists [].
             - now apply startswith_iff in Ew. }
           apply (names_absolute w n ref (c :: p) (c' :: b) r Hs Er).
        -- intros H. right. assert (G : forall l q, expand_from_none l = Ok q -> q = None).
           { clear. induction l as [|d l IH]; cbn [expand_from_none]; intros q H; [congruence|].
             destruct (str_eqb d DOTDOT); [discriminate|]. destruct (str_eqb d DOT || is_empty d); [auto|discriminate]. }
           destruct (expand_from_none (split NODE_SEP_C (c :: p))) as [q|] eqn:Eq; [|discriminate].
           apply G in Eq as ->. cbn [bind] in H. congruence.
  - apply here. intros p' b' Hs. rewrite (partition_splits _ _ _ Hs) in Ep. discriminate.
Qed.

Definition ends {A} (run : nat -> option A) : Prop := exists r, ends_in run r.

Lemma ends_then {A B} (run : nat -> option (res A)) (g : nat -> A -> option (res B)) :
  ends run -> (forall a, ends_in run (Ok a) -> ends (fun f => g f a)) -> ends (fun f => obind (run f) (g f)).
Proof.
  intros [[a|e] H] Hg.
  - destruct (Hg a H) as [r Hr]. exists r. eapply ends_obind; eauto.
  - exists (Raise e). destruct H as [f0 H]. exists f0. intros f Hf. now rewrite H.
Qed.
Lemma ends_now {A} (r : A) : ends (fun _ => Some r).
Proof. exists r. apply ends_const. Qed.
Lemma ends_omap {A B} (h : A -> B) run : ends run -> ends (fun f => omap h (run f)).
Proof. intros H. apply (ends_then run (fun _ a => Some (Ok (h a)))); auto. intros; apply ends_now. Qed.

Lemma ends_fold {A B} (step : nat -> A -> B -> option (res A)) l :
  (forall a x, In x l -> ends (fun f => step f a x)) -> forall a, ends (fun f => fold_out (step f) l a).
Proof.
  induction l as [|x l IH]; intros H a; cbn [fold_out]; [apply ends_now|].
  apply (ends_then (fun f => step f a x) (fun f a => fold_out (step f) l a)).
  - apply H. now left.
  - intros b _. apply IH. intros; apply H; now right.
Qed.

Lemma ends_up n s : ends (fun f => resolve w (S f) n s) -> ends (fun f => resolve w f n s).
Proof. intros [r [f0 H]]. exists r. exists (S f0). intros [|f] Hf; [lia|]. apply H. lia. Qed.

Theorem resolve_ends : rooted -> forall n s, Acc (fun y x => needs w x y) (n, s) -> ends (fun f => resolve w f n s).
Proof.
  intros Hroot n s HA. remember (n, s) as x eqn:Ex. revert n s Ex.
  induction HA as [x _ IH]. intros n s ->. apply ends_up.
  destruct (token_text_classified s) as [[ts Hp]|Hu].
  2:{ exists (Ok s). exists 0. intros f _. now apply resolve_unclosed. }
  destruct (parse_cutting _ _ Hp) as (ps & Hc & Es & Et).
  assert (IH' : forall m t, needs w (n, s) (m, t) -> ends (fun f => resolve w f m t)).
  { intros m t Hn. exact (IH (m, t) Hn m t eq_refl). }
  clear IH.
  assert (AV : forall b, In (tok b) ts -> reference w b -> ends (fun f => resolve_attr_ref_token w (resolve w f) n b)).
  { intros b Hin Hr.
    assert (E1 : ends (fun f => resolve w f n b)).
    { apply IH'. apply (needs_contents w n s ts b b); auto. apply Hr. }
    assert (G : ends (fun f => obind (resolve w f n b) (fun ref =>
      match goal w n ref with
      | Raise e => Some (Raise e)
      | Ok (Some (m, a)) => get_node_attr_value w (resolve w f) m a
      | Ok None => loose w (resolve w f) n ref
      end))).
    { apply (ends_then (fun f => resolve w f n b)
        (fun f ref => match goal w n ref with
                      | Raise e => Some (Raise e)
                      | Ok (Some (m, a)) => get_node_attr_value w (resolve w f) m a
                      | Ok None => loose w (resolve w f) n ref
                      end)); [exact E1|].
      intros ref Hres. destruct (goal w n ref) as [[[m a]|]|e] eqn:Eg; [| |apply ends_now].
      - unfold get_node_attr_value. destruct (get_attr w m a) as [v|] eqn:Ea.
        + destruct (truthy v) eqn:Ev.
          * apply ends_omap, IH'. destruct (goal_names n ref m a Hroot Eg) as [Hn| ->].
            -- eapply needs_value; eauto.
            -- eapply needs_none; eauto.
          * destruct (str_in a (PROTECTED (builtin_names w))); [apply ends_now|]. destruct v; apply ends_now.
        + cbn [truthy]. destruct (str_in a (PROTECTED (builtin_names w))); apply ends_now.
      - unfold loose. destruct (get_attr w n ref) as [v|] eqn:Ea.
        + cbn [obind]. destruct (truthy v); apply ends_now.
        + unfold get_node_attr_value. rewrite Ea. cbn [truthy].
          destruct (str_in ref (PROTECTED (builtin_names w))); cbn [obind truthy]; [apply ends_now|].
          destruct (to_str w (VStr [])); apply ends_now. }
    destruct G as [r [f0 G]]. exists r, f0. intros f Hf. rewrite attr_ref_goal. now apply G. }
  assert (AN : forall b, In b (toks ps) -> ends (fun f => answer w f n b)).
  { intros b Hin. assert (Hin' : In (tok b) ts) by (rewrite Et; now apply in_map).
    unfold answer.
    apply (ends_then (fun f => replacement w (resolve w f) n (tok b)) (fun _ v => Some (as_replacement v)));
      [|intros; apply ends_now].
    assert (Hty := type_cases b).
    assert (E := fun f => replacement_tok w (resolve w f) n b).
    assert (G : ends (fun f =>
      match determine_token_type w b with
      | Some (TPlugin p) =>
          match pl_resolve p with
          | Some f => Some (f n (skipn (length (pl_prefix p)) b))
          | None => Some (Ok (VStr (lit "BADRESOLVE")))
          end
      | Some TFile => omap VStr (resolve_file_token w (resolve w f) n (skipn (length FILE_PREFIX) b))
      | Some TFilePath => omap VStr (resolve_file_path_token w (resolve w f) n (skipn (length FILEPATH_PREFIX) b))
      | Some TContents => omap VStr (resolve_contents_token w (resolve w f) n (skipn (length CONTENTS_PREFIX) b))
      | Some TAttr => resolve_attr_ref_token w (resolve w f) n b
      | Some TPath => Some (Ok (match path_of w n with Some p => VStr p | None => VNone end))
      | Some TColor => Some (color_of w n)
      | None => Some (Ok (VStr (lit "BADRESOLVE")))
      end)).
    2:{ destruct G as [r [f0 G]]. exists r, f0. intros f Hf. rewrite E. now apply G. }
    clear E. destruct (determine_token_type w b) as [[p| | | | | |]|].
    - destruct (pl_resolve p); apply ends_now.
    - destruct Hty as [Hnp [c ->]]. unfold FILE_PREFIX. rewrite skipn_prefix. apply ends_omap.
      unfold resolve_file_token.
      apply (ends_then (fun f => resolve w f n c) (fun f resolved =>
        obind (resolve_file_path_token w (resolve w f) n resolved) (fun full_path =>
        Some (Ok (if file_exists w full_path then full_path else []))))).
      { apply IH'. apply (needs_contents w n s ts (lit "file::" ++ c) c); auto. }
      intros t Ht.
      apply (ends_then (fun f => resolve_file_path_token w (resolve w f) n t) (fun f full_path =>
        Some (Ok (if file_exists w full_path then full_path else [])))); [|intros; apply ends_now].
      unfold resolve_file_path_token.
      apply (ends_then (fun f => resolve w f n t) (fun f u => Some (expand_file w u))); [|intros; apply ends_now].
      apply IH'. eapply needs_file; eauto.
    - destruct Hty as [Hnp [c ->]]. unfold FILEPATH_PREFIX. rewrite skipn_prefix. apply ends_omap.
      unfold resolve_file_path_token.
      apply (ends_then (fun f => resolve w f n c) (fun f u => Some (expand_file w u))); [|intros; apply ends_now].
      apply IH'. apply (needs_contents w n s ts (lit "path::" ++ c) c); auto.
    - destruct Hty as [Hnp [c ->]]. unfold CONTENTS_PREFIX. rewrite skipn_prefix. apply ends_omap.
      unfold resolve_contents_token.
      apply (ends_then (fun f => resolve w f n c) (fun f p =>
        match file_text w p with None => Some (Ok []) | Some contents => resolve w f n contents end)).
      { apply IH'. apply (needs_contents w n s ts (lit "contents::" ++ c) c); auto 6. }
      intros p Hres. destruct (file_text w p) as [text|] eqn:Ef; [|apply ends_now].
      apply IH'. eapply needs_text; eauto.
    - apply ends_now.
    - apply ends_now.
    - auto.
    - apply ends_now. }
  assert (G := ends_fold (fun f acc b => obind (answer w f n b) (fun r => Some (Ok (replace (tok b) r acc)))) (toks ps)).
  destruct (G ltac:(intros a b Hb; apply (ends_then (fun f => answer w f n b) (fun _ r => Some (Ok (replace (tok b) r a)))); [auto|intros; apply ends_now]) s) as [r [f0 Hr]].
  exists r, f0. intros f Hf. rewrite (step_tokens w f n s ps Hc Es). now apply Hr.
Qed.

(** *** Plain text *)

Lemma resolve_plain f n s : parse s [] -> resolve w (S f) n s = Some (Ok s).
Proof. intros H. cbn [resolve]. unfold resolve_step. now rewrite (standalone_all s [] H). Qed.

Lemma parse_nil_iff s : parse s [] <-> contains (lit "${") s = false.
Proof.
  split.
  - intros H. remember [] as ts. induction H as [|c s ts Hc H IH|b s ts Hb H IH]; [reflexivity| |discriminate].
    cbn [contains]. rewrite IH by auto. rewrite orb_false_r.
    apply startswith_false_iff. intros r E. apply Hc. now exists r.
  - induction s as [|c s IH]; intros H; [constructor|]. cbn [contains] in H. apply orb_false_iff in H as [H1 H2].
    apply parse_char; [|auto]. intros [r E]. rewrite E in H1. rewrite startswith_app in H1. discriminate.
Qed.

Lemma text_without n s o : filled w n s o -> parse s [] -> o = s.
Proof.
  intros H Hp. induction H as [n|n c s o Hc H IH|n b s r o Hb Hm H IH]; auto.
  - f_equal. apply IH. apply parse_nil_iff. apply parse_nil_iff in Hp. cbn [contains] in Hp. now apply orb_false_iff in Hp.
  - apply parse_nil_iff in Hp. exfalso. rewrite tok_app in Hp. change (lit "${") with TOKEN_PREFIX in Hp. rewrite contains_start in Hp. discriminate.
Qed.

(** *** Numbered references *)

Lemma acc_plain n s : parse s [] \/ unclosed s -> Acc (fun y x => needs w x y) (n, s).
Proof.
  intros H. constructor. intros y Hy.
  assert (G : forall ts b, parse s ts -> In (tok b) ts -> False).
  { intros ts b Hp Hin. destruct H as [H|H].
    - rewrite (parse_function _ _ _ Hp H) in Hin. destruct Hin.
    - apply (standalone_unclosed _ ALL_PREFIXES) in H. rewrite (standalone_all _ _ Hp) in H. rewrite H in Hin. destruct Hin. }
  inversion Hy; subst; exfalso; eauto.
Qed.

(** Every reference in an attribute's text is a plain one to an attribute with
    a smaller number. *)
Definition numbered (rank : option node -> pystr -> nat) : Prop :=
  forall m a v ts b, get_attr w m a = Some v -> truthy v = true ->
  parse (to_str w v) ts -> In (tok b) ts ->
  reference w b /\ contains (lit "${") b = false /\
  forall m' a', names w m b m' a' -> rank m' a' < rank m a.

Lemma numbered_ends rank : rooted -> numbered rank ->
  (forall a v, get_attr w None a = Some v -> contains (lit "${") (to_str w v) = false) ->
  forall m a v, get_attr w m a = Some v -> truthy v = true -> ends (fun f => resolve w f m (to_str w v)).
Proof.
  intros Hroot Hn Hnone m a v Ha Hv. apply resolve_ends; auto.
  remember (rank m a) as k eqn:Ek. revert m a v Ha Hv Ek.
  induction k as [k IH] using lt_wf_ind. intros m a v Ha Hv Ek.
  constructor. intros y Hy.
  inversion Hy as [n s ts b c Hp Hin Hnp Hc|n s ts c t Hp Hin Hnp Hr|n s ts c p text Hp Hin Hnp Hr Hf
                  |n s ts b ref m' a' v' Hp Hin Href Hr Hnm Ha' Hv'|n s ts b ref a' v' Hp Hin Href Hr Ha' Hv']; subst.
  - destruct (Hn m a v ts b Ha Hv Hp Hin) as (Href & Hpl & _).
    destruct Hc as [[_ ->]|[->|[->| ->]]].
    + apply acc_plain. left. now apply parse_nil_iff.
    + exfalso. destruct Href as (_ & _ & _ & H & _). eapply H; reflexivity.
    + exfalso. destruct Href as (_ & _ & H & _). eapply H; reflexivity.
    + exfalso. destruct Href as (_ & _ & _ & _ & H & _). eapply H; reflexivity.
  - exfalso. destruct (Hn m a v ts _ Ha Hv Hp Hin) as ((_ & _ & H & _) & _). eapply H; reflexivity.
  - exfalso. destruct (Hn m a v ts _ Ha Hv Hp Hin) as ((_ & _ & _ & _ & H & _) & _). eapply H; reflexivity.
  - destruct (Hn m a v ts b Ha Hv Hp Hin) as (_ & Hpl & Hlt).
    assert (Ok ref = Ok b) as E.
    { eapply ends_unique; [exact Hr|]. exists 1. intros [|f] Hf; [lia|]. apply resolve_plain. now apply parse_nil_iff. }
    injection E as ->. eapply (IH (rank m' a')); eauto.
  - apply acc_plain. left. apply parse_nil_iff. eauto.
Qed.
End Ends.
