(** Proofs about environment variables in file paths. *)

From Coq Require Import String List NArith Bool Lia.
From Verif Require Import PyStr PyStrFacts Dict PyVal EnvVars EnvVarsSpec.
Import ListNotations.

Lemma var_char_letter c : var_char c = true <-> letter c.
Proof.
  unfold var_char, letter. rewrite !orb_true_iff, !andb_true_iff, !N.leb_le, N.eqb_eq. tauto.
Qed.
Lemma letter_marker c st : letter c -> c <> marker st.
Proof. unfold letter, marker. destruct st; lia. Qed.
Lemma run_app v r : Forall letter v -> (forall c t, r = c :: t -> ~ letter c) -> run (v ++ r) = (v, r).
Proof.
  intros Hv Hr. induction Hv as [|c v Hc Hv IH]; cbn [app run].
  - destruct r as [|c t]; [reflexivity|]. cbn [run]. destruct (var_char c) eqn:E; [|reflexivity]. exfalso. apply var_char_letter in E. exact (Hr c t eq_refl E).
  - apply var_char_letter in Hc. now rewrite Hc, IH.
Qed.

(** What comes after a variable. *)
Definition no_letter_first (s : pystr) : Prop := forall c t, s = c :: t -> ~ letter c.
Lemma spaced_rest st v l : spaced (Var st v :: l) -> no_letter_first (writes l).
Proof.
  intros H c t E. destruct l as [|[s|st' w] l]; cbn in E; [discriminate| |].
  - destruct H as (H & Hne & _). destruct s as [|x s]; [congruence|]. cbn in E. injection E as -> _. now apply (H c s).
  - destruct st'; cbn in E; injection E as <- _; unfold letter, DOLLAR, PERCENT; lia.
Qed.
Lemma spaced_tail p l : spaced (p :: l) -> spaced l.
Proof. destruct p as [s|st v]; [auto|]. destruct l as [|[s|st' w] l]; cbn [spaced]; tauto. Qed.

Lemma find_skip st a b : find_vars st (length a) (a ++ b) = find_vars st 0 b.
Proof. induction a as [|c a IH]; cbn [length app find_vars]; [reflexivity|exact IH]. Qed.
Lemma find_text st a b : ~ In (marker st) a -> find_vars st 0 (a ++ b) = find_vars st 0 b.
Proof.
  intros H. induction a as [|c a IH]; [reflexivity|]. cbn [app find_vars]. assert (Hc : c <> marker st) by (intros ->; apply H; now left). assert (Ha : ~ In (marker st) a) by (intros Q; apply H; now right).
  apply N.eqb_neq in Hc. destruct st; unfold marker in Hc; unfold DOLLAR, PERCENT; rewrite Hc; now apply IH.
Qed.
Lemma spell_other st v : Forall letter v -> ~ In (marker st) (spell (foreign st) v).
Proof.
  intros Hv. assert (N : ~ In (marker st) v) by (intros Q; apply (letter_marker (marker st) st); [|reflexivity]; now rewrite Forall_forall in Hv; apply Hv).
  destruct st; cbn [foreign spell marker] in *; intros [Q|Q]; try discriminate; [|now apply N]. apply in_app_or in Q as [Q|[Q|[]]]; [now apply N|discriminate].
Qed.
Definition names_in (st : style) (l : list piece) : list pystr :=
  flat_map (fun p => match p with Var st' v => if style_eqb st' st then [v] else [] | Text _ => [] end) l.
Lemma find_all st l : Forall named l -> Forall (unmarked st) l -> spaced l -> find_vars st 0 (writes l) = names_in st l.
Proof.
  intros Hn Hu. induction Hn as [|p l Hp Hn IH]; intros Hs; [reflexivity|]. inversion Hu as [|? ? Hup Hul]; subst. pose proof (spaced_tail _ _ Hs) as Hs'. specialize (IH Hul Hs').
  change (writes (p :: l)) with (write p ++ writes l). destruct p as [s|st' v].
  - cbn [write names_in flat_map app]. rewrite find_text by exact Hup. exact IH.
  - destruct Hp as (Hv & Hl). pose proof (spaced_rest _ _ _ Hs) as Hr. cbn [write names_in flat_map]. destruct st, st'; cbn [style_eqb app].
    + cbn [spell app find_vars]. rewrite N.eqb_refl. rewrite run_app by auto. cbn [fst]. rewrite find_skip. f_equal. exact IH.
    + rewrite find_text; [exact IH|]. now apply (spell_other Dollar).
    + rewrite find_text; [exact IH|]. now apply (spell_other Percent).
    + cbn [spell app find_vars]. rewrite N.eqb_refl. rewrite <- app_assoc. rewrite run_app by (auto; intros c t Q; injection Q as <- _; unfold letter, PERCENT; lia). cbn [app]. rewrite N.eqb_refl. f_equal.
      replace (S (length v)) with (length (v ++ [PERCENT])) by (rewrite app_length; cbn; lia). change (PERCENT :: writes l) with ([PERCENT] ++ writes l). rewrite app_assoc, find_skip. exact IH.
Qed.

Lemma letters_prefix v : Forall letter v -> forall w x y, Forall letter w -> no_letter_first x -> v ++ y = w ++ x -> exists r, w = v ++ r.
Proof.
  induction 1 as [|c v Hc Hv IH]; intros w x y Hw Hx E; [now exists w|]. destruct w as [|d w].
  - exfalso. cbn in E. apply (Hx c (v ++ y)); [now symmetry|exact Hc].
  - cbn [app] in E. injection E as <- E. inversion Hw; subst. destruct (IH w x y) as (r & ->); auto. now exists r.
Qed.
Lemma not_start st v : Forall letter v -> v <> [] -> forall s, (forall t, s = marker st :: t -> no_letter_first t) -> startswith (spell st v) s = false.
Proof.
  intros Hv Hne s Hs. apply startswith_false_iff. intros r E. destruct v as [|c v]; [congruence|]. pose proof (Forall_inv Hv) as Hc.
  destruct st; cbn [spell app] in E; (eapply (Hs _ E); [reflexivity|exact Hc]).
Qed.
(** Text without the marker passes. *)
Lemma replace_text st v new a b : ~ In (marker st) a -> replace_aux (spell st v) new None 0 (a ++ b) = a ++ replace_aux (spell st v) new None 0 b.
Proof.
  intros H. induction a as [|c a IH]; [reflexivity|]. cbn [app replace_aux]. assert (Hc : marker st <> c) by (intros Q; apply H; left; now symmetry). assert (Ha : ~ In (marker st) a) by (intros Q; apply H; now right).
  apply N.eqb_neq in Hc. assert (E : startswith (spell st v) (c :: a ++ b) = false) by (destruct st; cbn [spell startswith marker] in *; unfold DOLLAR, PERCENT; now rewrite Hc).
  rewrite E. cbn [andb]. now rewrite IH.
Qed.
Lemma marker_not_letters st v : Forall letter v -> ~ In (marker st) v.
Proof. intros Hv Q. rewrite Forall_forall in Hv. now apply (letter_marker (marker st) st); [apply Hv|]. Qed.
(** One more name is respelled. *)
Definition respell (st : style) (v : pystr) (p : piece) : piece :=
  match p with Var st' w => if style_eqb st' st && str_eqb w v then Var (foreign st) w else p | Text _ => p end.
Lemma respell_spaced st v l : spaced l -> spaced (map (respell st v) l).
Proof.
  induction l as [|p l IH]; intros H; [exact I|]. pose proof (spaced_tail _ _ H) as H'. specialize (IH H'). destruct p as [s|st' w]; [exact IH|].
  cbn [map]. destruct (respell st v (Var st' w)) as [?|st2 w2] eqn:E; [cbn in E; destruct (_ && _); discriminate|]. destruct l as [|[s|st3 w3] l]; [exact I| |].
  - cbn [map respell spaced] in *. tauto.
  - cbn [map spaced] in *. destruct (respell st v (Var st3 w3)) eqn:E3; [cbn in E3; destruct (_ && _); discriminate|]. exact IH.
Qed.
Definition bare (st : style) (v : pystr) (l : list piece) : Prop := st = Dollar -> forall w r, In (Var st w) l -> w = v ++ r -> r = [].
Lemma replace_name st v l : Forall named l -> Forall (unmarked st) l -> spaced l -> v <> [] -> Forall letter v -> bare st v l ->
  replace (spell st v) (spell (foreign st) v) (writes l) = writes (map (respell st v) l).
Proof.
  intros Hn Hu Hs Hne Hv Hb. unfold replace. assert (Ne : spell st v <> []) by (destruct st; discriminate). destruct (spell st v) as [|c0 s0] eqn:Es0; [congruence|]. rewrite <- Es0 in *. clear Ne Es0 c0 s0.
  induction Hn as [|p l Hp Hn IH]; [destruct st; reflexivity|]. inversion Hu as [|? ? Hup Hul]; subst. pose proof (spaced_tail _ _ Hs) as Hs'.
  assert (Hb' : bare st v l) by (intros Q w r Hw; apply (Hb Q); now right). specialize (IH Hul Hs' Hb'). change (writes (p :: l)) with (write p ++ writes l). change (writes (map (respell st v) (p :: l))) with (write (respell st v p) ++ writes (map (respell st v) l)). rewrite <- IH.
  destruct p as [s|st' w].
  - cbn [write respell]. now apply replace_text.
  - destruct Hp as (Hw & Hl). pose proof (spaced_rest _ _ _ Hs) as Hr. cbn [respell]. destruct (style_eqb st' st) eqn:Est; cbn [andb].
    + assert (st' = st) as -> by (destruct st, st'; auto; discriminate). destruct (str_eqb w v) eqn:Ew.
      * apply str_eqb_eq in Ew as ->. cbn [write]. apply replace_aux_hit; [destruct st; discriminate|discriminate].
      * cbn [write]. assert (S0 : startswith (spell st v) (spell st w ++ writes l) = false).
        { apply startswith_false_iff. intros r E. assert (Q : w = v); [|subst; rewrite str_eqb_refl in Ew; discriminate]. destruct st; cbn [spell app] in E; injection E as E.
          - destruct (letters_prefix v Hv w (writes l) r Hl Hr) as (x & ->); [now symmetry|]. rewrite (Hb eq_refl (v ++ x) x); [apply app_nil_r|now left|reflexivity].
          - rewrite <- !app_assoc in E. assert (NL : forall x, no_letter_first ([PERCENT] ++ x)) by (intros x c t Q; injection Q as <- _; unfold letter, PERCENT; lia).
            destruct (letters_prefix v Hv w _ _ Hl (NL (writes l)) (eq_sym E)) as (x & Ex). destruct (letters_prefix w Hl v _ _ Hv (NL r) E) as (y & Ey). subst w.
            rewrite <- app_assoc in Ey. rewrite <- (app_nil_r v) in Ey at 1. apply app_inv_head in Ey. symmetry in Ey. apply app_eq_nil in Ey as (-> & _). apply app_nil_r. }
        destruct st; cbn [spell app replace_aux] in *.
        -- rewrite S0. cbn [andb]. f_equal. apply (replace_text Dollar v). now apply (marker_not_letters Dollar).
        -- rewrite S0. cbn [andb]. f_equal. rewrite <- app_assoc. pose proof (replace_text Percent v (DOLLAR :: v) w ([PERCENT] ++ writes l) (marker_not_letters Percent w Hl)) as Q. cbn [spell] in Q. cbn [foreign spell] in *. rewrite Q. rewrite <- app_assoc. f_equal. cbn [app replace_aux].
           pose proof (not_start Percent v Hv Hne (PERCENT :: writes l)) as Z. cbn [spell] in Z. rewrite Z; [reflexivity|]. intros t Et. injection Et as <-. exact Hr.
    + cbn [write]. apply replace_text. assert (st' = foreign st) as -> by (destruct st, st'; auto; discriminate). now apply spell_other.
Qed.
Lemma respell_keeps st v l : Forall named l -> Forall (unmarked st) l -> Forall named (map (respell st v) l) /\ Forall (unmarked st) (map (respell st v) l) /\ forall w, In (Var st w) (map (respell st v) l) -> In (Var st w) l.
Proof.
  intros A B. split; [|split].
  - induction A as [|p l Hp A IH]; constructor; [|apply IH; now inversion B]. destruct p as [s|st' w]; [exact I|]. cbn [respell]. destruct (_ && _); exact Hp.
  - clear A. induction B as [|p l Hp B IH]; constructor; [|exact IH]. destruct p as [s|st' w]; [exact Hp|]. cbn [respell]. destruct (_ && _); exact I.
  - intros w Hw. apply in_map_iff in Hw as ([s|st' x] & E & Hp); cbn [respell] in E; [discriminate|]. destruct (_ && _); [destruct st; discriminate|]. now rewrite E in Hp.
Qed.
Lemma replace_names st vs : forall l, Forall named l -> Forall (unmarked st) l -> spaced l -> (forall v, In v vs -> v <> [] /\ Forall letter v /\ bare st v l) ->
  fold_left (fun r v => replace (spell st v) (spell (foreign st) v) r) vs (writes l) = writes (map (fun p => fold_left (fun p v => respell st v p) vs p) l).
Proof.
  induction vs as [|v vs IH]; intros l Hn Hu Hs Hv; cbn [fold_left]; [now rewrite map_id|]. destruct (Hv v (or_introl eq_refl)) as (Hne & Hl & Hb). rewrite replace_name by auto.
  destruct (respell_keeps st v l Hn Hu) as (Hn' & Hu' & Hi). rewrite IH; auto using respell_spaced.
  - now rewrite map_map.
  - intros w Hw. destruct (Hv w (or_intror Hw)) as (A & B & C). split; [exact A|]. split; [exact B|]. intros Q x r Hx. apply (C Q). now apply Hi.
Qed.
Lemma respell_done st vs : forall p, (forall w, p = Var st w -> In w vs) -> fold_left (fun p v => respell st v p) vs p = in_style (foreign st) p.
Proof.
  assert (Fix : forall vs p, (forall w, p <> Var st w) -> fold_left (fun p v => respell st v p) vs p = p).
  { clear. induction vs as [|v vs IH]; intros p Hp; [reflexivity|]. cbn [fold_left]. assert (E : respell st v p = p). { destruct p as [s|st' w]; [reflexivity|]. cbn [respell]. destruct (style_eqb st' st) eqn:Q; [|reflexivity]. exfalso. apply (Hp w). f_equal. destruct st, st'; auto; discriminate. }
    rewrite E. now apply IH. }
  intros p Hp. destruct p as [s|st' w]; [rewrite Fix; [reflexivity|discriminate]|]. destruct (style_eqb st' st) eqn:Q.
  - assert (st' = st) as -> by (destruct st, st'; auto; discriminate). specialize (Hp w eq_refl). clear Q. induction vs as [|v vs IH]; [contradiction|]. cbn [fold_left respell]. assert (Er : style_eqb st st = true) by now destruct st. rewrite Er. cbn [andb].
    destruct (str_eqb w v) eqn:Ew; [rewrite Fix; [reflexivity|destruct st; discriminate]|]. apply IH. destruct Hp as [->|Hp]; [rewrite str_eqb_refl in Ew; discriminate|exact Hp].
  - assert (st' = foreign st) as -> by (destruct st, st'; auto; discriminate). apply Fix. destruct st; discriminate.
Qed.
Lemma names_in_In st l v : In v (names_in st l) <-> In (Var st v) l.
Proof.
  unfold names_in. rewrite in_flat_map. split.
  - intros ([s|st' w] & Hp & Hv); [destruct Hv|]. destruct (style_eqb st' st) eqn:Q; [|destruct Hv]. destruct Hv as [->|[]]. assert (st' = st) as -> by (destruct st, st'; auto; discriminate). exact Hp.
  - intros Hp. exists (Var st v). split; [exact Hp|]. assert (E : style_eqb st st = true) by now destruct st. rewrite E. now left.
Qed.
Lemma unify_eq target path : unify_loop target path PLATFORMS [] path =
  fold_left (fun r v => replace (spell (foreign target) v) (spell target v) r) (find_vars (foreign target) 0 path) path.
Proof. destruct target; reflexivity. Qed.
Theorem unify_writes target l : Forall named l -> Forall (unmarked (foreign target)) l -> spaced l -> (target = Percent -> no_prefix Dollar l) ->
  unify_loop target (writes l) PLATFORMS [] (writes l) = writes (map (in_style target) l).
Proof.
  intros Hn Hu Hs Hp. rewrite unify_eq, (find_all (foreign target) l Hn Hu Hs). assert (Ft : foreign (foreign target) = target) by now destruct target.
  pose proof (replace_names (foreign target) (names_in (foreign target) l) l Hn Hu Hs) as R. rewrite Ft in R. rewrite R.
  - f_equal. apply map_ext_in. intros p Hin. rewrite respell_done; [now rewrite Ft|]. intros w ->. now apply names_in_In.
  - intros v Hv. apply names_in_In in Hv. pose proof (proj1 (Forall_forall _ _) Hn _ Hv) as (A & B). split; [exact A|]. split; [exact B|]. intros Q w r Hw E. assert (target = Percent) by (destruct target; auto; discriminate). rewrite Q in *. exact (Hp H v w r Hv Hw E).
Qed.
