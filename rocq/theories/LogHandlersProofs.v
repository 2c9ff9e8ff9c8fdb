From Coq Require Import String List NArith ZArith Bool Arith Lia.
From Verif Require Import PyStr PyStrFacts Dict DictFacts PyVal Legacy LogHandlers LogHandlersSpec.
Import ListNotations.

Definition is_sink (k : sink) (h : handler) : bool := if sink_dec (goes h) k then true else false.
(** The handler number [i] writes a record of level [l] to [k]. *)
Definition hits (k : sink) (l : Z) (m : list handler) (i : nat) : bool :=
  match nth_error m i with Some h => is_sink k h && Z.leb (least h) l | None => false end.

Lemma copies_hits k l s : (DEBUG <= l)%Z -> copies k l s = length (filter (hits k l (made s)) (attached s)).
Proof.
  intros Hl. unfold copies, log. rewrite (proj2 (Z.ltb_ge _ _) Hl).
  induction (attached s) as [|i t IH]; [reflexivity|]. cbn [flat_map filter]. unfold hits at 1.
  destruct (nth_error (made s) i) as [h|] eqn:E; cbn [app]; [|exact IH].
  cbn [filter]. destruct (Z.leb (least h) l); cbn [map]; [|rewrite andb_false_r; exact IH].
  rewrite andb_true_r. unfold is_sink. cbn [count_occ]. destruct (sink_dec (goes h) k); cbn [length]; now rewrite IH.
Qed.

Lemma relevel_nth l : forall hs i j, nth_error (relevel i l hs) j =
  option_map (fun h => if Nat.eqb j i then {| goes := goes h; least := l |} else h) (nth_error hs j).
Proof.
  induction hs as [|h hs IH]; intros i j; [destruct i, j; reflexivity|].
  destruct i, j; cbn; try reflexivity; [now destruct (nth_error hs j)|apply IH].
Qed.
Lemma relevel_length l : forall hs i, length (relevel i l hs) = length hs.
Proof. induction hs as [|h hs IH]; intros [|i]; cbn; auto. Qed.
Lemma relevel_new l h : forall hs, relevel (length hs) l (hs ++ [h]) = hs ++ [{| goes := goes h; least := l |}].
Proof. induction hs as [|x hs IH]; cbn; [reflexivity|now rewrite IH]. Qed.

(** What always holds. *)
Record sound (s : st) : Prop := {
  s_nodup : NoDup (attached s);
  s_made : forall i, In i (attached s) -> i < length (made s);
  s_verbose : forall i, verbose_handler s = Some i -> exists h, nth_error (made s) i = Some h /\ goes h = Stderr;
  s_session : forall g i, dget g (sessions s) = Some i -> exists h, nth_error (made s) i = Some h /\ goes h = File g;
  s_least : forall i h, nth_error (made s) i = Some h -> goes h <> Stderr -> least h = 0%Z
}.

Definition extended (h : handler) (s : st) : st := fst (add_new h s).
Lemma extended_sound h s : (goes h <> Stderr -> least h = 0%Z) -> sound s -> sound (extended h s).
Proof.
  intros Hh [A B C D E]. unfold extended, add_new. constructor; cbn [made attached verbose_handler sessions fst].
  - rewrite <- (rev_involutive (attached s ++ _)). apply NoDup_rev.
    rewrite rev_app_distr. cbn [rev app]. constructor; [|now apply NoDup_rev]. rewrite <- in_rev. intros X. apply B in X. lia.
  - intros i X. rewrite app_length. cbn [length]. apply in_app_iff in X as [X|[<-|[]]]; [apply B in X|]; lia.
  - intros i X. destruct (C i X) as (h0 & N & G). exists h0. split; auto. rewrite nth_error_app1; auto. apply nth_error_Some. congruence.
  - intros g i X. destruct (D g i X) as (h0 & N & G). exists h0. split; auto. rewrite nth_error_app1; auto. apply nth_error_Some. congruence.
  - intros i h0 N. destruct (Nat.lt_ge_cases i (length (made s))) as [L|L]; [rewrite nth_error_app1 in N by lia; eauto|].
    rewrite nth_error_app2 in N by lia. destruct (i - length (made s)) as [|[|n]]; cbn in N; try discriminate. now injection N as <-.
Qed.
Lemma extended_hits k l h s : sound s ->
  filter (hits k l (made (extended h s))) (attached (extended h s)) =
  filter (hits k l (made s)) (attached s) ++ (if is_sink k h && Z.leb (least h) l then [length (made s)] else []).
Proof.
  intros S. unfold extended, add_new. cbn [made attached fst]. rewrite filter_app. f_equal.
  - apply filter_ext_in. intros i X. unfold hits. rewrite nth_error_app1; auto. now apply (s_made _ S).
  - cbn [filter]. unfold hits. rewrite nth_error_app2, Nat.sub_diag by lia. reflexivity.
Qed.
Lemma filter_nodup {A} (p : A -> bool) l : NoDup l -> NoDup (filter p l).
Proof. apply NoDup_filter. Qed.
Lemma detach_sound i s : sound s -> sound (detach i s).
Proof.
  intros [A B C D E]. unfold detach. constructor; cbn [made attached verbose_handler sessions]; auto.
  - now apply NoDup_filter.
  - intros j X. apply filter_In in X. apply B. tauto.
Qed.
Lemma filter_comm {A} (p q : A -> bool) l : filter p (filter q l) = filter q (filter p l).
Proof. induction l as [|x l IH]; cbn; auto. destruct (p x) eqn:P, (q x) eqn:Q; cbn [filter]; rewrite ?P, ?Q; rewrite ?IH; auto. Qed.
Lemma filter_true {A} (p : A -> bool) l : (forall x, In x l -> p x = true) -> filter p l = l.
Proof. induction l as [|x l IH]; cbn; auto. intros H. rewrite (H x (or_introl eq_refl)). f_equal. apply IH. intros y Y. apply H. now right. Qed.
Lemma detach_hits k l i s :
  filter (hits k l (made (detach i s))) (attached (detach i s)) =
  filter (fun j => negb (Nat.eqb j i)) (filter (hits k l (made s)) (attached s)).
Proof. unfold detach. cbn [made attached]. apply filter_comm. Qed.
Lemma detach_other k l i h s : nth_error (made s) i = Some h -> goes h <> k ->
  filter (hits k l (made (detach i s))) (attached (detach i s)) = filter (hits k l (made s)) (attached s).
Proof.
  intros N G. rewrite detach_hits. apply filter_true. intros j X. apply filter_In in X as (_ & X). apply negb_true_iff, Nat.eqb_neq. intros ->.
  unfold hits in X. rewrite N in X. unfold is_sink in X. destruct (sink_dec (goes h) k); [contradiction|discriminate].
Qed.
Lemma set_level_sound i l s : (exists h, nth_error (made s) i = Some h /\ goes h = Stderr) -> sound s -> sound (set_level i l s).
Proof.
  intros (h & N & G) [A B C D E]. unfold set_level.
  assert (K : forall j h0, nth_error (made s) j = Some h0 -> exists h1, nth_error (relevel i l (made s)) j = Some h1 /\ goes h1 = goes h0).
  { intros j h0 Nj. rewrite relevel_nth, Nj. cbn [option_map]. eexists. split; [reflexivity|]. now destruct (Nat.eqb j i). }
  constructor; cbn [made attached verbose_handler sessions]; auto.
  - intros j X. rewrite relevel_length. auto.
  - intros j X. destruct (C j X) as (h0 & Nj & Gj). destruct (K j h0 Nj) as (h1 & ? & ?). exists h1. split; congruence.
  - intros g j X. destruct (D g j X) as (h0 & Nj & Gj). destruct (K j h0 Nj) as (h1 & ? & ?). exists h1. split; congruence.
  - intros j h1. rewrite relevel_nth. destruct (nth_error (made s) j) as [h0|] eqn:Nj; [|discriminate]. cbn [option_map].
    destruct (Nat.eqb_spec j i) as [->|Q]; intros X; injection X as <-; cbn; [congruence|eauto].
Qed.
Lemma set_level_other k l i l' s : (exists h, nth_error (made s) i = Some h /\ goes h <> k) ->
  filter (hits k l (made (set_level i l' s))) (attached (set_level i l' s)) = filter (hits k l (made s)) (attached s).
Proof.
  intros (h & N & G). unfold set_level. cbn [made attached]. apply filter_ext. intros j. unfold hits. rewrite relevel_nth.
  destruct (nth_error (made s) j) as [h0|] eqn:Nj; [|reflexivity]. cbn [option_map].
  destruct (Nat.eqb_spec j i) as [->|Q]; [|reflexivity]. rewrite N in Nj. injection Nj as <-.
  unfold is_sink. cbn [goes least]. destruct (sink_dec (goes h) k); [contradiction|reflexivity].
Qed.
Lemma set_level_new h l s : set_level (length (made s)) l (extended h s) = extended {| goes := goes h; least := l |} s.
Proof. unfold set_level, extended, add_new. cbn [fst made attached verbose_handler sessions]. now rewrite relevel_new. Qed.

(** The cases of a call about the verbosity. *)
Lemma verbosity_cases l s s' : after (Verbosity l) s = s' ->
  (asks_socket (Verbosity l) = true /\ s' = extended {| goes := Remote; least := 0 |} s) \/
  (asks_socket (Verbosity l) = false /\ asks (Verbosity l) = None /\ s' = s) \/
  (exists z, asks_socket (Verbosity l) = false /\ asks (Verbosity l) = Some z /\
    ((z < 0)%Z /\ s' = s \/
     z = 0%Z /\ s' = match verbose_handler s with None => s | Some i => detach i s end \/
     (0 < z)%Z /\ s' = match verbose_handler s with
                       | None => extended {| goes := Stderr; least := if Z.eqb z 1 then EXECINFO else 0 |} s
                       | Some i => if Z.eqb z 1 then set_level i EXECINFO s else s
                       end)).
Proof.
  intros <-. unfold after, set_verbosity, asks_socket, asks.
  destruct (match l with Text t => str_eqb t (lit "socket") | Num _ => false end) eqn:So.
  - left. split; auto; try (destruct l; auto; discriminate). 
  - right. set (o := match l with Num z => Some z | Text t => py_int t end).
    assert (Eo : match l with Text t => if str_eqb t (lit "socket") then None else py_int t | Num z => Some z end = o)
      by (destruct l; [rewrite So|]; reflexivity).
    assert (G : match l with Num z => Some z | Text t => if str_eqb t (lit "socket") then None else py_int t end = o)
      by (destruct l; [rewrite So|]; reflexivity).
    destruct o as [z|] eqn:Ez; [|left; auto]. right. exists z. split; auto. split; auto.
    destruct (Z.eqb_spec z 0) as [->|Hz]; [right; left; split; auto; now destruct (verbose_handler s)|].
    destruct (Z.ltb_spec 0 z) as [L|L]; [right; right; split; auto|left; split; auto; lia].
    destruct (verbose_handler s) as [i|]; [now destruct (Z.eqb z 1)|].
    change (add_new {| goes := Stderr; least := 0 |} s) with (extended {| goes := Stderr; least := 0 |} s, length (made s)).
    cbv beta iota zeta. destruct (Z.eqb z 1); [|reflexivity]. now rewrite set_level_new.
Qed.

Lemma after_sound e s : sound s -> sound (after e s).
Proof.
  intros S. destruct e as [l|f|f].
  - destruct (verbosity_cases l s _ eq_refl) as [[_ ->]|[(_ & _ & ->)|(z & _ & _ & [[_ ->]|[[_ ->]|[_ ->]]])]]; auto.
    + apply extended_sound; auto.
    + destruct (verbose_handler s); auto. now apply detach_sound.
    + destruct (verbose_handler s) as [i|] eqn:V.
      * destruct (Z.eqb z 1); auto. apply set_level_sound; auto. now apply (s_verbose _ S).
      * apply extended_sound; auto. cbn. congruence.
  - cbn [after]. unfold make_session_log. cbn [add_new].
    pose proof (extended_sound {| goes := File f; least := 0 |} s (fun _ => eq_refl) S) as [A B C D E].
    constructor; cbn [made attached verbose_handler sessions]; auto.
    intros g i X. rewrite dget_dset in X. destruct (str_eqb f g) eqn:Q; [|exact (D g i X)].
    apply str_eqb_eq in Q as ->. injection X as <-. rewrite nth_error_app2, Nat.sub_diag by lia. cbn. eauto.
  - cbn [after]. unfold stop_session_log. destruct (dget f (sessions s)); auto. now apply detach_sound.
Qed.
Lemma run_sound es : forall s, sound s -> sound (run es s).
Proof. induction es as [|e es IH]; intros s S; [exact S|]. apply IH. now apply after_sound. Qed.
Lemma run_snoc es e s : run (es ++ [e]) s = after e (run es s).
Proof. unfold run. now rewrite fold_left_app. Qed.
Lemma logging_snoc f es e : logging_to f (es ++ [e]) = match e with
                        | Start g => if str_eqb g f then true else logging_to f es
                        | Stop g => if str_eqb g f then false else logging_to f es
                        | _ => logging_to f es
                        end.
Proof. unfold logging_to. now rewrite fold_left_app. Qed.

Section Files.
Variables (f : pystr) (l : Z).
Hypothesis Hl : (DEBUG <= l)%Z.
Definition writes (s : st) : list nat := filter (hits (File f) l (made s)) (attached s).
Definition file_inv (b : bool) (s : st) : Prop :=
  if b then exists i, dget f (sessions s) = Some i /\ writes s = [i] else writes s = [].

Lemma verbosity_writes v s : sound s -> writes (after (Verbosity v) s) = writes s /\ sessions (after (Verbosity v) s) = sessions s.
Proof.
  intros S. unfold writes. destruct (verbosity_cases v s _ eq_refl) as [[_ ->]|[(_ & _ & ->)|(z & _ & _ & [[_ ->]|[[_ ->]|[_ ->]]])]]; auto.
  - rewrite extended_hits by exact S. cbn. now rewrite app_nil_r.
  - destruct (verbose_handler s) as [i|] eqn:V; auto. destruct (s_verbose _ S i V) as (h & N & G). split; [|reflexivity].
    apply (detach_other _ _ _ h); auto. congruence.
  - destruct (verbose_handler s) as [i|] eqn:V.
    + destruct (Z.eqb z 1); auto. destruct (s_verbose _ S i V) as (h & N & G). split; [|reflexivity]. apply set_level_other. exists h. split; congruence.
    + rewrite extended_hits by exact S. cbn. now rewrite app_nil_r.
Qed.

Lemma files_run es s : sound s -> writes s = [] -> not_restarted f es ->
  file_inv (logging_to f es) (run es s).
Proof.
  intros S W. induction es as [|e es IH] using rev_ind; [intros _; exact W|]. intros Nr.
  assert (I : file_inv (logging_to f es) (run es s)).
  { apply IH. intros a b E. apply (Nr a (b ++ [e])). rewrite E, <- app_assoc. reflexivity. }
  pose proof (run_sound es s S) as S'. rewrite run_snoc, logging_snoc. set (t := run es s) in *. clearbody t.
  destruct e as [v|g|g].
  - destruct (verbosity_writes v t S') as (E1 & E2). unfold file_inv in *. now rewrite E1, E2.
  - assert (E : writes (after (Start g) t) = writes t ++ (if is_sink (File f) {| goes := File g; least := 0 |} then [length (made t)] else [])).
    { unfold writes. change (made (after (Start g) t)) with (made (extended {| goes := File g; least := 0 |} t)).
      change (attached (after (Start g) t)) with (attached (extended {| goes := File g; least := 0 |} t)).
      rewrite extended_hits by exact S'. cbn [least]. assert (L : (0 <=? l)%Z = true) by (apply Z.leb_le; unfold DEBUG in Hl; lia). now rewrite L, andb_true_r. }
    assert (D : dget f (sessions (after (Start g) t)) = if str_eqb g f then Some (length (made t)) else dget f (sessions t)).
    { change (sessions (after (Start g) t)) with (dset g (length (made t)) (sessions t)). apply dget_dset. }
    unfold is_sink in E. cbn [goes] in E. destruct (str_eqb g f) eqn:Q.
    + apply str_eqb_eq in Q as ->. destruct (sink_dec (File f) (File f)) as [_|N]; [|now destruct N].
      rewrite (Nr es [] eq_refl) in I. cbn [file_inv] in *. rewrite I in E. eauto.
    + destruct (sink_dec (File g) (File f)) as [N|_]; [injection N as ->; rewrite str_eqb_refl in Q; discriminate|].
      rewrite app_nil_r in E. unfold file_inv in *. now rewrite E, D.
  - cbn [after]. unfold stop_session_log. destruct (str_eqb g f) eqn:Q.
    + apply str_eqb_eq in Q as ->. destruct (dget f (sessions t)) as [i|] eqn:D.
      * unfold file_inv, writes. rewrite detach_hits. fold (writes t). destruct (logging_to f es); cbn [file_inv] in I.
        -- destruct I as (j & Dj & ->). rewrite D in Dj. injection Dj as ->. cbn [filter]. now rewrite Nat.eqb_refl.
        -- now rewrite I.
      * destruct (logging_to f es); cbn [file_inv] in *; [destruct I as (j & Dj & _); congruence|exact I].
    + destruct (dget g (sessions t)) as [i|] eqn:D; [|exact I]. destruct (s_session _ S' g i D) as (h & N & G).
      assert (E : writes (detach i t) = writes t).
      { apply (detach_other _ _ _ h); auto. rewrite G. intros X. injection X as ->. rewrite str_eqb_refl in Q. discriminate. }
      unfold file_inv in *. rewrite E. exact I.
Qed.
End Files.

(** What the startup leaves. *)
Lemma started env s : initial_setup env = Ok s -> sound s /\ sessions s = [] /\
  (forall f l, writes f l s = []) /\ (forall i h, nth_error (made s) i = Some h -> goes h = Stderr -> verbose_handler s = Some i) /\
  (forall i, verbose_handler s = Some i -> attached s = [0; i] /\ i = 1).
Proof.
  assert (S0 : sound (extended {| goes := Nowhere; least := 0 |} nothing)).
  { apply extended_sound; [reflexivity|]. constructor; cbn; try discriminate; try contradiction; [constructor|]. intros i h. destruct i; discriminate. }
  unfold initial_setup. fold (extended {| goes := Nowhere; least := 0 |} nothing). set (s0 := extended _ _) in *.
  assert (W0 : forall f l, writes f l s0 = []) by reflexivity.
  assert (G0 : forall i h, nth_error (made s0) i = Some h -> goes h <> Stderr).
  { intros [|i] h E; cbn in E; [injection E as <-; discriminate|destruct i; discriminate]. }
  destruct env as [t|].
  2:{ intros E. injection E as <-. split; [exact S0|]. split; [reflexivity|]. split; [exact W0|]. split; [|discriminate]. intros i h E G. now apply G0 in E. }
  destruct (set_verbosity (Text t) s0) as [(s1, h1)|] eqn:E; [|discriminate]. cbn [bind]. intros X. injection X as <-.
  unfold set_verbosity in E. destruct (str_eqb t (lit "socket")).
  - injection E as <- <-. fold (extended {| goes := Remote; least := 0 |} s0).
    pose proof (extended_sound {| goes := Remote; least := 0 |} s0 (fun _ => eq_refl) S0) as [A B C D F].
    split; [constructor; cbn [made attached verbose_handler sessions]; auto; discriminate|]. split; [reflexivity|]. split; [reflexivity|]. split; [|discriminate].
    intros i h N G. exfalso. cbn in N. destruct i as [|[|i]]; cbn in N; try (injection N as <-; discriminate). destruct i; discriminate.
  - destruct (py_int t) as [z|]; [|discriminate]. destruct (Z.eqb z 0).
    { injection E as <- <-. split; [destruct S0 as [A B C D F]; constructor; auto; discriminate|]. split; [reflexivity|]. split; [exact W0|]. split; [|discriminate]. intros i h N G. now apply G0 in N. }
    destruct (Z.ltb 0 z).
    2:{ injection E as <- <-. split; [destruct S0 as [A B C D F]; constructor; auto; discriminate|]. split; [reflexivity|]. split; [exact W0|]. split; [|discriminate]. intros i h N G. now apply G0 in N. }
    change (verbose_handler s0) with (@None nat) in E. cbv beta iota in E.
    change (add_new {| goes := Stderr; least := 0 |} s0) with (extended {| goes := Stderr; least := 0 |} s0, length (made s0)) in E. cbv beta iota zeta in E.
    assert (K : exists l, s1 = extended {| goes := Stderr; least := l |} s0 /\ h1 = Some 1).
    { destruct (Z.eqb z 1); injection E as <- <-; [exists EXECINFO|exists 0%Z]; (split; [|reflexivity]); [exact (set_level_new {| goes := Stderr; least := 0 |} EXECINFO s0)|reflexivity]. }
    destruct K as (l0 & -> & ->).
    pose proof (extended_sound {| goes := Stderr; least := l0 |} s0 (fun X => match X eq_refl with end) S0) as [A B C D F].
    split; [constructor; cbn [made attached verbose_handler sessions]; auto|].
    { intros i X. injection X as <-. eexists. split; reflexivity. }
    split; [reflexivity|]. split; [reflexivity|]. split; [|intros i X; injection X as <-; split; reflexivity].
    intros i h N G. cbn in N. destruct i as [|[|i]]; cbn in N; [injection N as <-; discriminate|reflexivity|destruct i; discriminate].
Qed.
