(** Method resolution orders of two class hierarchies that look alike. *)

From Coq Require Import List Bool Arith Lia.
From Verif Require Import PyClass PyClassSpec PyClassProofs.
Import ListNotations.

Section Alike.
Context {A : Type} (eqb : A -> A -> bool).
Hypothesis eqb_eq : forall x y, eqb x y = true <-> x = y.
Variable R : A -> A -> Prop.
Hypothesis one : forall x y x' y', R x x' -> R y y' -> (x = y <-> x' = y').

Lemma eqb_alike x y x' y' : R x x' -> R y y' -> eqb x y = eqb x' y'.
Proof.
  intros Hx Hy. pose proof (one _ _ _ _ Hx Hy) as O. destruct (eqb x y) eqn:E, (eqb x' y') eqn:E'; auto.
  - apply eqb_eq in E. apply O, eqb_eq in E. congruence.
  - apply eqb_eq in E'. apply O, eqb_eq in E'. congruence.
Qed.
Notation RL := (Forall2 R).
Notation RLL := (Forall2 (Forall2 R)).

Lemma isin_alike x x' l l' : R x x' -> RL l l' -> isin eqb x l = isin eqb x' l'.
Proof. intros Hx. induction 1 as [|y y' l l' Hy _ IH]; [reflexivity|]. cbn. rewrite (eqb_alike _ _ _ _ Hx Hy). f_equal. exact IH. Qed.
Lemma tl_alike l l' : RL l l' -> RL (tl l) (tl l').
Proof. destruct 1; [constructor|assumption]. Qed.
Lemma tail_alike x x' ls ls' : R x x' -> RLL ls ls' -> in_a_tail eqb x ls = in_a_tail eqb x' ls'.
Proof. intros Hx. induction 1 as [|l l' ls ls' Hl _ IH]; [reflexivity|]. cbn. rewrite (isin_alike x x' (tl l) (tl l') Hx (tl_alike _ _ Hl)). f_equal. exact IH. Qed.
Definition RO {B C} (Q : B -> C -> Prop) (o : option B) (o' : option C) : Prop :=
  match o, o' with Some x, Some y => Q x y | None, None => True | _, _ => False end.
Lemma candidate_alike all all' : RLL all all' -> forall ls ls', RLL ls ls' -> RO R (candidate eqb ls all) (candidate eqb ls' all').
Proof.
  intros Ha. induction 1 as [|l l' ls ls' Hl _ IH]; [exact I|]. destruct Hl as [|x x' t t' Hx Ht]; [exact IH|]. cbn [candidate].
  rewrite (tail_alike x x' all all' Hx Ha). destruct (in_a_tail eqb x' all'); [exact IH|exact Hx].
Qed.
Lemma drop_alike x x' l l' : R x x' -> RL l l' -> RL (drop_head eqb x l) (drop_head eqb x' l').
Proof. intros Hx. destruct 1 as [|y y' t t' Hy Ht]; [constructor|]. cbn. rewrite (eqb_alike _ _ _ _ Hx Hy). destruct (eqb x' y'); [exact Ht|now constructor]. Qed.
Lemma drops_alike x x' ls ls' : R x x' -> RLL ls ls' -> RLL (map (drop_head eqb x) ls) (map (drop_head eqb x') ls').
Proof. intros Hx. induction 1; cbn; constructor; auto using drop_alike. Qed.
Lemma empty_alike ls ls' : RLL ls ls' -> all_empty ls = all_empty ls'.
Proof. induction 1 as [|l l' ls ls' Hl _ IH]; [reflexivity|]. cbn. destruct Hl; cbn; [exact IH|reflexivity]. Qed.
Lemma merge_alike f : forall ls ls', RLL ls ls' -> RO RL (merge eqb f ls) (merge eqb f ls').
Proof.
  induction f as [|f IH]; intros ls ls' H; cbn [merge]; rewrite (empty_alike _ _ H); destruct (all_empty ls'); try (constructor; fail); try exact I.
  pose proof (candidate_alike _ _ H _ _ H) as C. destruct (candidate eqb ls ls) as [x|], (candidate eqb ls' ls') as [x'|]; try contradiction; [|exact I].
  pose proof (IH _ _ (drops_alike _ _ _ _ C H)) as M. destruct (merge eqb f (map (drop_head eqb x) ls)), (merge eqb f (map (drop_head eqb x') ls')); try contradiction; cbn; [now constructor|exact I].
Qed.
Lemma concat_alike ls ls' : RLL ls ls' -> RL (concat ls) (concat ls').
Proof. induction 1; cbn; [constructor|now apply Forall2_app]. Qed.
Lemma F2_len (l l' : list A) : RL l l' -> length l = length l'.
Proof. induction 1; cbn; auto. Qed.
Lemma c3_alike ls ls' : RLL ls ls' -> RO RL (c3_merge eqb ls) (c3_merge eqb ls').
Proof. intros H. unfold c3_merge. rewrite (F2_len _ _ (concat_alike _ _ H)). now apply merge_alike. Qed.
Lemma sequence_alike (l l' : list (option (list A))) : Forall2 (RO RL) l l' -> RO RLL (sequence l) (sequence l').
Proof.
  induction 1 as [|[x|] [x'|] l l' Hx _ IH]; cbn [sequence RO] in *; try contradiction; [constructor| |exact I].
  destruct (sequence l), (sequence l'); try contradiction; cbn; [now constructor|exact I].
Qed.

(** Where bases correspond, MROs do. *)
Variables g g' : A -> list A.
Hypothesis bases_alike : forall x x', R x x' -> RL (g x) (g' x').
Lemma mro_alike f : forall x x', R x x' -> RO RL (mro eqb g f x) (mro eqb g' f x').
Proof.
  induction f as [|f IH]; intros x x' Hx; [exact I|]. cbn [mro]. pose proof (bases_alike x x' Hx) as B.
  assert (S : RO RLL (sequence (map (mro eqb g f) (g x))) (sequence (map (mro eqb g' f) (g' x')))).
  { apply sequence_alike. clear Hx. induction B as [|y y' l l' Hy _ IHl]; cbn [map]; constructor; auto. }
  destruct (sequence (map (mro eqb g f) (g x))) as [ls|], (sequence (map (mro eqb g' f) (g' x'))) as [ls'|]; try contradiction; [|exact I].
  cbn [RO] in S. assert (M : RO RL (c3_merge eqb (ls ++ [g x])) (c3_merge eqb (ls' ++ [g' x']))).
  { apply c3_alike. apply Forall2_app; [exact S|]. constructor; [exact B|constructor]. }
  destruct (c3_merge eqb (ls ++ [g x])), (c3_merge eqb (ls' ++ [g' x'])); try contradiction; cbn; [now constructor|exact I].
Qed.
Context {V : Type} (own own' : A -> option V).
Hypothesis own_alike : forall x x', R x x' -> own x = own' x'.
Lemma lookup_alike l l' : RL l l' -> option_map snd (lookup_in own l) = option_map snd (lookup_in own' l').
Proof. induction 1 as [|x x' l l' Hx _ IH]; [reflexivity|]. cbn. rewrite (own_alike _ _ Hx). destruct (own' x'); [reflexivity|exact IH]. Qed.
End Alike.
