(** Looking up attributes on the composed stage. *)

From Coq Require Import String List NArith ZArith Bool Arith Lia Permutation Sorted.
From Verif Require Import PyStr PyStrFacts NxtPath Dict DictFacts ListMerger SortRows Layer PyVal NodeIO PyClass PyClassSpec PyClassProofs Comp CompSpec MergeProofs CompProofs CompProxyProofs CompPostProofs.
Import ListNotations.

(** Heads that stand in no other list's tail come first. *)
Lemma c3_prefix : forall (A C : list ref) ls, NoDup (A ++ C) -> (forall x l, In x A -> In l ls -> ~ In x (tl l)) ->
  exists ls', c3_merge ref_eqb ((A ++ C) :: ls) = option_map (app A) (c3_merge ref_eqb (C :: ls')).
Proof.
  induction A as [|x A IH]; intros C ls Hn Ht.
  - exists ls. change ([] ++ C) with C. now destruct (c3_merge ref_eqb (C :: ls)).
  - cbn [app] in *. inversion Hn as [|? ? Hx Hn']; subst. rewrite (c3_step ref_eqb ref_eqb_eq). cbn [all_empty forallb andb candidate].
    assert (E : in_a_tail ref_eqb x ((x :: A ++ C) :: ls) = false).
    { apply (in_a_tail_false ref_eqb ref_eqb_eq). intros l [<-|Hl]; [exact Hx|]. apply Ht; [now left|exact Hl]. }
    rewrite E. cbn [map drop_head]. rewrite (proj2 (ref_eqb_eq x x) eq_refl).
    destruct (IH C (map (drop_head ref_eqb x) ls) Hn') as (ls' & E').
    { intros y l Hy Hl. apply in_map_iff in Hl as (l0 & <- & Hl0). intros F. apply (Ht y l0); [now right|exact Hl0|].
      destruct l0 as [|z l0]; [destruct F|]. cbn in F |- *. destruct (ref_eqb x z); [|exact F]. destruct l0; [destruct F|now right]. }
    exists ls'. rewrite E'. now destruct (c3_merge ref_eqb (C :: ls')).
Qed.

Lemma sub_split {A} (x y : A) l m : sub (x :: l) m -> In y l -> exists a b, m = a ++ x :: b /\ In y b.
Proof.
  intros S. remember (x :: l) as k eqn:Ek. revert x l Ek. induction S as [|z a b S IH|z a b S IH]; intros x l Ek Hy; [discriminate| |].
  - destruct (IH _ _ Ek Hy) as (u & v & -> & Hv). exists (z :: u), v. auto.
  - injection Ek as -> ->. exists [], b. split; [reflexivity|]. now apply (sub_in _ _ _ S).
Qed.
Lemma sub_two_ways {A} (x y : A) l l' m : NoDup m -> sub (x :: l) m -> In y l -> sub (y :: l') m -> In x l' -> False.
Proof.
  intros Hn S1 Hy S2 Hx. destruct (sub_split _ _ _ _ S1 Hy) as (a & b & E1 & F1). destruct (sub_split _ _ _ _ S2 Hx) as (a' & b' & E2 & F2). subst m.
  apply in_split in F1 as (u & v & ->). apply in_split in F2 as (u' & v' & ->).
  (* y is after x, x is after y *)
  assert (G : forall a u v a' w, NoDup (a ++ x :: u ++ y :: v) -> a ++ x :: u ++ y :: v = a' ++ y :: w -> ~ In x w).
  { clear. intros a u v a' w Hn E. assert (Ha : a' = a ++ x :: u /\ w = v).
    { replace (a ++ x :: u ++ y :: v) with ((a ++ x :: u) ++ y :: v) in * by now rewrite <- app_assoc. revert Hn E. generalize (a ++ x :: u) as k. clear.
      intros k. revert a'. induction k as [|z k IH]; intros [|z' a'] Hn E; cbn in *; inversion E; subst; auto.
      - inversion Hn as [|? ? F _]; subst. destruct F. apply in_or_app. right. now left.
      - inversion Hn as [|? ? F _]; subst. destruct F. apply in_or_app. right. now left.
      - inversion Hn as [|? ? _ Hn']; subst. destruct (IH _ Hn' H1) as (-> & ->). auto. }
    destruct Ha as (_ & ->). intros F. apply in_split in F as (c & d & ->).
    replace (a ++ x :: u ++ y :: c ++ x :: d) with (a ++ x :: (u ++ y :: c) ++ x :: d) in Hn by now rewrite <- app_assoc.
    apply NoDup_remove_2 in Hn. apply Hn. apply in_or_app. right. apply in_or_app. right. now left. }
  apply (G _ _ _ _ _ Hn E2). apply in_or_app. right. now left.
Qed.

Section Look.
Variables (n : nat) (F H : heap).
Hypothesis G : good n F.
Hypothesis Hpost : post_proxy_comp F = Ok H.
Let lay := layers_of F.

Lemma look_sound : sound H. Proof. apply (post_structure n F G H Hpost). Qed.
Lemma look_owned : owned lay H. Proof. apply (post_structure n F G H Hpost). Qed.
Lemma look_here p : here H p = here F p. Proof. apply here_keys. apply (post_structure n F G H Hpost). Qed.

Lemma lay_sp p r : In r (lay p) -> exists i, r = Sp i.
Proof. apply look_owned. Qed.

Lemma node_mro p rest : here F p = true -> bs H (Co p) = lay p ++ rest -> (forall r, In r rest -> exists q, r = Co q) ->
  exists ls m, map (mro_of H) rest = map Some ls /\ c3_merge ref_eqb (ls ++ [rest]) = Some m /\ mro_of H (Co p) = Some (Co p :: lay p ++ m).
Proof.
  intros Hp Eb Hr. destruct look_sound as (V & So). destruct (So p) as (l & El); [now rewrite look_here|].
  destruct (mro_front ref_eqb ref_eqb_eq (bs H) (length (specs H) + length (comps H)) (Co p) (lay p) rest l) as (ls & m & E1 & E2 & E3).
  - exact Eb.
  - intros x Hx. destruct (lay_sp _ _ Hx) as (i & ->). reflexivity.
  - intros x b Hx Hb U. destruct (lay_sp _ _ Hx) as (i & ->). destruct (owner lay H b i p look_owned Hx U) as [->|U'].
    + destruct (Hr _ Hb) as (q & E). discriminate.
    + apply (sound_acyclic H (Co p) b look_sound); [|exact U']. rewrite Eb. apply in_or_app. now right.
  - exact El.
  - exists ls, m. split; [|split; [exact E2|now rewrite El, E3]]. rewrite <- E1. apply map_ext_in. intros b Hb.
    assert (Ib : In (mro ref_eqb (bs H) (length (specs H) + length (comps H)) b) (map Some ls)) by (rewrite <- E1; now apply in_map).
    apply in_map_iff in Ib as (lb & Elb & _). rewrite <- Elb. apply (mro_enough H _ _ _ V (eq_sym Elb)).
Qed.

Lemma node_bases p : here F p = true -> exists rest, bs H (Co p) = lay p ++ rest /\ (forall r, In r rest -> exists q, r = Co q) /\
    match src F p with
    | None => rest = par F p
    | Some b => b <> p /\ (rest = par F p ++ [Co b] \/ (rest = [Co b] /\ forall r, In r (par F p) -> up H (Co b) r))
    end.
Proof.
  intros Hp. destruct (post_structure n F G H Hpost) as (_ & _ & _ & _ & Ow & _ & _ & Arc). destruct (Arc p Hp) as (rest & E & M). exists rest. split; [exact E|]. split; [|exact M].
  destruct (proj1 Ow p) as (rest' & E' & Hr). assert (rest' = rest) as -> by (apply (app_inv_head (layers_of F p)); congruence). exact Hr.
Qed.

(** Internal attributes: the comp node's own or its strongest layer's. *)
Lemma look_internal p a : here F p = true -> (forall i sp, In (Sp i) (lay p) -> nth_error (specs F) i = Some sp -> dget a sp <> None) ->
  exists r, getattr H (Co p) a = Some (r, attr H p a).
Proof.
  intros Hp Ha. destruct (node_bases p Hp) as (rest & Eb & Hr & _). destruct (node_mro p rest Hp Eb Hr) as (ls & m & _ & _ & Em).
  destruct (post_structure n F G H Hpost) as (Es & _ & _). unfold getattr. rewrite Em. cbn [lookup_in own_attr].
  destruct (flat_bases n F G p) as (is & El & _ & Hne & Hlt). fold lay in El. specialize (Hne Hp). destruct is as [|i is]; [congruence|].
  unfold attr. pose proof (look_here p) as Hp'. rewrite Hp in Hp'. unfold here, dmem in Hp'. unfold bs, bases_in in Eb.
  destruct (dget p (comps H)) as [c|] eqn:Ec; [|discriminate]. unfold node_attr. destruct (dget a (own c)) as [v|] eqn:Eo; [eexists; reflexivity|].
  rewrite Eb, El. cbn [map app lookup_in own_attr]. rewrite Es. destruct (nth_error (specs F) i) as [sp|] eqn:En.
  - unfold attr_or_none. assert (Hi : In (Sp i) (lay p)) by (rewrite El; now left). specialize (Ha _ _ Hi En). destruct (dget a sp); [eexists; reflexivity|congruence].
  - apply nth_error_None in En. specialize (Hlt i (or_introl eq_refl)). lia.
Qed.

Section Attr.
Variable a : pystr.
Hypothesis Ha : ~ In a OWNKEYS.
Let own := own_attr H a.

Lemma own_co q : own (Co q) = None.
Proof.
  unfold own, own_attr. destruct (dget q (comps H)) as [c|] eqn:E; [|reflexivity]. destruct (dget a (Comp.own c)) eqn:Eo; [|reflexivity].
  destruct (post_structure n F G H Hpost) as (_ & _ & _ & _ & _ & Nt & _). destruct Ha. apply (Nt q c a E). congruence.
Qed.
Lemma get_some q l : mro_of H (Co q) = Some l -> getattr H (Co q) a = lookup_in own l.
Proof. intros E. unfold getattr. now rewrite E. Qed.

(** The node's own layers first, strong to weak. *)
Lemma look_layers p r : here F p = true -> lookup_in own (lay p) = Some r -> getattr H (Co p) a = Some r.
Proof.
  intros Hp E. destruct (node_bases p Hp) as (rest & Eb & Hr & _). destruct (node_mro p rest Hp Eb Hr) as (ls & m & _ & _ & Em). rewrite (get_some _ _ Em).
  cbn [lookup_in]. now rewrite own_co, lookup_app, E.
Qed.
Lemma look_none p : here F p = true -> lookup_in own (lay p) = None -> bs H (Co p) = lay p -> getattr H (Co p) a = None.
Proof.
  intros Hp E Eb. destruct (node_mro p [] Hp) as (ls & m & E1 & E2 & Em); [now rewrite app_nil_r|intros ? []|]. rewrite (get_some _ _ Em). cbn [lookup_in].
  rewrite own_co, lookup_app, E. destruct ls; [|discriminate]. cbn in E2. injection E2 as <-. reflexivity.
Qed.
Lemma look_one p q : here F p = true -> lookup_in own (lay p) = None -> bs H (Co p) = lay p ++ [Co q] -> getattr H (Co p) a = getattr H (Co q) a.
Proof.
  intros Hp E Eb. destruct (node_mro p [Co q] Hp Eb) as (ls & m & E1 & E2 & Em); [intros r [<-|[]]; eauto|]. rewrite (get_some _ _ Em). cbn [lookup_in].
  rewrite own_co, lookup_app, E. destruct ls as [|lq [|]]; try discriminate. cbn [map] in E1. injection E1 as Eq. rewrite (get_some _ _ Eq).
  destruct (mro_laws ref_eqb ref_eqb_eq _ _ _ _ Eq) as ((t & ->) & Hn & _). cbn [app] in E2. rewrite (c3_single_base ref_eqb ref_eqb_eq _ _ Hn) in E2. injection E2 as <-. reflexivity.
Qed.

Section Two.
Variables p q b : pystr.
Hypothesis Hp : here F p = true.
Hypothesis Enone : lookup_in own (lay p) = None.
Hypothesis Eb : bs H (Co p) = lay p ++ [Co q; Co b].

Lemma two_mros : exists lq lb m, mro_of H (Co q) = Some lq /\ mro_of H (Co b) = Some lb /\ c3_merge ref_eqb [lq; lb; [Co q; Co b]] = Some m /\
  getattr H (Co p) a = lookup_in own m.
Proof.
  destruct (node_mro p [Co q; Co b] Hp Eb) as (ls & m & E1 & E2 & Em); [intros r [<-|[<-|[]]]; eauto|].
  destruct ls as [|lq [|lb [|]]]; try discriminate. cbn [map] in E1. injection E1 as Eq Ebb. exists lq, lb, m. split; [exact Eq|]. split; [exact Ebb|]. split; [exact E2|].
  rewrite (get_some _ _ Em). cbn [lookup_in]. now rewrite own_co, lookup_app, Enone.
Qed.
(** With a parent and a source: it is what one of them has. *)
Lemma look_either r : getattr H (Co p) a = Some r -> getattr H (Co q) a = Some r \/ getattr H (Co b) a = Some r.
Proof.
  destruct two_mros as (lq & lb & m & Eq & Ebb & E2 & ->). rewrite (get_some _ _ Eq), (get_some _ _ Ebb). destruct r as [c v]. intros E.
  destruct (merge_spec ref_eqb ref_eqb_eq _ _ _ E2) as (Hn & Hin & Hs).
  assert (Hc : In c m). { apply lookup_first in E as (u & w & -> & _). apply in_or_app. right. now left. }
  destruct (proj1 (Hin c) Hc) as (k & [<-|[<-|[<-|[]]]] & Hk).
  - left. eapply lookup_sub; [apply Hs; now left|exact Hn|exact E|exact Hk].
  - right. eapply lookup_sub; [apply Hs; right; now left|exact Hn|exact E|exact Hk].
  - apply lookup_first in E as (u & w & _ & Ec & _). destruct Hk as [<-|[<-|[]]]; rewrite own_co in Ec; discriminate.
Qed.
Lemma look_neither : getattr H (Co p) a = None <-> getattr H (Co q) a = None /\ getattr H (Co b) a = None.
Proof.
  destruct two_mros as (lq & lb & m & Eq & Ebb & E2 & ->). rewrite (get_some _ _ Eq), (get_some _ _ Ebb), !lookup_none.
  destruct (merge_spec ref_eqb ref_eqb_eq _ _ _ E2) as (Hn & Hin & Hs). split.
  - intros E. split; intros x Hx; apply E, Hin; [exists lq|exists lb]; cbn; auto.
  - intros (Q & B) x Hx. destruct (proj1 (Hin x) Hx) as (k & [<-|[<-|[<-|[]]]] & Hk); auto. destruct Hk as [<-|[<-|[]]]; apply own_co.
Qed.
(** The parent is then not above the source. *)
Lemma two_apart : ~ up H (Co b) (Co q).
Proof.
  destruct two_mros as (lq & lb & m & Eq & Ebb & E2 & _). destruct (merge_spec ref_eqb ref_eqb_eq _ _ _ E2) as (Hn & _ & Hs).
  destruct (mro_laws ref_eqb ref_eqb_eq _ _ _ _ Ebb) as ((t & ->) & Hnb & Hinb & _). intros U. apply Hinb in U.
  assert (S1 : sub [Co q; Co b] m) by (apply Hs; right; right; now left). assert (S2 : sub (Co b :: t) m) by (apply Hs; right; now left).
  destruct U as [E|U].
  - injection E as ->. apply (sub_nodup _ _ S1) in Hn. inversion Hn as [|? ? N _]; subst. apply N. now left.
  - eapply (sub_two_ways (Co q) (Co b)); [exact Hn|exact S1|now left|exact S2|exact U].
Qed.
(** What comes first for the parent, before anything above the source, comes
    first for the node. *)
Lemma look_parent_first lq u c w v : mro_of H (Co q) = Some lq -> lq = u ++ c :: w -> own c = Some v -> (forall x, In x u -> own x = None) ->
  (forall x, In x (u ++ [c]) -> ~ up H (Co b) x) -> getattr H (Co p) a = Some (c, v).
Proof.
  intros Eq0 El Ec Hu Hx. destruct two_mros as (lq' & lb & m & Eq & Ebb & E2 & ->). assert (lq' = lq) as -> by congruence.
  destruct (mro_laws ref_eqb ref_eqb_eq _ _ _ _ Eq) as ((t & Et) & Hnq & Hinq & _). destruct (mro_laws ref_eqb ref_eqb_eq _ _ _ _ Ebb) as ((tb & Etb) & _ & Hinb & _).
  assert (El' : lq = (u ++ [c]) ++ w) by (rewrite <- app_assoc; exact El). rewrite El' in E2, Hnq.
  destruct (c3_prefix (u ++ [c]) w [lb; [Co q; Co b]] Hnq) as (ls' & Ep).
  { intros x l Hxu [<-|[<-|[]]] Ht.
    - apply (Hx x Hxu). apply Hinb. rewrite Etb in *. now right.
    - cbn in Ht. destruct Ht as [<-|[]]. apply (Hx _ Hxu). apply above_self. }
  rewrite Ep in E2. destruct (c3_merge ref_eqb (w :: ls')) as [m'|]; [|discriminate]. injection E2 as <-. rewrite lookup_app.
  assert (E : lookup_in own (u ++ [c]) = Some (c, v)) by (apply lookup_first; exists u, []; auto). now rewrite E.
Qed.
(** The layers of the parent win over the source. *)
Lemma look_parent_layers r : here F q = true -> lookup_in own (lay q) = Some r -> getattr H (Co p) a = Some r.
Proof.
  intros Hq E. destruct (node_bases q Hq) as (rest & Eqb & Hr & _). destruct (node_mro q rest Hq Eqb Hr) as (ls & m & _ & _ & Em). destruct r as [c v].
  apply lookup_first in E as (u & w & El & Ec & Hu). apply (look_parent_first _ (Co q :: u) c (w ++ m) v Em).
  - rewrite El. cbn. now rewrite <- app_assoc.
  - exact Ec.
  - intros x [<-|Hx]; [apply own_co|now apply Hu].
  - intros x Hx U. cbn [app] in Hx. destruct Hx as [<-|Hx]; [now apply two_apart|].
    assert (Hxl : In x (lay q)). { rewrite El. apply in_app_or in Hx as [Hx|[<-|[]]]; apply in_or_app; [now left|right; now left]. }
    destruct (lay_sp _ _ Hxl) as (i & ->). destruct (owner lay H (Co b) i q look_owned Hxl U) as [E'|U']; [discriminate|]. now apply two_apart.
Qed.
End Two.
End Attr.
End Look.
