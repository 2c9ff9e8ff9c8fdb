(** The classes and attributes after the composition of arcs. *)

From Coq Require Import String List NArith ZArith Bool Arith Lia Permutation Sorted.
From Verif Require Import PyStr PyStrFacts NxtPath Dict DictFacts ListMerger SortRows Layer PyVal NodeIO PyClass PyClassSpec PyClassProofs Comp CompSpec MergeProofs CompProofs CompProxyProofs.
From Verif Require DirtyProofs SortProofs.
Import ListNotations.

Definition bs (H : heap) : ref -> list ref := bases_in (comps H).
Definition up (H : heap) : ref -> ref -> Prop := above (bs H).

(** *** There is always fuel for an MRO *)

Definition valid (H : heap) : Prop := forall p c r, dget p (comps H) = Some c -> In r (cbases c) ->
  match r with Sp i => i < length (specs H) | Co q => here H q = true end.

Lemma sub_length {A} (a b : list A) : sub a b -> length a <= length b.
Proof. induction 1; cbn; lia. Qed.

Lemma mro_short (g : ref -> list ref) f : forall c l, mro ref_eqb g f c = Some l -> mro ref_eqb g (length l) c = Some l.
Proof.
  induction f as [|f IH]; intros c l E; [discriminate|].
  destruct (mro_laws ref_eqb ref_eqb_eq g _ _ _ E) as ((r & ->) & Hn & Hin & _ & Hsub). inversion Hn as [|? ? Hc Hn']; subst.
  pose proof E as E0. apply (mro_unfold ref_eqb g) in E as (ls & m & E1 & E2 & E3). injection E3 as <-. cbn [length]. apply (mro_unfold ref_eqb g).
  exists ls, r. split; [|auto]. rewrite <- E1. apply map_ext_in. intros b Hb.
  destruct (mro_bases ref_eqb g _ _ _ E0 _ Hb) as (lb & Elb). rewrite Elb. specialize (IH _ _ Elb).
  apply (mro_le ref_eqb g (length lb)); [|exact IH]. pose proof (Hsub _ _ _ Hb Elb) as Sb.
  assert (Nb : ~ In c lb).
  { intros F. destruct (mro_laws ref_eqb ref_eqb_eq g _ _ _ Elb) as (_ & _ & Hinb & _). apply Hinb in F. exact (mro_acyclic ref_eqb g _ _ _ _ E0 Hb F). }
  inversion Sb as [|x a b' Sb' Ea Eb|x a b' Sb' Ea Eb]; subst; [now apply sub_length|]. destruct Nb. now left.
Qed.

Lemma above_valid H r s : valid H -> up H r s -> s = r \/ match s with Sp i => i < length (specs H) | Co q => here H q = true end.
Proof.
  intros V. induction 1 as [c|c b d Hb _ IH]; [now left|]. right. destruct IH as [->|F]; [|exact F].
  destruct c as [i|p]; [destruct Hb|]. unfold bs, bases_in in Hb. destruct (dget p (comps H)) as [c|] eqn:E; [|destruct Hb]. now apply (V _ _ _ E).
Qed.

Lemma mro_enough H f r l : valid H -> mro ref_eqb (bs H) f r = Some l -> mro_of H r = Some l.
Proof.
  intros V E. pose proof (mro_short _ _ _ _ E) as E'. unfold mro_of. apply (mro_le ref_eqb (bases_in (comps H)) (length l)); [|exact E'].
  destruct (mro_laws ref_eqb ref_eqb_eq _ _ _ _ E) as ((t & ->) & Hn & Hin & _). cbn [length]. inversion Hn as [|? ? Hr Hn']; subst.
  apply le_n_S. transitivity (length (map Sp (seq 0 (length (specs H))) ++ map Co (dkeys (comps H)))).
  - apply NoDup_incl_length; [exact Hn'|]. intros x Hx. assert (U : up H r x) by (apply Hin; now right).
    destruct (above_valid _ _ _ V U) as [->|F]; [contradiction|]. apply in_or_app. destruct x as [i|p].
    + left. apply in_map. apply in_seq. lia.
    + right. apply in_map. now apply here_In.
  - rewrite app_length, !map_length, seq_length. unfold dkeys. now rewrite map_length.
Qed.

(** *** Hierarchies in which every node has an MRO *)

Definition sound (H : heap) : Prop := valid H /\ forall p, here H p = true -> exists l, mro_of H (Co p) = Some l.

Lemma all_mros_spec H : all_mros H = true <-> forall p, here H p = true -> exists l, mro_of H (Co p) = Some l.
Proof.
  unfold all_mros. rewrite forallb_forall. split.
  - intros A p F. apply here_In in F. apply in_map_iff in F as ((k & c) & <- & F). specialize (A _ F). cbn [fst] in A |- *. destruct (mro_of H (Co k)) as [l|]; [exists l; reflexivity|discriminate].
  - intros A (k & c) F. cbn [fst]. destruct (A k) as (l & ->); [|reflexivity]. apply here_In. apply in_map_iff. exists (k, c). auto.
Qed.
Lemma sound_acyclic H r b : sound H -> In b (bs H r) -> ~ up H b r.
Proof.
  intros (_ & M) Hb. destruct r as [i|p]; [destruct Hb|]. assert (F : here H p = true).
  { unfold bs, bases_in in Hb. unfold here, dmem. destruct (dget p (comps H)); [reflexivity|destruct Hb]. }
  destruct (M _ F) as (l & E). exact (mro_acyclic ref_eqb _ _ _ _ _ E Hb).
Qed.
Lemma up_trans H a b c : up H a b -> up H b c -> up H a c.
Proof. apply above_trans. Qed.
Lemma up_base H a b : In b (bs H a) -> up H a b.
Proof. intros F. eapply above_base; [exact F|apply above_self]. Qed.

(** The spec nodes of a heap belong to one comp node each. *)
Definition owned (fl : pystr -> list ref) (H : heap) : Prop :=
  (forall p, exists rest, bs H (Co p) = fl p ++ rest /\ forall r, In r rest -> exists q, r = Co q) /\
  (forall p r, In r (fl p) -> exists i, r = Sp i) /\
  (forall p q i, In (Sp i) (fl p) -> In (Sp i) (fl q) -> p = q).

Lemma owner fl H r i p : owned fl H -> In (Sp i) (fl p) -> up H r (Sp i) -> r = Sp i \/ up H r (Co p).
Proof.
  intros (O1 & O2 & O3) Hi U. remember (Sp i) as s. induction U as [c|c b d Hb U IH]; [now left|]. right. subst d. destruct (IH eq_refl Hi) as [->|F].
  - destruct c as [j|q]; [destruct Hb|]. destruct (O1 q) as (rest & E & Hr). rewrite E in Hb. apply in_app_or in Hb as [Hb|Hb].
    + rewrite (O3 _ _ _ Hb Hi). apply above_self.
    + destruct (Hr _ Hb) as (x & F). discriminate.
  - eapply up_trans; [apply up_base; exact Hb|exact F].
Qed.

(** Two hierarchies that differ only in the bases of [p]. *)
Lemma reach_first H H' p r : (forall q, q <> Co p -> bs H' q = bs H q) -> sound H -> up H r (Co p) -> up H' r (Co p).
Proof.
  intros E S U. remember (Co p) as d eqn:Ed. induction U as [c|c b d Hb U IH]; [apply above_self|]. subst d. eapply above_base; [|apply IH; [reflexivity|exact E]].
  rewrite E; [exact Hb|]. intros ->. now apply (sound_acyclic _ _ _ S Hb).
Qed.
Lemma reach_free H H' p r s : (forall q, q <> Co p -> bs H' q = bs H q) -> ~ up H r (Co p) -> up H r s -> up H' r s.
Proof.
  intros E N U. induction U as [c|c b d Hb U IH]; [apply above_self|]. eapply above_base.
  - rewrite E; [exact Hb|]. intros ->. apply N. apply above_self.
  - apply IH. intros F. apply N. eapply above_base; eauto.
Qed.

(** *** Heaps with the same classes *)

Lemma mro_ext (g g' : ref -> list ref) : (forall r, g r = g' r) -> forall f c, mro ref_eqb g f c = mro ref_eqb g' f c.
Proof. intros E. induction f as [|f IH]; intros c; cbn [mro]; [reflexivity|]. rewrite E, (map_ext _ _ IH). reflexivity. Qed.
Lemma up_ext H H' r s : (forall r, bs H' r = bs H r) -> up H r s -> up H' r s.
Proof. intros E. induction 1 as [c|c b d Hb U IH]; [apply above_self|]. eapply above_base; [rewrite E; exact Hb|exact IH]. Qed.

Definition alike (H H' : heap) : Prop := specs H' = specs H /\ dkeys (comps H') = dkeys (comps H) /\ forall r, bs H' r = bs H r.
Lemma alike_refl H : alike H H. Proof. repeat split. Qed.
Lemma alike_trans A B C : alike A B -> alike B C -> alike A C.
Proof. intros (a & b & c) (d & e & f). split; [congruence|split; [congruence|]]. intros r. now rewrite f, c. Qed.
Lemma alike_set_attr H p a v : alike H (set_attr H p a v).
Proof.
  split; [reflexivity|split; [apply keys_set_attr|]]. intros [i|q]; [reflexivity|]. unfold bs, bases_in. cbn. rewrite dget_change.
  destruct (str_eqb q p); [|reflexivity]. destruct (dget q (comps H)); reflexivity.
Qed.
Lemma alike_mro H H' r : alike H H' -> mro_of H' r = mro_of H r.
Proof.
  intros (A & B & C). unfold mro_of. rewrite A. replace (length (comps H')) with (length (comps H)); [now apply mro_ext|].
  unfold dkeys in B. rewrite <- (map_length fst (comps H)), <- B. apply map_length.
Qed.
Lemma valid_bs H : valid H <-> forall p r, here H p = true -> In r (bs H (Co p)) -> match r with Sp i => i < length (specs H) | Co q => here H q = true end.
Proof.
  unfold valid, bs, here, dmem. cbn [bases_in]. split.
  - intros V p r F Hr. destruct (dget p (comps H)) as [c|] eqn:E; [|discriminate]. exact (V _ _ _ E Hr).
  - intros V p c r E Hr. specialize (V p r). rewrite E in V. now apply V.
Qed.
Lemma alike_sound H H' : alike H H' -> sound H -> sound H'.
Proof.
  intros A (V & M). assert (Hk : forall p, here H' p = here H p) by (intros p; apply here_keys; apply A). split.
  - apply valid_bs. intros p r F Hr. destruct A as (A & B & C). rewrite C in Hr. rewrite Hk in F. rewrite valid_bs in V. specialize (V _ _ F Hr). rewrite A.
    destruct r; [exact V|now rewrite Hk].
  - intros p F. rewrite Hk in F. rewrite (alike_mro _ _ _ A). now apply M.
Qed.
Lemma alike_owned fl H H' : alike H H' -> owned fl H -> owned fl H'.
Proof. intros (_ & _ & C) (O1 & O2 & O3). split; [|split; assumption]. intros p. rewrite C. apply O1. Qed.

Lemma set_bases_ok H p b H' : set_bases H p b = Ok H' ->
  H' = with_comps H (change p (fun c => {| own := own c; cbases := b |}) (comps H)) /\ all_mros H' = true.
Proof. unfold set_bases. destruct (all_mros _) eqn:E; [|discriminate]. intros F. injection F as <-. auto. Qed.
Lemma bs_with H p f r : bs (with_comps H (change p f (comps H))) r =
  match r with Sp _ => [] | Co q => if str_eqb q p then match dget q (comps H) with Some c => cbases (f c) | None => [] end else bs H (Co q) end.
Proof. destruct r as [i|q]; [reflexivity|]. unfold bs. cbn. rewrite dget_change. destruct (str_eqb q p); [|reflexivity]. now destruct (dget q (comps H)). Qed.
Lemma here_with H p f q : here (with_comps H (change p f (comps H))) q = here H q.
Proof. unfold here, dmem. cbn. rewrite dget_change. destruct (str_eqb q p); [|reflexivity]. now destruct (dget q (comps H)). Qed.

Definition full (H : heap) : Prop := forall p c, dget p (comps H) = Some c -> exists i r, cbases c = Sp i :: r.

(** Appending bases or changing them after the first leaves attributes alone. *)
Lemma attr_bases H p f : (forall c, dget p (comps H) = Some c -> own (f c) = own c /\ exists i r r', cbases c = Sp i :: r /\ cbases (f c) = Sp i :: r') ->
  forall q a, attr (with_comps H (change p f (comps H))) q a = attr H q a.
Proof.
  intros Hf q a. unfold attr. cbn. rewrite dget_change. destruct (str_eqb q p) eqn:E; [|reflexivity]. apply str_eqb_eq in E as ->.
  destruct (dget p (comps H)) as [c|]; [|reflexivity]. cbn. destruct (Hf c eq_refl) as (Ho & i & r & r' & E1 & E2). unfold node_attr. now rewrite Ho, E1, E2.
Qed.

(** *** Parents *)

(** The class of the nearest ancestor, if there is one. *)
Definition par (H : heap) (p : pystr) : list ref :=
  let pp := parent_of H p in
  if is_empty pp then []
  else let base := nearest (S (length pp)) H pp in if here H base then [Co base] else [].

Lemma nearest_keys H H' : (forall p, here H' p = here H p) -> forall f p, nearest f H' p = nearest f H p.
Proof. intros E. induction f as [|f IH]; intros p; cbn [nearest]; [reflexivity|]. now rewrite E, IH. Qed.
Lemma par_same H H' p : (forall q, here H' q = here H q) -> attr H' p PARENT_PATH = attr H p PARENT_PATH -> par H' p = par H p.
Proof. intros E A. unfold par, parent_of. rewrite A. now rewrite (nearest_keys H H' E), E. Qed.
Lemma par_here H p r : In r (par H p) -> exists q, r = Co q /\ here H q = true.
Proof.
  unfold par. destruct (is_empty _); [intros []|]. cbn zeta. destruct (here H _) eqn:E; [|intros []]. intros [<-|[]]. eauto.
Qed.

Lemma post_parent_spec H p H' : full H -> sound H -> post_parent H p = Ok H' ->
  specs H' = specs H /\ dkeys (comps H') = dkeys (comps H) /\ sound H' /\ full H' /\ (forall q a, attr H' q a = attr H q a) /\
  forall q, dget q (comps H') = if str_eqb q p then option_map (fun c => {| own := own c; cbases := cbases c ++ par H p |}) (dget q (comps H)) else dget q (comps H).
Proof.
  intros Fu So E. unfold post_parent in E. cbn zeta in E.
  assert (Case : (par H p = [] /\ H' = H) \/
    (exists b, par H p = [Co b] /\ here H b = true /\ set_bases H p (bases_in (comps H) (Co p) ++ [Co b]) = Ok H')).
  { unfold par. cbn zeta. destruct (is_empty (parent_of H p)); [left; split; [reflexivity|congruence]|].
    destruct (here H (nearest _ H _)) eqn:Eh; [right|left; split; [reflexivity|congruence]]. eexists. split; [reflexivity|]. split; [exact Eh|exact E]. }
  clear E. destruct Case as [(Ep & ->)|(b & Ep & Hb & E)].
  - split; [reflexivity|]. split; [reflexivity|]. split; [exact So|]. split; [exact Fu|]. split; [reflexivity|]. intros q. rewrite Ep. destruct (str_eqb q p); [|reflexivity].
    destruct (dget q (comps H)) as [[o c]|]; [|reflexivity]. cbn. now rewrite app_nil_r.
  - apply set_bases_ok in E as (-> & M). set (f := fun c => {| own := own c; cbases := bases_in (comps H) (Co p) ++ [Co b] |}) in *.
    assert (Hbs : forall c, dget p (comps H) = Some c -> bases_in (comps H) (Co p) = cbases c) by (intros c Ec; cbn; now rewrite Ec).
    split; [reflexivity|]. split; [apply dkeys_change|]. split; [split|].
    + apply valid_bs. intros q r F Hr. rewrite here_with in F. rewrite bs_with in Hr. cbn [specs with_comps]. destruct So as (V & _). rewrite valid_bs in V.
      assert (Hold : forall r, In r (bs H (Co q)) -> match r with Sp i => i < length (specs H) | Co q0 => here H q0 = true end) by (intros r' Hr'; exact (V _ _ F Hr')).
      destruct (str_eqb q p) eqn:Eq.
      * apply str_eqb_eq in Eq as ->. destruct (dget p (comps H)); [|destruct Hr]. cbn [cbases f] in Hr. apply in_app_or in Hr as [Hr|[<-|[]]].
        -- specialize (Hold _ Hr). destruct r; [exact Hold|now rewrite here_with].
        -- now rewrite here_with.
      * specialize (Hold _ Hr). destruct r; [exact Hold|now rewrite here_with].
    + now apply all_mros_spec.
    + split.
      * intros q c Ec. cbn in Ec. rewrite dget_change in Ec. destruct (str_eqb q p) eqn:Eq; [|now apply (Fu q)]. apply str_eqb_eq in Eq as ->.
        destruct (dget p (comps H)) as [c0|] eqn:E0; [|discriminate]. injection Ec as <-. cbn [cbases f]. rewrite (Hbs _ eq_refl).
        destruct (Fu _ _ E0) as (i & r & ->). cbn. eauto.
      * split.
        -- apply attr_bases. intros c Ec. split; [reflexivity|]. destruct (Fu _ _ Ec) as (i & r & Eb). exists i, r, (r ++ [Co b]). split; [exact Eb|].
           cbn [cbases f]. now rewrite (Hbs _ Ec), Eb.
        -- intros q. cbn [comps with_comps]. rewrite dget_change. destruct (str_eqb q p) eqn:Eq; [|reflexivity]. apply str_eqb_eq in Eq as ->.
           destruct (dget p (comps H)) as [c|] eqn:Ec; [|reflexivity]. cbn [option_map]. unfold f. now rewrite (Hbs _ eq_refl), Ep.
Qed.

Lemma parents_spec l : forall H H', NoDup l -> full H -> sound H -> fold_res post_parent l H = Ok H' ->
  specs H' = specs H /\ dkeys (comps H') = dkeys (comps H) /\ sound H' /\ full H' /\ (forall q a, attr H' q a = attr H q a) /\
  forall q, dget q (comps H') = if str_in q l then option_map (fun c => {| own := own c; cbases := cbases c ++ par H q |}) (dget q (comps H)) else dget q (comps H).
Proof.
  induction l as [|p l IH]; intros H H' Hn Fu So E; cbn [fold_res] in E.
  - injection E as <-. split; [reflexivity|]. split; [reflexivity|]. split; [exact So|]. split; [exact Fu|]. split; [reflexivity|]. intros q. reflexivity.
  - destruct (post_parent H p) as [H1|] eqn:E1; [|discriminate]. cbn [bind] in E. inversion Hn as [|? ? Hp Hn']; subst.
    destruct (post_parent_spec _ _ _ Fu So E1) as (A1 & A2 & A3 & A4 & A5 & A6). destruct (IH _ _ Hn' A4 A3 E) as (B1 & B2 & B3 & B4 & B5 & B6).
    split; [congruence|]. split; [congruence|]. split; [exact B3|]. split; [exact B4|]. split; [intros q a; now rewrite B5, A5|].
    intros q. rewrite B6, A6. cbn [str_in existsb].
    assert (Pq : par H1 q = par H q) by (apply par_same; [intros x; now apply here_keys|apply A5]). rewrite Pq. unfold str_in in *. cbn [existsb].
    destruct (str_eqb q p) eqn:Eq; cbn [orb]; [|reflexivity]. apply str_eqb_eq in Eq as ->. destruct (existsb (str_eqb p) l) eqn:Ex; [|reflexivity].
    exfalso. apply Hp. now apply str_in_In.
Qed.

(** *** Instances *)

(** The node this one is an instance of, if there is one. *)
Definition src (H : heap) (p : pystr) : option pystr :=
  match inst_of H p with
  | None => None
  | Some b => if str_eqb b WORLD || negb (here H b) then None else Some b
  end.

Lemma inherit_alike base p H a : alike H (inherit base p H a).
Proof. unfold inherit. destruct (has_opinion _); [apply alike_refl|]. eapply alike_trans; apply alike_set_attr. Qed.
Lemma inherits_alike base p l : forall H, alike H (fold_left (inherit base p) l H).
Proof. induction l as [|a l IH]; intros H; cbn [fold_left]; [apply alike_refl|]. eapply alike_trans; [apply inherit_alike|apply IH]. Qed.
Lemma inherit_get base p H a q : q <> p -> dget q (comps (inherit base p H a)) = dget q (comps H).
Proof.
  intros Hq. unfold inherit. destruct (has_opinion _); [reflexivity|]. unfold set_attr. cbn [comps with_comps]. apply str_eqb_neq in Hq. now rewrite !dget_change, Hq.
Qed.
Lemma inherits_get base p l q : q <> p -> forall H, dget q (comps (fold_left (inherit base p) l H)) = dget q (comps H).
Proof. intros Hq. induction l as [|a l IH]; intros H; cbn [fold_left]; [reflexivity|]. now rewrite IH, inherit_get. Qed.
Lemma inherit_attr base p H a x : base <> p -> here H p = true -> a <> a ++ META_SOURCE ->
  attr (inherit base p H a) p x =
    if has_opinion (attr H p a) then attr H p x
    else if str_eqb (a ++ META_SOURCE) x then VTuple [attr H base SOURCE_LAYER; VStr p]
    else if str_eqb a x then attr H base a else attr H p x.
Proof.
  intros Hb Hp Ha. unfold inherit. destruct (has_opinion (attr H p a)); [reflexivity|].
  destruct (str_eqb (a ++ META_SOURCE) x) eqn:E1.
  - apply str_eqb_eq in E1 as <-. apply attr_set_same. now rewrite here_set_attr.
  - rewrite attr_set_other_attr by (intros F; rewrite F, str_eqb_refl in E1; discriminate). destruct (str_eqb a x) eqn:E2.
    + apply str_eqb_eq in E2 as <-. now apply attr_set_same.
    + apply attr_set_other_attr. intros F; rewrite F, str_eqb_refl in E2; discriminate.
Qed.
Lemma inherit_here base p H a q : here (inherit base p H a) q = here H q.
Proof. apply here_keys. apply inherit_alike. Qed.
Lemma inherit_base base p H a q x : q <> p -> attr (inherit base p H a) q x = attr H q x.
Proof.
  intros Hq. unfold attr. rewrite inherit_get by exact Hq. destruct (inherit_alike base p H a) as (-> & _). reflexivity.
Qed.
Lemma inherits_attr base p : base <> p -> forall l H, here H p = true -> NoDup l -> (forall a b, In a l -> In b l -> b ++ META_SOURCE <> a) ->
  (forall x, In x l -> attr (fold_left (inherit base p) l H) p x = if has_opinion (attr H p x) then attr H p x else attr H base x) /\
  (forall x, In x l -> attr (fold_left (inherit base p) l H) p (x ++ META_SOURCE) =
     if has_opinion (attr H p x) then attr H p (x ++ META_SOURCE) else VTuple [attr H base SOURCE_LAYER; VStr p]) /\
  (forall x, ~ In x l -> (forall a, In a l -> a ++ META_SOURCE <> x) -> attr (fold_left (inherit base p) l H) p x = attr H p x).
Proof.
  intros Hb. induction l as [|a l IH]; intros H Hp Hn Hs; cbn [fold_left].
  - split; [intros x []|]. split; [intros x []|reflexivity].
  - inversion Hn as [|? ? Ha Hn']; subst.
    assert (Haa : a <> a ++ META_SOURCE) by (apply not_eq_sym, Hs; now left).
    destruct (IH (inherit base p H a)) as (I1 & I2 & I3); [now rewrite inherit_here|exact Hn'|intros x y Hx Hy; apply Hs; now right|].
    assert (Old : forall x, x <> a -> x <> a ++ META_SOURCE -> attr (inherit base p H a) p x = attr H p x).
    { intros x H1 H2. rewrite inherit_attr by assumption. destruct (has_opinion _); [reflexivity|]. apply not_eq_sym in H1, H2. apply str_eqb_neq in H1, H2. now rewrite H1, H2. }
    split; [|split].
    + intros x [<-|Hx].
      * rewrite I3; [|exact Ha|intros y Hy; apply Hs; [now left|now right]]. rewrite inherit_attr by assumption.
        destruct (has_opinion _); [reflexivity|]. apply not_eq_sym in Haa. apply str_eqb_neq in Haa. now rewrite Haa, str_eqb_refl.
      * rewrite I1 by exact Hx. rewrite !(inherit_base base p H a base) by exact Hb. rewrite !Old; [reflexivity|congruence|apply not_eq_sym, Hs; [now right|now left]].
    + intros x [<-|Hx].
      * rewrite I3.
        -- rewrite inherit_attr by assumption. destruct (has_opinion _); [reflexivity|]. now rewrite str_eqb_refl.
        -- intros F. apply (Hs (a ++ META_SOURCE) a); [now right|now left|reflexivity].
        -- intros y Hy E. apply source_inj in E. congruence.
      * assert (Hxa : x <> a) by congruence. assert (Hxs : x <> a ++ META_SOURCE) by (apply not_eq_sym, Hs; [now right|now left]).
        rewrite I2 by exact Hx. rewrite !(inherit_base base p H a base) by exact Hb. rewrite (Old x Hxa Hxs), (Old (x ++ META_SOURCE)); [reflexivity| |].
        -- apply Hs; [now left|now right].
        -- intros E. apply source_inj in E. congruence.
    + intros x Hx Hsx. rewrite I3; [|intros F; apply Hx; now right|intros b Hy; apply Hsx; now right]. apply Old; [intros ->; apply Hx; now left|apply not_eq_sym, Hsx; now left].
Qed.

Definition neat (H : heap) : Prop := forall p c a, dget p (comps H) = Some c -> dget a (own c) <> None -> In a OWNKEYS.
Lemma neat_set_attr H p a v : In a OWNKEYS -> neat H -> neat (set_attr H p a v).
Proof.
  intros Ha N q c b E Hb. cbn in E. rewrite dget_change in E. destruct (str_eqb q p); [|eapply N; eauto]. destruct (dget q (comps H)) as [c0|] eqn:E0; [|discriminate].
  injection E as <-. cbn in Hb. rewrite dget_dset in Hb. destruct (str_eqb a b) eqn:Eb; [apply str_eqb_eq in Eb as <-; exact Ha|]. eapply N; eauto.
Qed.
Lemma neat_inherits base p l : (forall a, In a l -> In a TRACKED) -> forall H, neat H -> neat (fold_left (inherit base p) l H).
Proof.
  induction l as [|a l IH]; intros Hl H N; cbn [fold_left]; [exact N|]. apply IH; [intros x Hx; apply Hl; now right|]. unfold inherit. destruct (has_opinion _); [exact N|].
  assert (Ha : In a TRACKED) by (apply Hl; now left). apply neat_set_attr; [apply in_or_app; right; apply in_map_iff; eauto|]. apply neat_set_attr; [|exact N].
  apply in_or_app. left. apply in_or_app. now left.
Qed.
Lemma instance_attrs_tracked a : In a INSTANCE_ATTRS -> In a TRACKED.
Proof. intros [<-|[<-|[<-|[]]]]; apply str_in_In; reflexivity. Qed.

Lemma full_alike H H' : alike H H' -> full H -> full H'.
Proof.
  intros (_ & A & B) Fu p c E. specialize (B (Co p)). unfold bs, bases_in in B. rewrite E in B. assert (F : here H p = true).
  { apply here_In. rewrite <- A. apply here_In. unfold here, dmem. now rewrite E. }
  unfold here, dmem in F. destruct (dget p (comps H)) as [c0|] eqn:E0; [|discriminate]. rewrite B. now apply (Fu p).
Qed.
Lemma own_change_bases H p b q c : dget q (comps (with_comps H (change p (fun c => {| own := own c; cbases := b |}) (comps H)))) = Some c ->
  exists c0, dget q (comps H) = Some c0 /\ own c = own c0.
Proof.
  cbn. rewrite dget_change. destruct (str_eqb q p); [|intros E; exists c; auto]. destruct (dget q (comps H)) as [c0|]; [|discriminate]. intros E. injection E as <-. exists c0. auto.
Qed.

Lemma post_instance_spec fl H p H' : full H -> sound H -> owned fl H -> (forall q, here H q = true -> fl q <> []) -> neat H -> here H p = true -> post_instance H p = Ok H' ->
  specs H' = specs H /\ dkeys (comps H') = dkeys (comps H) /\ full H' /\ sound H' /\ owned fl H' /\ neat H' /\
  (forall q, q <> p -> dget q (comps H') = dget q (comps H)) /\ (forall r s, up H r s -> up H' r s) /\
  match src H p with
  | None => H' = H
  | Some b => b <> p /\ (forall x, attr H' p x = attr (fold_left (inherit b p) INSTANCE_ATTRS H) p x) /\
      ((In (Co b) (bs H (Co p)) /\ bs H' (Co p) = bs H (Co p)) \/
       (~ In (Co b) (bs H (Co p)) /\ exists f, forall rest, bs H (Co p) = fl p ++ rest ->
          bs H' (Co p) = fl p ++ filter f rest ++ [Co b] /\ forall r, In r rest -> f r = false -> up H (Co b) r))
  end.
Proof.
  intros Fu So Ow Ne Nt Hp E. unfold post_instance in E. unfold src. destruct (inst_of H p) as [b|].
  2:{ injection E as <-. split; [reflexivity|]. split; [reflexivity|]. split; [exact Fu|]. split; [exact So|]. split; [exact Ow|]. split; [exact Nt|]. auto. }
  destruct (str_eqb b WORLD || negb (here H b)) eqn:Eb.
  { injection E as <-. split; [reflexivity|]. split; [reflexivity|]. split; [exact Fu|]. split; [exact So|]. split; [exact Ow|]. split; [exact Nt|]. auto. }
  assert (Hb : here H b = true). { apply orb_false_iff in Eb as (_ & Eb). now apply negb_false_iff in Eb. }
  pose proof (inherits_alike b p INSTANCE_ATTRS H) as Al. pose proof (inherits_get b p INSTANCE_ATTRS) as Ig.
  pose proof (neat_inherits b p INSTANCE_ATTRS instance_attrs_tracked _ Nt) as NtI.
  set (HI := fold_left (inherit b p) INSTANCE_ATTRS H) in *. unfold safe_add in E.
  assert (FuI : full HI) by exact (full_alike _ _ Al Fu). assert (SoI : sound HI) by exact (alike_sound _ _ Al So).
  assert (OwI : owned fl HI) by exact (alike_owned _ _ _ Al Ow).
  assert (HkI : forall q, here HI q = here H q) by (intros q; apply here_keys; apply Al).
  destruct Al as (A1 & A2 & A3). pose proof (A3 (Co p)) as A3p. unfold bs in A3p at 1. rewrite A3p in E. clear A3p.
  destruct (isin ref_eqb (Co b) (bs H (Co p))) eqn:Ei.
  - injection E as <-. apply (isin_In _ ref_eqb_eq) in Ei.
    assert (Hbp : b <> p). { intros ->. apply (sound_acyclic _ _ _ So Ei). apply above_self. }
    repeat (split; [assumption|]). split; [intros q Hq; now apply Ig|]. split; [intros r s; now apply up_ext|]. split; [exact Hbp|]. split; [reflexivity|]. left. auto.
  - assert (Nb : ~ In (Co b) (bs H (Co p))) by (intros F; apply (isin_In _ ref_eqb_eq) in F; congruence).
    unfold safe_bases in E. set (f := fun c => negb (existsb (fun b0 => match mro_of HI b0 with Some l => isin ref_eqb c l | None => false end) (bases_in (comps HI) (Co b)))) in E.
    apply set_bases_ok in E as (-> & M).
    set (g := fun c => {| own := own c; cbases := filter f (bs H (Co p)) ++ [Co b] |}) in *.
    set (H' := with_comps HI (change p g (comps HI))) in *.
    assert (Hp' : here HI p = true) by now rewrite HkI.
    assert (Bp : bs H' (Co p) = filter f (bs H (Co p)) ++ [Co b]).
    { unfold H'. rewrite bs_with, str_eqb_refl. unfold here, dmem in Hp'. destruct (dget p (comps HI)); [reflexivity|discriminate]. }
    assert (Bq : forall r, r <> Co p -> bs H' r = bs HI r).
    { intros [i|q] Hq; [reflexivity|]. unfold H'. rewrite bs_with. destruct (str_eqb q p) eqn:Eq; [apply str_eqb_eq in Eq as ->; congruence|reflexivity]. }
    assert (Hk' : forall q, here H' q = here H q) by (intros q; unfold H'; now rewrite here_with, HkI).
    assert (So' : sound H').
    { split; [|now apply all_mros_spec]. apply valid_bs. intros q r F Hr. rewrite Hk' in F. destruct So as (V & _). rewrite valid_bs in V.
      assert (T : forall r, In r (bs H (Co q)) -> match r with Sp i => i < length (specs H') | Co q0 => here H' q0 = true end).
      { intros r' Hr'. specialize (V _ _ F Hr'). unfold H'. cbn [specs with_comps]. rewrite A1. fold H'. destruct r'; [exact V|now rewrite Hk']. }
      destruct (pystr_eq_dec q p) as [->|Hq].
      - rewrite Bp in Hr. apply in_app_or in Hr as [Hr|[<-|[]]]; [apply filter_In in Hr as (Hr & _); now apply T|now rewrite Hk'].
      - rewrite Bq in Hr by congruence. rewrite A3 in Hr. now apply T. }
    assert (Hbp : b <> p). { intros ->. apply (sound_acyclic H' (Co p) (Co p) So'); [rewrite Bp; apply in_or_app; right; now left|apply above_self]. }
    (* the source does not reach the node *)
    assert (Nr : ~ up HI (Co b) (Co p)).
    { intros U. apply (reach_first HI H' p) in U; [|exact Bq|exact SoI]. apply (sound_acyclic H' (Co p) (Co b) So'); [rewrite Bp; apply in_or_app; right; now left|exact U]. }
    assert (Fr : forall r, f r = false -> up HI (Co b) r).
    { intros r Er. unfold f in Er. apply negb_false_iff in Er. apply existsb_exists in Er as (b0 & Hb0 & Er). destruct (mro_of HI b0) as [l|] eqn:El; [|discriminate].
      apply (isin_In _ ref_eqb_eq) in Er. destruct (mro_laws ref_eqb ref_eqb_eq _ _ _ _ El) as (_ & _ & Hin & _). apply Hin in Er. eapply above_base; [exact Hb0|exact Er]. }
    (* the spec nodes stay *)
    assert (Fs : forall r, In r (fl p) -> f r = true).
    { intros r Hr. destruct (f r) eqn:Er; [reflexivity|]. exfalso. destruct OwI as (O1 & O2 & O3). destruct (O2 _ _ Hr) as (i & ->).
      destruct (owner fl HI (Co b) i p) as [F|F]; [repeat split; assumption|exact Hr|now apply Fr|discriminate|contradiction]. }
    assert (Ff : forall rest, bs H (Co p) = fl p ++ rest -> bs H' (Co p) = fl p ++ filter f rest ++ [Co b]).
    { intros rest Er. rewrite Bp, Er, filter_app, <- app_assoc. f_equal. clear -Fs. induction (fl p) as [|x t IH]; [reflexivity|]. cbn.
      rewrite (Fs x (or_introl eq_refl)), IH; [reflexivity|]. intros r Hr. apply Fs. now right. }
    split; [exact A1|]. split; [unfold H'; cbn [comps with_comps]; rewrite dkeys_change; exact A2|].
    assert (Head : forall c, dget p (comps HI) = Some c -> own (g c) = own c /\ exists i r r', cbases c = Sp i :: r /\ cbases (g c) = Sp i :: r').
    { intros c Ec. split; [reflexivity|]. destruct Ow as (O1 & O2 & _). destruct (O1 p) as (rest & Er & _).
      specialize (Ff _ Er). rewrite Bp in Ff. destruct (fl p) as [|x t] eqn:Ex; [destruct (Ne p Hp); exact Ex|]. destruct (O2 p x) as (i & ->); [rewrite Ex; now left|].
      exists i, (t ++ rest), (t ++ filter f rest ++ [Co b]). split; [|exact Ff]. transitivity (bs HI (Co p)); [unfold bs, bases_in; now rewrite Ec|]. now rewrite A3, Er. }
    split.
    { intros q c Ec. unfold H' in Ec. cbn [comps with_comps] in Ec. rewrite dget_change in Ec. destruct (str_eqb q p) eqn:Eq; [|now apply (FuI q)].
      apply str_eqb_eq in Eq as ->. destruct (dget p (comps HI)) as [c0|] eqn:E0; [|discriminate]. injection Ec as <-.
      destruct (Head _ eq_refl) as (_ & i & r & r' & _ & F). eauto. }
    split; [exact So'|]. split.
    { destruct Ow as (O1 & O2 & O3). split; [|split; assumption]. intros q. destruct (O1 q) as (rest & Er & Hr). destruct (pystr_eq_dec q p) as [->|Hq].
      - exists (filter f rest ++ [Co b]). split; [now apply Ff|]. intros r Hr'. apply in_app_or in Hr' as [Hr'|[<-|[]]]; [apply filter_In in Hr' as (Hr' & _); auto|eauto].
      - exists rest. split; [|exact Hr]. rewrite Bq by congruence. now rewrite A3. }
    split. { intros q c a Ec. apply own_change_bases in Ec as (c0 & E0 & ->). now apply (NtI q). }
    split. { intros q Hq. unfold H'. cbn [comps with_comps]. rewrite dget_change. apply str_eqb_neq in Hq as Hq'. rewrite Hq'. now apply Ig. }
    assert (UpI : forall r s, up HI r s <-> up H r s). { intros r s. split; apply up_ext; intros x; now rewrite A3. }
    split.
    { intros r s U. apply UpI in U. induction U as [c|c d e Hd U IH]; [apply above_self|]. destruct (ref_eqb c (Co p)) eqn:Ec.
      - apply ref_eqb_eq in Ec as ->. destruct (f d) eqn:Ef.
        + eapply above_base; [|exact IH]. fold (bs H' (Co p)). rewrite Bp. apply in_or_app. left. apply filter_In. split; [|exact Ef]. now rewrite <- A3.
        + eapply up_trans; [|exact IH]. eapply above_base; [fold (bs H' (Co p)); rewrite Bp; apply in_or_app; right; now left|].
          apply (reach_free HI H' p); [exact Bq|exact Nr|now apply Fr].
      - eapply above_base; [|exact IH]. fold (bs H' c). rewrite Bq; [exact Hd|]. intros ->. assert (ref_eqb (Co p) (Co p) = true) by now apply ref_eqb_eq. congruence. }
    split; [exact Hbp|]. split; [intros x; unfold H'; now apply attr_bases|]. right. split; [exact Nb|]. exists f. intros rest Er. split; [now apply Ff|].
    intros r Hr Efr. apply UpI. now apply Fr.
Qed.

(** Attributes an instance never takes from its source. *)
Definition untouched (x : pystr) : Prop := ~ In x INSTANCE_ATTRS /\ forall a, In a INSTANCE_ATTRS -> a ++ META_SOURCE <> x.
Lemma instance_attrs_nodup : NoDup INSTANCE_ATTRS.
Proof. unfold INSTANCE_ATTRS. repeat constructor; cbn [In]; intros F; repeat destruct F as [F|F]; try discriminate F; destruct F. Qed.
Lemma instance_attrs_plain a b : In a INSTANCE_ATTRS -> In b INSTANCE_ATTRS -> b ++ META_SOURCE <> a.
Proof. intros Ha Hb. apply plain_internal; [apply in_or_app; left; now apply instance_attrs_tracked|now apply instance_attrs_tracked]. Qed.
Lemma untouched_inst : untouched INSTANCE_PATH.
Proof. split; [intros F; repeat destruct F as [F|F]; discriminate F || destruct F|]. intros a [<-|[<-|[<-|[]]]]; vm_compute; discriminate. Qed.

Lemma attr_dget H H' q x : specs H' = specs H -> dget q (comps H') = dget q (comps H) -> attr H' q x = attr H q x.
Proof. intros A B. unfold attr. now rewrite A, B. Qed.
Lemma bs_dget H H' q : dget q (comps H') = dget q (comps H) -> bs H' (Co q) = bs H (Co q).
Proof. intros A. unfold bs, bases_in. now rewrite A. Qed.

Lemma post_instance_untouched fl H p H' q x : full H -> sound H -> owned fl H -> (forall q, here H q = true -> fl q <> []) -> neat H -> here H p = true ->
  post_instance H p = Ok H' -> untouched x -> attr H' q x = attr H q x.
Proof.
  intros Fu So Ow Ne Nt Hp E (U1 & U2). destruct (post_instance_spec _ _ _ _ Fu So Ow Ne Nt Hp E) as (A1 & _ & _ & _ & _ & _ & A7 & _ & A9).
  destruct (pystr_eq_dec q p) as [->|Hq]; [|apply attr_dget; auto]. destruct (src H p) as [b|]; [|now rewrite A9]. destruct A9 as (Hb & A & _). rewrite A.
  apply (proj2 (proj2 (inherits_attr b p Hb INSTANCE_ATTRS H Hp instance_attrs_nodup instance_attrs_plain))); assumption.
Qed.

Lemma src_same H H' q : (forall x, here H' x = here H x) -> attr H' q INSTANCE_PATH = attr H q INSTANCE_PATH -> src H' q = src H q.
Proof. intros A B. unfold src, inst_of. rewrite B. destruct (as_str _); [|reflexivity]. now rewrite A. Qed.

(** What becomes of the bases of a node. *)
Definition arcs_of (fl : pystr -> list ref) (H H' : heap) (p : pystr) : Prop :=
  match src H p with
  | None => bs H' (Co p) = bs H (Co p)
  | Some b => b <> p /\
      ((In (Co b) (bs H (Co p)) /\ bs H' (Co p) = bs H (Co p)) \/
       (~ In (Co b) (bs H (Co p)) /\ exists f, forall rest, bs H (Co p) = fl p ++ rest ->
          bs H' (Co p) = fl p ++ filter f rest ++ [Co b] /\ forall r, In r rest -> f r = false -> up H' (Co b) r))
  end.

Lemma instances_structure fl l : forall H H', NoDup l -> full H -> sound H -> owned fl H -> (forall q, here H q = true -> fl q <> []) -> neat H ->
  (forall p, In p l -> here H p = true) -> fold_res post_instance l H = Ok H' ->
  specs H' = specs H /\ dkeys (comps H') = dkeys (comps H) /\ full H' /\ sound H' /\ owned fl H' /\ neat H' /\
  (forall q, ~ In q l -> dget q (comps H') = dget q (comps H)) /\ (forall r s, up H r s -> up H' r s) /\
  (forall q x, untouched x -> attr H' q x = attr H q x) /\ (forall p, In p l -> arcs_of fl H H' p).
Proof.
  induction l as [|p l IH]; intros H H' Hn Fu So Ow Ne Nt Hl E; cbn [fold_res] in E.
  - injection E as <-. split; [reflexivity|]. split; [reflexivity|]. split; [exact Fu|]. split; [exact So|]. split; [exact Ow|]. split; [exact Nt|]. split; [auto|]. split; [auto|]. split; [auto|]. intros p [].
  - destruct (post_instance H p) as [H1|] eqn:E1; [|discriminate]. cbn [bind] in E. inversion Hn as [|? ? Hp Hn']; subst.
    assert (Hhp : here H p = true) by (apply Hl; now left).
    destruct (post_instance_spec _ _ _ _ Fu So Ow Ne Nt Hhp E1) as (A1 & A2 & A3 & A4 & A5 & A6 & A7 & A8 & A9).
    pose proof (fun q x => post_instance_untouched _ _ _ _ q x Fu So Ow Ne Nt Hhp E1) as AU.
    assert (Hk : forall q, here H1 q = here H q) by (intros q; now apply here_keys).
    destruct (IH H1 H' Hn' A3 A4 A5) as (B1 & B2 & B3 & B4 & B5 & B6 & B7 & B8 & BU & B9); [intros q; rewrite Hk; apply Ne|exact A6|intros q Hq; rewrite Hk; apply Hl; now right|exact E|].
    split; [congruence|]. split; [congruence|]. split; [exact B3|]. split; [exact B4|]. split; [exact B5|]. split; [exact B6|].
    split; [intros q Hq; rewrite B7, A7; [reflexivity|intros ->; apply Hq; now left|intros F; apply Hq; now right]|].
    split; [auto|]. split; [intros q x Hx; now rewrite BU, AU|].
    intros q [<-|Hq].
    + assert (Ep : bs H' (Co p) = bs H1 (Co p)) by now apply bs_dget, B7. unfold arcs_of. destruct (src H p) as [b|]; [|rewrite Ep; now subst H1].
      destruct A9 as (Hb & _ & [(F1 & F2)|(F1 & f & F2)]).
      * split; [exact Hb|]. left. split; [exact F1|]. now rewrite Ep.
      * split; [exact Hb|]. right. split; [exact F1|]. exists f. intros rest Er. destruct (F2 _ Er) as (F3 & F4). split; [now rewrite Ep|]. intros r Hr Ef. now apply B8, A8, F4.
    + assert (Hqp : q <> p) by congruence. specialize (B9 _ Hq). unfold arcs_of in *. rewrite (src_same H H1) in B9; [|exact Hk|apply AU; apply untouched_inst].
      rewrite (bs_dget H H1 q) in B9 by now apply A7. exact B9.
Qed.

Lemma instances_attrs fl l : forall H H', NoDup l -> full H -> sound H -> owned fl H -> (forall q, here H q = true -> fl q <> []) -> neat H ->
  (forall p, In p l -> here H p = true) -> fold_res post_instance l H = Ok H' ->
  (forall l1 p l2 b, l = l1 ++ p :: l2 -> src H p = Some b -> ~ In b (p :: l2)) ->
  forall p x, In p l -> In x INSTANCE_ATTRS ->
  attr H' p x = (if has_opinion (attr H p x) then attr H p x else match src H p with None => attr H p x | Some b => attr H' b x end) /\
  attr H' p (x ++ META_SOURCE) = (if has_opinion (attr H p x) then attr H p (x ++ META_SOURCE)
                                  else match src H p with None => attr H p (x ++ META_SOURCE) | Some b => VTuple [attr H b SOURCE_LAYER; VStr p] end).
Proof.
  induction l as [|p l IH]; intros H H' Hn Fu So Ow Ne Nt Hl E Ord q x Hq Hx; [destruct Hq|].
  pose proof (instances_structure fl _ _ _ Hn Fu So Ow Ne Nt Hl E) as (_ & _ & _ & _ & _ & _ & _ & _ & _ & _). cbn [fold_res] in E.
  destruct (post_instance H p) as [H1|] eqn:E1; [|discriminate]. cbn [bind] in E. inversion Hn as [|? ? Hp Hn']; subst.
  assert (Hhp : here H p = true) by (apply Hl; now left).
  destruct (post_instance_spec _ _ _ _ Fu So Ow Ne Nt Hhp E1) as (A1 & A2 & A3 & A4 & A5 & A6 & A7 & A8 & A9).
  pose proof (fun q x => post_instance_untouched _ _ _ _ q x Fu So Ow Ne Nt Hhp E1) as AU.
  assert (Hk : forall q, here H1 q = here H q) by (intros y; now apply here_keys).
  assert (Ne1 : forall q, here H1 q = true -> fl q <> []) by (intros y; rewrite Hk; apply Ne).
  assert (Hl1 : forall q, In q l -> here H1 q = true) by (intros y Hy; rewrite Hk; apply Hl; now right).
  assert (Src : forall y, src H1 y = src H y) by (intros y; apply src_same; [exact Hk|apply AU; apply untouched_inst]).
  destruct (instances_structure fl _ _ _ Hn' A3 A4 A5 Ne1 A6 Hl1 E) as (B1 & _ & _ & _ & _ & _ & B7 & _).
  assert (Late : forall y z, ~ In y l -> attr H' y z = attr H1 y z) by (intros y z Hy; apply attr_dget; auto).
  destruct Hq as [<-|Hq].
  - rewrite !(Late p) by exact Hp. destruct (src H p) as [b|] eqn:Es.
    + destruct A9 as (Hb & A & _). rewrite !A. destruct (inherits_attr b p Hb INSTANCE_ATTRS H Hhp instance_attrs_nodup instance_attrs_plain) as (I1 & I2 & _).
      rewrite I1, I2 by exact Hx. split; [|reflexivity]. destruct (has_opinion (attr H p x)); [reflexivity|].
      assert (Hbl : ~ In b (p :: l)) by (apply (Ord [] p l b); auto). rewrite Late by (intros F; apply Hbl; now right). symmetry. apply attr_dget; auto.
    + subst H1. destruct (has_opinion (attr H p x)); auto.
  - assert (Hqp : q <> p) by congruence.
    destruct (IH H1 H' Hn' A3 A4 A5 Ne1 A6 Hl1 E) with (p := q) (x := x) as (C1 & C2); [|exact Hq|exact Hx|].
    { intros l1 y l2 b El Es. rewrite Src in Es. apply (Ord (p :: l1) y l2 b); [now rewrite El|exact Es]. }
    assert (Q : forall z, attr H1 q z = attr H q z) by (intros z; apply attr_dget; auto). rewrite Src, !Q in C1. rewrite Src, !Q in C2.
    split; [exact C1|]. rewrite C2. destruct (has_opinion (attr H q x)); [reflexivity|]. destruct (src H q) as [b|]; [|reflexivity].
    f_equal. f_equal. apply AU. split; [intros F; repeat destruct F as [F|F]; discriminate F || destruct F|]. intros a [<-|[<-|[<-|[]]]]; vm_compute; discriminate.
Qed.

(** *** Chains of instances *)

Inductive chain (H : heap) : pystr -> list pystr -> Prop :=
| chain_end p : (forall i, inst_of H p = Some i -> here H i = false) -> chain H p []
| chain_step p i l : inst_of H p = Some i -> here H i = true -> chain H i l -> chain H p (i :: l).

Lemma trace_chain H p l : chain H p l -> NoDup l -> forall f acc, length l <= f -> (forall x, In x l -> ~ In x acc) -> trace_from f H p acc = acc ++ l.
Proof.
  induction 1 as [p Hp|p i l Ei Hi C IH]; intros Hn f acc Hf Hd.
  - rewrite app_nil_r. destruct f as [|f]; [reflexivity|]. cbn [trace_from]. destruct (inst_of H p) as [i|] eqn:E; [|reflexivity]. now rewrite (Hp i eq_refl).
  - cbn [length] in Hf. destruct f as [|f]; [lia|]. cbn [trace_from]. rewrite Ei, Hi. inversion Hn as [|? ? Hil Hn']; subst.
    assert (Ea : str_in i acc = false). { apply str_in_false. apply Hd. now left. }
    rewrite Ea. cbn [andb negb]. rewrite IH; [now rewrite <- app_assoc|exact Hn'|lia|].
    intros x Hx F. apply in_app_or in F as [F|[<-|[]]]; [apply (Hd x); [now right|exact F]|contradiction].
Qed.
Lemma chain_here H p l : chain H p l -> forall x, In x l -> here H x = true.
Proof. induction 1 as [|p i l Ei Hi C IH]; intros x Hx; [destruct Hx|]. destruct Hx as [<-|Hx]; auto. Qed.

Section Rank.
Variables (H : heap) (rk : pystr -> nat).
Hypothesis world_none : inst_of H WORLD = None.
Hypothesis rank_src : forall p b, src H p = Some b -> here H p = true -> rk b < rk p.

Lemma src_inst p i : inst_of H p = Some i -> here H i = true -> i <> WORLD -> src H p = Some i.
Proof. intros E Hi Hw. unfold src. rewrite E. apply str_eqb_neq in Hw. now rewrite Hw, Hi. Qed.
Lemma chain_exists : forall k p, rk p <= k -> here H p = true -> exists l, chain H p l /\ NoDup l /\ forall x, In x l -> x = WORLD \/ rk x < rk p.
Proof.
  induction k as [|k IH]; intros p Hk Hp.
  - destruct (inst_of H p) as [i|] eqn:E; [|exists []; split; [constructor; congruence|split; [constructor|intros ? []]]].
    destruct (here H i) eqn:Hi; [|exists []; split; [constructor; congruence|split; [constructor|intros ? []]]].
    destruct (pystr_eq_dec i WORLD) as [->|Hw].
    + exists [WORLD]. split; [eapply chain_step; [exact E|exact Hi|constructor; congruence]|]. split; [repeat constructor; intros []|]. intros x [<-|[]]. now left.
    + pose proof (rank_src _ _ (src_inst _ _ E Hi Hw) Hp). lia.
  - destruct (inst_of H p) as [i|] eqn:E; [|exists []; split; [constructor; congruence|split; [constructor|intros ? []]]].
    destruct (here H i) eqn:Hi; [|exists []; split; [constructor; congruence|split; [constructor|intros ? []]]].
    destruct (pystr_eq_dec i WORLD) as [->|Hw].
    + exists [WORLD]. split; [eapply chain_step; [exact E|exact Hi|constructor; congruence]|]. split; [repeat constructor; intros []|]. intros x [<-|[]]. now left.
    + pose proof (rank_src _ _ (src_inst _ _ E Hi Hw) Hp) as L. destruct (IH i) as (l & C & Hn & Hr); [lia|exact Hi|]. exists (i :: l).
      split; [eapply chain_step; eauto|]. split; [constructor; [|exact Hn]; intros F; destruct (Hr _ F) as [F'|F']; [congruence|lia]|].
      intros x [<-|Hx]; [now right|]. destruct (Hr _ Hx) as [->|F]; [now left|right; lia].
Qed.
Lemma trace_longer p b : here H p = true -> src H p = Some b -> length (trace H b) < length (trace H p).
Proof.
  intros Hp Es. assert (E : inst_of H p = Some b /\ here H b = true /\ b <> WORLD).
  { unfold src in Es. destruct (inst_of H p) as [i|]; [|discriminate]. destruct (str_eqb i WORLD || negb (here H i)) eqn:Eo; [discriminate|]. injection Es as ->.
    apply orb_false_iff in Eo as (E1 & E2). apply negb_false_iff in E2. split; [reflexivity|]. split; [exact E2|]. intros ->. rewrite str_eqb_refl in E1. discriminate. }
  destruct E as (Ei & Hb & Hw). destruct (chain_exists (rk b) b (le_n _) Hb) as (l & C & Hn & Hr). pose proof (rank_src _ _ Es Hp) as L.
  assert (Hn' : NoDup (b :: l)). { constructor; [|exact Hn]. intros F. destruct (Hr _ F) as [F'|F']; [congruence|lia]. }
  assert (Hlen : length (b :: l) <= length (comps H)).
  { replace (length (comps H)) with (length (dkeys (comps H))) by apply map_length. apply NoDup_incl_length; [exact Hn'|]. intros x [<-|Hx]; apply here_In; [exact Hb|]. now apply (chain_here _ _ _ C). }
  assert (Cp : chain H p (b :: l)) by now apply chain_step. unfold trace.
  rewrite (trace_chain _ _ _ Cp Hn' _ []) by (auto; intros ? ? []). rewrite (trace_chain _ _ _ C Hn _ []) by (cbn in Hlen; auto; try lia; intros ? ? []). cbn. lia.
Qed.
End Rank.

(** More steps change nothing. *)
Lemma trace_enough H p k : trace_from (length (comps H) + k) H p [] = trace H p.
Proof.
  assert (G : forall f p acc, NoDup acc -> (forall x, In x acc -> here H x = true) -> length (comps H) <= f + length acc -> trace_from (f + k) H p acc = trace_from f H p acc).
  { induction f as [|f IH]; intros q acc Hn Hh Hl; cbn [trace_from plus].
    - destruct k as [|k']; [reflexivity|]. cbn [trace_from]. destruct (inst_of H q) as [i|]; [|reflexivity]. destruct (here H i) eqn:Hi; [|reflexivity].
      assert (Hin : In i acc).
      { apply (@NoDup_length_incl pystr acc (dkeys (comps H)) Hn); [unfold dkeys; rewrite map_length; lia|intros x Hx; apply here_In; auto|now apply here_In]. }
      apply str_in_In in Hin. now rewrite Hin.
    - destruct (inst_of H q) as [i|]; [|reflexivity]. destruct (here H i) eqn:Hi; [|reflexivity]. destruct (str_in i acc) eqn:Ei; [reflexivity|]. cbn [andb negb].
      apply IH; [apply DirtyProofs.NoDup_snoc; [exact Hn|now apply str_in_false]| |rewrite app_length; cbn; lia].
      intros x Hx. apply in_app_or in Hx as [Hx|[<-|[]]]; auto. }
  unfold trace. apply G; [constructor|intros ? []|cbn; lia].
Qed.

(** *** All together *)

Section Post.
Variables (n : nat) (F : heap).
Hypothesis G : good n F.
Definition layers_of (p : pystr) : list ref := bs F (Co p).

Lemma flat_bases p : exists is, layers_of p = map Sp is /\ NoDup is /\ (here F p = true -> is <> []) /\ forall i, In i is -> i < length (specs F).
Proof.
  unfold layers_of, bs, bases_in, here, dmem. destruct (dget p (comps F)) as [c|] eqn:E.
  - destruct (g_bases _ _ G _ _ E) as (is & A & B & C & D). exists is. auto.
  - exists []. split; [reflexivity|]. split; [constructor|]. split; [discriminate|intros ? []].
Qed.
Lemma flat_full : full F.
Proof. intros p c E. destruct (g_bases _ _ G _ _ E) as ([|i is] & A & B & _); [congruence|]. exists i, (map Sp is). exact A. Qed.
Lemma flat_owned : owned layers_of F.
Proof.
  split; [|split].
  - intros p. exists []. split; [now rewrite app_nil_r|intros ? []].
  - intros p r Hr. destruct (flat_bases p) as (is & E & _). rewrite E in Hr. apply in_map_iff in Hr as (i & <- & _). eauto.
  - intros p q i Hp Hq. unfold layers_of, bs, bases_in in Hp, Hq. destruct (dget p (comps F)) as [c|] eqn:Ec; [|destruct Hp]. destruct (dget q (comps F)) as [d|] eqn:Ed; [|destruct Hq].
    eapply (g_disj _ _ G); eauto.
Qed.
Lemma flat_sound : sound F.
Proof.
  split.
  - apply valid_bs. intros p r Hp Hr. destruct (flat_bases p) as (is & E & _ & _ & L). fold (layers_of p) in Hr. rewrite E in Hr. apply in_map_iff in Hr as (i & <- & Hi). auto.
  - intros p Hp. destruct (flat_bases p) as (is & E & Hn & _). exists (Co p :: map Sp is). unfold mro_of.
    assert (Hs : exists k, length (specs F) + length (comps F) = S k).
    { unfold here, dmem in Hp. destruct (comps F) as [|x l]; [discriminate|]. exists (length (specs F) + length l). cbn. lia. }
    destruct Hs as (k & ->). apply (mro_front_only ref_eqb ref_eqb_eq).
    + exact E.
    + apply FinFun.Injective_map_NoDup; [intros x y; congruence|exact Hn].
    + intros x Hx. apply in_map_iff in Hx as (i & <- & _). reflexivity.
Qed.
Lemma flat_neat : neat F.
Proof. intros p c a. apply (g_own _ _ G). Qed.
Lemma sorted_keys : NoDup (sort_instances F) /\ forall p, In p (sort_instances F) <-> here F p = true.
Proof.
  unfold sort_instances. destruct (SortProofs.sort_rows_spec (fun p => length (trace F p)) (dkeys (comps F))) as (P & _). split.
  - apply (Permutation_NoDup (Permutation_sym P)). apply G.
  - intros p. rewrite here_In. split; apply Permutation_in; [exact P|now apply Permutation_sym].
Qed.

Variable H : heap.
Hypothesis Hpost : post_proxy_comp F = Ok H.

Theorem post_structure :
  specs H = specs F /\ dkeys (comps H) = dkeys (comps F) /\ full H /\ sound H /\ owned layers_of H /\ neat H /\
  (forall q x, untouched x -> attr H q x = attr F q x) /\
  forall p, here F p = true -> exists rest, bs H (Co p) = layers_of p ++ rest /\
    match src F p with
    | None => rest = par F p
    | Some b => b <> p /\ (rest = par F p ++ [Co b] \/ (rest = [Co b] /\ forall r, In r (par F p) -> up H (Co b) r))
    end.
Proof.
  destruct sorted_keys as (Hn & Hin). unfold post_proxy_comp in Hpost. destruct (fold_res post_parent (sort_instances F) F) as [H1|] eqn:E1; [|discriminate].
  cbn [bind] in Hpost. destruct (parents_spec _ _ _ Hn flat_full flat_sound E1) as (A1 & A2 & A3 & A4 & A5 & A6).
  assert (Hk : forall q, here H1 q = here F q) by (intros q; now apply here_keys).
  assert (B1 : forall p, here F p = true -> bs H1 (Co p) = layers_of p ++ par F p).
  { intros p Hp. unfold layers_of, bs, bases_in. rewrite A6. apply Hin in Hp as Hp'. apply str_in_In in Hp'. rewrite Hp'. unfold here, dmem in Hp.
    destruct (dget p (comps F)); [reflexivity|discriminate]. }
  assert (B0 : forall p, here F p = false -> bs H1 (Co p) = []).
  { intros p Hp. rewrite <- Hk in Hp. unfold bs, bases_in. apply here_false in Hp. now rewrite Hp. }
  assert (Ow : owned layers_of H1).
  { destruct flat_owned as (O1 & O2 & O3). split; [|split; assumption]. intros p. destruct (here F p) eqn:Hp.
    - exists (par F p). split; [now apply B1|]. intros r Hr. destruct (par_here _ _ _ Hr) as (q & -> & _). eauto.
    - exists []. split; [|intros ? []]. rewrite B0 by exact Hp. unfold layers_of, bs, bases_in. apply here_false in Hp. now rewrite Hp. }
  assert (Ne : forall q, here H1 q = true -> layers_of q <> []).
  { intros q Hq. rewrite Hk in Hq. destruct (flat_bases q) as (is & E & _ & Hi & _). rewrite E. specialize (Hi Hq). destruct is; [congruence|discriminate]. }
  assert (Nt : neat H1).
  { intros p c a E Ha. rewrite A6 in E. destruct (str_in p _); [|now apply (flat_neat p c)]. destruct (dget p (comps F)) as [c0|] eqn:E0; [|discriminate]. injection E as <-. now apply (flat_neat p c0). }
  assert (Hl : forall p, In p (sort_instances F) -> here H1 p = true) by (intros p Hp; rewrite Hk; now apply Hin).
  destruct (instances_structure layers_of _ _ _ Hn A4 A3 Ow Ne Nt Hl Hpost) as (C1 & C2 & C3 & C4 & C5 & C6 & _ & C8 & CU & C9).
  split; [congruence|]. split; [congruence|]. split; [exact C3|]. split; [exact C4|]. split; [exact C5|]. split; [exact C6|].
  split; [intros q x Hx; now rewrite CU, A5|]. intros p Hp. specialize (C9 p (proj2 (Hin p) Hp)). unfold arcs_of in C9.
  rewrite (src_same F H1) in C9 by (auto). rewrite (B1 p Hp) in C9. destruct (src F p) as [b|] eqn:Es; [|exists (par F p); auto].
  destruct C9 as (Hb & [(D1 & D2)|(D1 & f & D2)]).
  - exists (par F p). split; [exact D2|]. split; [exact Hb|]. right. apply in_app_or in D1 as [D1|D1].
    + destruct flat_owned as (_ & O2 & _). destruct (O2 _ _ D1) as (i & F1). discriminate.
    + assert (Ep : par F p = [Co b]). { revert D1. unfold par. cbn zeta. destruct (is_empty _); [intros []|]. cbn zeta. match goal with |- context [if ?b then _ else _] => destruct b end; intros D1; [destruct D1 as [D1|D1]; [now rewrite D1|destruct D1]|destruct D1]. }
      rewrite Ep. split; [reflexivity|]. intros r [<-|[]]. apply above_self.
  - destruct (D2 (par F p) eq_refl) as (D3 & D4).
    assert (Ep : par F p = [] \/ exists q, par F p = [q]). { unfold par. cbn zeta. destruct (is_empty _); [now left|]. cbn zeta. match goal with |- context [if ?b then _ else _] => destruct b end; [right; eexists; reflexivity|now left]. }
    destruct Ep as [Ep|(q & Ep)]; rewrite Ep in *.
    + exists [Co b]. split; [exact D3|]. split; [exact Hb|]. left. reflexivity.
    + cbn [filter] in D3. destruct (f q) eqn:Ef; [exists [q; Co b]|exists [Co b]]; (split; [exact D3|]); (split; [exact Hb|]); [now left|right].
      split; [reflexivity|]. intros r [<-|[]]. apply D4; [now left|exact Ef].
Qed.

Hypothesis world_none : inst_of F WORLD = None.
Theorem post_attrs p x : here F p = true -> In x INSTANCE_ATTRS ->
  attr H p x = (if has_opinion (attr F p x) then attr F p x else match src F p with None => attr F p x | Some b => attr H b x end) /\
  attr H p (x ++ META_SOURCE) = (if has_opinion (attr F p x) then attr F p (x ++ META_SOURCE)
                                 else match src F p with None => attr F p (x ++ META_SOURCE) | Some b => VTuple [attr F b SOURCE_LAYER; VStr p] end).
Proof.
  intros Hp Hx. destruct post_structure as (_ & K & _ & (_ & So) & _ & _ & _ & Arc).
  destruct sorted_keys as (Hn & Hin). pose proof Hpost as E. unfold post_proxy_comp in E. destruct (fold_res post_parent (sort_instances F) F) as [H1|] eqn:E1; [|discriminate].
  cbn [bind] in E. destruct (parents_spec _ _ _ Hn flat_full flat_sound E1) as (A1 & A2 & A3 & A4 & A5 & A6).
  assert (Hk : forall q, here H1 q = here F q) by (intros q; now apply here_keys).
  assert (Ow : owned layers_of H1).
  { destruct flat_owned as (O1 & O2 & O3). split; [|split; assumption]. intros q. destruct (here F q) eqn:Hq.
    - exists (par F q). split.
      + unfold layers_of, bs, bases_in. rewrite A6. apply Hin in Hq as Hq'. apply str_in_In in Hq'. rewrite Hq'. unfold here, dmem in Hq. destruct (dget q (comps F)); [reflexivity|discriminate].
      + intros r Hr. destruct (par_here _ _ _ Hr) as (y & -> & _). eauto.
    - exists []. split; [|intros ? []]. unfold layers_of, bs, bases_in. rewrite <- Hk in Hq. pose proof Hq as Hq2. rewrite Hk in Hq2. apply here_false in Hq, Hq2. now rewrite Hq, Hq2. }
  assert (Ne : forall q, here H1 q = true -> layers_of q <> []).
  { intros q Hq. rewrite Hk in Hq. destruct (flat_bases q) as (is & Ei & _ & Hi & _). rewrite Ei. specialize (Hi Hq). destruct is; [congruence|discriminate]. }
  assert (Nt : neat H1).
  { intros q c a Eq Ha. rewrite A6 in Eq. destruct (str_in q _); [|now apply (flat_neat q c)]. destruct (dget q (comps F)) as [c0|] eqn:E0; [|discriminate]. injection Eq as <-. now apply (flat_neat q c0). }
  assert (Src : forall q, src H1 q = src F q) by (intros q; apply src_same; auto).
  assert (Hl : forall p, In p (sort_instances F) -> here H1 p = true) by (intros q Hq; rewrite Hk; now apply Hin).
  destruct (instances_attrs layers_of _ _ _ Hn A4 A3 Ow Ne Nt Hl E) with (p := p) (x := x) as (C1 & C2).
  - intros l1 q l2 b El Es. rewrite Src in Es. set (rk := fun p => match mro_of H (Co p) with Some l => length l | None => 0 end).
    assert (Hq : here F q = true). { apply Hin. rewrite El. apply in_or_app. right. now left. }
    assert (L : length (trace F b) < length (trace F q)).
    { apply (trace_longer F rk world_none); [|exact Hq|exact Es]. intros y z Ey Hy. destruct (Arc y Hy) as (rest & Eb & Er). rewrite Ey in Er. destruct Er as (_ & Er).
      assert (Iz : In (Co z) (bs H (Co y))). { rewrite Eb. apply in_or_app. right. destruct Er as [->|(-> & _)]; [apply in_or_app; right|]; now left. }
      assert (Hy' : here H y = true) by (rewrite (here_keys F H); assumption). destruct (So y Hy') as (l & El'). unfold rk. rewrite El'.
      unfold mro_of in *. destruct (mro_laws ref_eqb ref_eqb_eq _ _ _ _ El') as ((t & ->) & Hnd & _ & _ & Hs).
      destruct (mro ref_eqb (bases_in (comps H)) (S (length (specs H) + length (comps H))) (Co z)) as [lz|] eqn:Ez; [|cbn; lia].
      specialize (Hs _ _ _ Iz Ez). destruct (mro_laws ref_eqb ref_eqb_eq _ _ _ _ Ez) as (_ & _ & Hz & _).
      inversion Hs as [|? a b' Hs' Ea|? a b' Hs' Ea]; subst; [cbn; apply sub_length in Hs'; lia|].
      exfalso. apply (mro_acyclic ref_eqb _ _ _ _ _ El' Iz). apply Hz. now left. }
    destruct (SortProofs.sort_rows_spec (fun p => length (trace F p)) (dkeys (comps F))) as (_ & SS & _).
    change (sort_multidimensional_list (fun p => length (trace F p)) (dkeys (comps F))) with (sort_instances F) in SS. rewrite El in SS.
    intros [F1|F1]; [subst; lia|]. clear -SS F1 L. induction l1 as [|y l1 IH]; cbn in SS; inversion SS as [|? ? SS' Fa]; subst; [|now apply IH].
    rewrite Forall_forall in Fa. specialize (Fa _ F1). unfold SortProofs.le_key in Fa. lia.
  - now apply Hin.
  - exact Hx.
  - rewrite !A5, Src in C1. rewrite !A5, Src in C2. split; [exact C1|]. rewrite C2. destruct (src F p); [now rewrite A5|reflexivity].
Qed.
End Post.
