(** C89: the sources and the targets of instances. *)

From Coq Require Import String List NArith Bool Arith Lia.
From Verif Require Import PyStr PyStrFacts InstTrace.
Import ListNotations.

(** Node [p] is an instance of [s], or of an instance of [s], and so on. *)
Inductive from (nodes : list node) : pystr -> pystr -> Prop :=
| from_one p s : In (p, Some s) nodes -> from nodes p s
| from_step p i s : In (p, Some i) nodes -> from nodes i s -> from nodes p s.
Definition acyclic (nodes : list node) : Prop := forall p, ~ from nodes p p.
Definition paths (nodes : list node) : list pystr := map fst nodes.

Lemma from_trans nodes a b c : from nodes a b -> from nodes b c -> from nodes a c.
Proof. induction 1; intros H'; [eapply from_step; eauto|eapply from_step; eauto]. Qed.
Lemma from_last nodes a b c : from nodes a b -> In (b, Some c) nodes -> from nodes a c.
Proof. intros H I. eapply from_trans; [exact H|now apply from_one]. Qed.
Lemma one_source nodes p i j : NoDup (paths nodes) -> In (p, i) nodes -> In (p, j) nodes -> i = j.
Proof.
  unfold paths. induction nodes as [|[q k] t IH]; intros N A B; [destruct A|]. cbn [map fst] in N. inversion N as [|? ? Hn N']; subst.
  destruct A as [A|A], B as [B|B]; [congruence| | |now apply IH]; exfalso; apply Hn.
  - injection A as -> _. apply in_map_iff. now exists (p, j).
  - injection B as -> _. apply in_map_iff. now exists (p, i).
Qed.
(** The first step of a chain is the only one there is. *)
Lemma from_first nodes p i s : NoDup (paths nodes) -> In (p, Some i) nodes -> from nodes p s -> i = s \/ from nodes i s.
Proof. intros N I H. destruct H as [p s J|p j s J H]; pose proof (one_source nodes p _ _ N I J) as E; injection E as <-; tauto. Qed.

Lemma mem_in p l : mem p l = true <-> In p l.
Proof. unfold mem. rewrite existsb_exists. split; [intros (x & I & E); apply str_eqb_eq in E; now subst|intros I; exists p; split; [exact I|now apply str_eqb_eq]]. Qed.
Lemma lookup_some nodes p m : lookup nodes p = Some m -> In m nodes /\ fst m = p.
Proof. intros H. apply find_some in H. destruct H as [I E]. apply str_eqb_eq in E. now split. Qed.
Lemma lookup_none nodes p : lookup nodes p = None -> ~ In p (paths nodes).
Proof. intros H I. unfold paths in I. apply in_map_iff in I. destruct I as (m & E & I). pose proof (find_none _ _ H m I) as F. cbn beta in F. rewrite E in F. assert (str_eqb p p = true) by now apply str_eqb_eq. congruence. Qed.

(** ** Sources *)

(** A walk from a node to its source, the source of that, ... *)
Inductive walk (nodes : list node) : node -> list pystr -> Prop :=
| walk_end n : walk nodes n []
| walk_on p i m l : In m nodes -> fst m = i -> walk nodes m l -> walk nodes (p, Some i) (i :: l).

Lemma sources_walk nodes : forall fuel n trace, NoDup trace -> incl trace (paths nodes) -> length nodes < fuel + length trace ->
  exists l, get_instance_sources fuel nodes n trace = Some (trace ++ l) /\ walk nodes n l /\ NoDup (trace ++ l) /\ incl (trace ++ l) (paths nodes) /\
  (forall i, snd n = Some i -> In i (paths nodes) -> In i (trace ++ l)) /\ (NoDup (paths nodes) -> forall p i, In p l -> In (p, Some i) nodes -> In i (paths nodes) -> In i (trace ++ l)).
Proof.
  induction fuel as [|f IH]; intros [p o] trace N I L.
  { pose proof (NoDup_incl_length N I) as Q. unfold paths in Q. rewrite map_length in Q. exfalso. exact (Nat.lt_irrefl _ (Nat.lt_le_trans _ _ _ L Q)). }
  cbn [get_instance_sources snd]. destruct o as [i|].
  - destruct (lookup nodes i) as [m|] eqn:E.
    + destruct (lookup_some _ _ _ E) as [Im Em]. destruct (mem (fst m) trace) eqn:M.
      * exists []. rewrite app_nil_r. apply mem_in in M. repeat split; try assumption; [constructor| |].
        -- intros j Ej _. injection Ej as <-. now rewrite <- Em.
        -- intros _ ? ? [].
      * assert (Nm : ~ In (fst m) trace) by (intros Q; apply mem_in in Q; congruence).
        assert (Ip : In (fst m) (paths nodes)) by (unfold paths; now apply in_map).
        destruct (IH m (trace ++ [fst m])) as (l & R & W & N' & I' & F & C).
        -- apply NoDup_rev in N. rewrite <- (rev_involutive (trace ++ [fst m])). apply NoDup_rev. rewrite rev_app_distr. cbn. constructor; [now rewrite <- in_rev|exact N].
        -- intros x Q. apply in_app_or in Q. destruct Q as [Q|[<-|[]]]; auto.
        -- rewrite app_length. cbn [length]. lia.
        -- exists (fst m :: l). rewrite <- app_assoc in *. cbn [app] in *. split; [exact R|]. split; [rewrite Em; now apply (walk_on nodes p i m l)|]. split; [exact N'|]. split; [exact I'|]. split.
           ++ intros j Ej _. injection Ej as <-. apply in_or_app. right. left. exact Em.
           ++ intros Nd q j [<-|Q] J K.
              ** destruct m as [pm om]. cbn [fst snd] in *. pose proof (one_source nodes pm _ _ Nd Im J) as ->. now apply F.
              ** now apply (C Nd q j).
    + exists []. rewrite app_nil_r. repeat split; try assumption; [constructor| |].
      * intros j Ej K. injection Ej as <-. now apply lookup_none in E.
      * intros _ ? ? [].
  - exists []. rewrite app_nil_r. repeat split; try assumption; [constructor|discriminate|intros _ ? ? []].
Qed.
Lemma walk_from nodes n l : walk nodes n l -> In n nodes -> forall s, In s l -> from nodes (fst n) s.
Proof. induction 1 as [|p i m l Im Em W IH]; intros I s S; [destruct S|]. destruct S as [<-|S]; [now apply from_one|]. apply from_step with i; [exact I|]. rewrite <- Em. now apply IH. Qed.

(** The sources of a node are always found, in no more steps than there are nodes,
    even when nodes are instances of each other in a circle: they are the nodes of
    the layer it is an instance of, directly or not, each once and in the order of
    the steps. *)
Theorem C89_sources : forall nodes n fuel, NoDup (paths nodes) -> In n nodes -> length nodes < fuel ->
  exists l, get_instance_sources fuel nodes n [] = Some l /\ walk nodes n l /\ NoDup l /\ forall s, In s l <-> In s (paths nodes) /\ from nodes (fst n) s.
Proof.
  intros nodes n fuel N I L. destruct (sources_walk nodes fuel n []) as (l & R & W & N' & I' & F & C); [constructor|intros ? []|cbn; lia|]. cbn [app] in *.
  exists l. split; [exact R|]. split; [exact W|]. split; [exact N'|]. intros s. split; [intros S; split; [now apply I'|now apply (walk_from nodes n l W I)]|].
  intros [S H]. destruct n as [p o]. cbn [fst snd] in *.
  assert (G : forall q x, from nodes q x -> In q l -> In x (paths nodes) -> In x l).
  { intros q x Hf. induction Hf as [q x J|q i x J Hf IH]; intros Q K; [now apply (C N q x)|]. apply IH; [|exact K]. apply (C N q i Q J). destruct Hf as [? ? Z|? ? ? Z]; unfold paths; apply in_map_iff; eexists; (split; [|exact Z]); reflexivity. }
  destruct H as [p s J|p i s J Hf].
  - pose proof (one_source nodes p _ _ N I J) as ->. now apply F.
  - pose proof (one_source nodes p _ _ N I J) as ->. apply (G i s Hf); [|exact S]. apply F; [reflexivity|]. destruct Hf as [? ? Z|? ? ? Z]; unfold paths; apply in_map_iff; eexists; (split; [|exact Z]); reflexivity.
Qed.
Print Assumptions C89_sources.

(** ** Targets *)

Definition each (f : nat) (nodes : list node) (s : pystr) : list node -> list pystr -> option (list pystr) :=
  fix each (l : list node) (target_list : list pystr) : option (list pystr) :=
    match l with
    | [] => Some target_list
    | (p, Some i) :: t =>
        if str_eqb i s
        then match get_instance_targets f nodes p (target_list ++ [p]) with Some r => each t r | None => None end
        else each t target_list
    | (_, None) :: t => each t target_list
    end.
Lemma targets_each f nodes s acc : get_instance_targets (S f) nodes s acc = each f nodes s nodes acc.
Proof. reflexivity. Qed.

Lemma incl_node nodes p i : In (p, Some i) nodes -> In p (paths nodes).
Proof. intros I. unfold paths. apply in_map_iff. now exists (p, Some i). Qed.

(** What is found, when the search ends. *)
Lemma targets_found nodes : NoDup (paths nodes) -> acyclic nodes -> forall f s above, NoDup above -> incl above (paths nodes) -> (forall v, In v above -> v = s \/ from nodes s v) -> length nodes < f + length above ->
  forall acc, exists l, get_instance_targets f nodes s acc = Some (acc ++ l) /\ NoDup l /\ forall t, In t l <-> from nodes t s.
Proof.
  intros N A. induction f as [|f IH]; intros s above Na Ia Va L acc.
  { pose proof (NoDup_incl_length Na Ia) as Q. unfold paths in Q. rewrite map_length in Q. exfalso. exact (Nat.lt_irrefl _ (Nat.lt_le_trans _ _ _ L Q)). }
  rewrite targets_each.
  assert (E : forall l, incl l nodes -> NoDup (paths l) -> forall acc, exists r, each f nodes s l acc = Some (acc ++ r) /\ NoDup r /\
    forall t, In t r <-> exists p, In (p, Some s) l /\ (t = p \/ from nodes t p)).
  { induction l as [|[p [i|]] l IHl]; intros Il Nl ac.
    - exists []. cbn [each]. rewrite app_nil_r. split; [reflexivity|]. split; [constructor|]. intros t. split; [intros []|intros (p & [] & _)].
    - inversion Nl as [|? ? Hp Nl']; subst. cbn [map fst] in Hp. cbn [each]. assert (Il' : incl l nodes) by (intros x Q; apply Il; now right). assert (Ip : In (p, Some i) nodes) by (apply Il; now left).
      destruct (str_eqb i s) eqn:Es.
      + apply str_eqb_eq in Es. subst i.
        assert (Np : ~ In p above).
        { intros Q. destruct (Va p Q) as [->|Q']; [exact (A s (from_one nodes s s Ip))|exact (A p (from_step nodes p s p Ip Q'))]. }
        destruct (IH p (p :: above)) with (acc := ac ++ [p]) as (r1 & R1 & N1 & F1).
        * now constructor.
        * intros x [<-|Q]; [now apply (incl_node nodes p s)|now apply Ia].
        * intros v [<-|Q]; [now left|right]. destruct (Va v Q) as [->|Q']; [now apply from_one|now apply from_step with s].
        * cbn [length]. lia.
        * rewrite R1. destruct (IHl Il' Nl' ((ac ++ [p]) ++ r1)) as (r2 & R2 & N2 & F2). rewrite R2. exists (p :: r1 ++ r2). split; [f_equal; rewrite <- !app_assoc; reflexivity|]. split.
          -- assert (D : forall x, from nodes x p -> forall q, In (q, Some s) l -> x = q \/ from nodes x q -> False).
             { intros x X q Q Y. assert (Iq : In (q, Some s) nodes) by now apply Il'.
               assert (Npq : p <> q) by (intros ->; apply Hp; now apply (incl_node l q s)).
               assert (K : from nodes p q \/ from nodes q p).
               { destruct Y as [->|Y]; [now right|]. clear - N X Y Npq. induction X as [x p J|x i p J X IHX].
                 - destruct (from_first nodes x p q N J Y) as [->|Z]; [contradiction|now left].
                 - destruct (from_first nodes x i q N J Y) as [->|Z]; [now right|now apply IHX]. }
               destruct K as [K|K].
               - destruct (from_first nodes p s q N Ip K) as [->|Z]; [exact (A q (from_one nodes q q Iq))|exact (A q (from_step nodes q s q Iq Z))].
               - destruct (from_first nodes q s p N Iq K) as [->|Z]; [exact (A p (from_one nodes p p Ip))|exact (A p (from_step nodes p s p Ip Z))]. }
             constructor.
             ++ intros Q. apply in_app_or in Q. destruct Q as [Q|Q]; [apply F1 in Q; exact (A p Q)|]. apply F2 in Q. destruct Q as (q & Iq & [->|Q]).
                ** apply Hp. now apply (incl_node l q s).
                ** destruct (from_first nodes p s q N Ip Q) as [->|Z]; [exact (A q (from_one nodes q q (Il' _ Iq)))|exact (A q (from_step nodes q s q (Il' _ Iq) Z))].
             ++ clear R1 R2. revert N1 N2. assert (Dj : forall x, In x r1 -> ~ In x r2) by (intros x X1 X2; apply F1 in X1; apply F2 in X2; destruct X2 as (q & Iq & Y); exact (D x X1 q Iq Y)). clear - Dj. intros N1 N2.
                induction N1 as [|x r1 Hx N1 IH]; [exact N2|]. cbn [app]. constructor; [intros Q; apply in_app_or in Q; destruct Q as [Q|Q]; [contradiction|exact (Dj x (or_introl eq_refl) Q)]|]. apply IH. intros y Y. apply Dj. now right.
          -- intros t. split.
             ++ intros [<-|Q]; [exists p; split; [now left|now left]|]. apply in_app_or in Q. destruct Q as [Q|Q]; [apply F1 in Q; exists p; split; [now left|now right]|]. apply F2 in Q. destruct Q as (q & Iq & Y). exists q. split; [now right|exact Y].
             ++ intros (q & [Q|Q] & Y).
                ** injection Q as <-. destruct Y as [->|Y]; [now left|right]. apply in_or_app. left. now apply F1.
                ** right. apply in_or_app. right. apply F2. now exists q.
      + destruct (IHl Il' Nl' ac) as (r & R & Nr & F). exists r. split; [exact R|]. split; [exact Nr|]. intros t. rewrite F. split; intros (q & Q & Y); exists q; (split; [|exact Y]); [now right|].
        destruct Q as [Q|Q]; [|exact Q]. injection Q as -> ->. assert (str_eqb s s = true) by now apply str_eqb_eq. congruence.
    - inversion Nl as [|? ? Hp Nl']; subst. cbn [each]. assert (Il' : incl l nodes) by (intros x Q; apply Il; now right). destruct (IHl Il' Nl' ac) as (r & R & Nr & F). exists r. split; [exact R|]. split; [exact Nr|].
      intros t. rewrite F. split; intros (q & Q & Y); exists q; (split; [|exact Y]); [now right|]. destruct Q as [Q|Q]; [discriminate|exact Q]. }
  destruct (E nodes (fun x Q => Q) N acc) as (r & R & Nr & F). exists r. split; [exact R|]. split; [exact Nr|]. intros t. rewrite F. split.
  - intros (p & Ip & [->|Y]); [now apply from_one|now apply from_last with p].
  - intros H. clear - H. induction H as [p s I|p i s I H IH]; [exists p; split; [exact I|now left]|]. destruct IH as (q & Iq & Y). exists q. split; [exact Iq|]. right. destruct Y as [->|Y]; [now apply from_one|now apply from_step with i].
Qed.

(** As long as no node is an instance of itself, directly or not, the targets of a
    path are found, each once: all nodes that are instances of it, directly or
    not. *)
Theorem C89_targets : forall nodes s fuel, NoDup (paths nodes) -> acyclic nodes -> length nodes < fuel ->
  exists l, get_instance_targets fuel nodes s [] = Some l /\ NoDup l /\ forall t, In t l <-> from nodes t s.
Proof. intros nodes s fuel N A L. destruct (targets_found nodes N A fuel s [] ltac:(constructor) ltac:(intros ? []) ltac:(intros ? []) ltac:(cbn; lia) []) as (l & R & Nl & F). now exists l. Qed.
Print Assumptions C89_targets.

(** The two agree: a node is a target of another exactly if that one is one of its
    sources. *)
Theorem C89_inverse : forall nodes s t it fuel, NoDup (paths nodes) -> acyclic nodes -> In s (paths nodes) -> In (t, it) nodes -> length nodes < fuel ->
  exists sources targets, get_instance_sources fuel nodes (t, it) [] = Some sources /\ get_instance_targets fuel nodes s [] = Some targets /\ (In s sources <-> In t targets).
Proof.
  intros nodes s t it fuel N A S T L. destruct (C89_sources nodes (t, it) fuel N T L) as (l & R & _ & _ & F). destruct (C89_targets nodes s fuel N A L) as (l' & R' & _ & F').
  exists l, l'. split; [exact R|]. split; [exact R'|]. rewrite F, F'. cbn [fst]. tauto.
Qed.
Print Assumptions C89_inverse.

(** In a circle the targets are searched without end, though the sources are not. *)
Theorem C89_circle_refuted : forall nodes s, from nodes s s -> forall fuel acc, get_instance_targets fuel nodes s acc = None.
Proof.
  intros nodes s H fuel. revert s H. induction fuel as [|f IH]; intros s H acc; [reflexivity|]. rewrite targets_each.
  assert (G : exists p, In (p, Some s) nodes /\ from nodes p p).
  { assert (Z : forall a b, from nodes a b -> exists p, In (p, Some b) nodes /\ (p = a \/ from nodes a p)).
    { induction 1 as [p b I|p i b I X IHX]; [exists p; split; [exact I|now left]|]. destruct IHX as (q & Iq & Y). exists q. split; [exact Iq|right]. destruct Y as [->|Y]; [now apply from_one|now apply from_step with i]. }
    destruct (Z s s H) as (p & Ip & Y). exists p. split; [exact Ip|]. destruct Y as [->|Y]; [exact H|now apply from_step with s]. }
  destruct G as (p & Ip & Hp).
  assert (E : forall l ac, In (p, Some s) l -> each f nodes s l ac = None).
  { induction l as [|[q [i|]] l IHl]; intros ac I; [destruct I| |].
    - cbn [each]. destruct I as [I|I].
      + injection I as -> ->. assert (str_eqb s s = true) as -> by now apply str_eqb_eq. now rewrite (IH p Hp).
      + destruct (str_eqb i s); [destruct (get_instance_targets f nodes q (ac ++ [q])); [now apply IHl|reflexivity]|now apply IHl].
    - cbn [each]. destruct I as [I|I]; [discriminate|now apply IHl]. }
  now apply E.
Qed.
Print Assumptions C89_circle_refuted.

Definition sample : list node := [(lit "/a", None); (lit "/b", Some (lit "/a")); (lit "/c", Some (lit "/b")); (lit "/d", Some (lit "/a")); (lit "/e", Some (lit "/gone"))].
Example C89_sample : NoDup (paths sample) /\ acyclic sample /\ In (lit "/c", Some (lit "/b")) sample /\
  get_instance_sources 6 sample (lit "/c", Some (lit "/b")) [] = Some [lit "/b"; lit "/a"] /\ get_instance_targets 6 sample (lit "/a") [] = Some [lit "/b"; lit "/c"; lit "/d"] /\
  get_instance_targets 6 sample (lit "/gone") [] = Some [lit "/e"] /\ get_instance_sources 6 sample (lit "/e", Some (lit "/gone")) [] = Some [].
Proof.
  split; [repeat (constructor; [vm_compute; intuition discriminate|]); constructor|]. split.
  - assert (R : exists rank : pystr -> nat, forall p s, from sample p s -> rank s < rank p).
    { exists (fun p => if str_eqb p (lit "/c") then 2 else if str_eqb p (lit "/b") || str_eqb p (lit "/d") || str_eqb p (lit "/e") then 1 else 0).
      assert (O : forall p s, In (p, Some s) sample -> (if str_eqb s (lit "/c") then 2 else if str_eqb s (lit "/b") || str_eqb s (lit "/d") || str_eqb s (lit "/e") then 1 else 0) < (if str_eqb p (lit "/c") then 2 else if str_eqb p (lit "/b") || str_eqb p (lit "/d") || str_eqb p (lit "/e") then 1 else 0)).
      { intros p s [I|[I|[I|[I|[I|[]]]]]]; try discriminate; injection I as <- <-; vm_compute; lia. }
      intros p s H. induction H as [p s I|p i s I H IH]; [now apply O|]. pose proof (O p i I). lia. }
    destruct R as (rank & R). intros p H. specialize (R p p H). lia.
  - split; [right; right; now left|]. repeat split; reflexivity.
Qed.
Example C89_circle_sample : from [(lit "/a", Some (lit "/b")); (lit "/b", Some (lit "/a"))] (lit "/a") (lit "/a") /\
  get_instance_sources 3 [(lit "/a", Some (lit "/b")); (lit "/b", Some (lit "/a"))] (lit "/a", Some (lit "/b")) [] = Some [lit "/b"; lit "/a"].
Proof. split; [apply from_step with (lit "/b"); [now left|apply from_one; right; now left]|reflexivity]. Qed.
