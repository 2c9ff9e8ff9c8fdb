(** The edits of a layer, in the form of the property theorems. *)

From Coq Require Import String List NArith Bool Arith Lia Permutation.
From Verif Require Import PyStr PyStrFacts NxtPath PathSpec PathProofs Dict DictFacts Layer PyVal
  Names NamesSpec NamesProofs SpecOps SpecOpsSpec SpecBase SpecMove SpecParent SpecClosed SpecReparent SpecRename
  SpecDelete SpecAdd SpecHistory.
Import ListNotations.

Section Cor.
Variables (ud uw : N -> bool) (extra : slayer -> list pystr).

Lemma add_unique t L name par :
  consistent L -> composed L -> Forall plain par -> name <> Some [] -> named t ->
  exists L' nm ds,
    add_node ud uw extra t name (abs_path par) true L = (L', Done (seq (length (objs L)) (size t), ds)) /\
    legal (isdigit ud) (is_word uw) nm /\ ~ holds L (par ++ [nm]) /\
    (~ holds L (par ++ [preferred (isdigit ud) (is_word uw) name]) ->
     ~ In (abs_path (par ++ [preferred (isdigit ud) (is_word uw) name])) (extra L) ->
     nm = preferred (isdigit ud) (is_word uw) name) /\
    grown (fun _ => legal (isdigit ud) (is_word uw)) L' t name par (length (objs L)) nm /\
    added L L' par nm (size t) /\ covers L' (seq (length (objs L)) (size t)) ds.
Proof.
  intros HC Hcomp Hp Hn Ht.
  destruct (add_node_ok ud uw extra true t L name par HC Hp) as (L' & nm & ds & E & Hpl & Hfree & Hok & EU & HG & HA & Hcov).
  { split; [exact Hcomp|]. auto. }
  destruct (unique_name_free ud uw extra L name par Hn Hp Hcomp) as (nm' & EU' & _ & _ & _ & _ & Hpref).
  assert (nm' = nm) by (cbn iota in EU; congruence). subst nm'.
  exists L', nm, ds. split; [exact E|]. split; [exact Hok|]. split; [exact Hfree|]. split; [exact Hpref|].
  split; [exact HG|]. split; assumption.
Qed.

Lemma add_exact t L nm par :
  consistent L -> Forall plain (par ++ [nm]) -> vacant L (par ++ [nm]) -> exact t ->
  exists L' ds,
    add_node ud uw extra t (Some nm) (abs_path par) false L = (L', Done (seq (length (objs L)) (size t), ds)) /\
    grown (fun wanted got => wanted = Some got) L' t (Some nm) par (length (objs L)) nm /\
    added L L' par nm (size t) /\ covers L' (seq (length (objs L)) (size t)) ds.
Proof.
  intros HC Hp Hv Ht.
  destruct (add_node_ok ud uw extra false t L (Some nm) par HC (Forall_app_l _ _ _ Hp))
    as (L' & nm' & ds & E & Hpl & Hfree & Hok & _ & HG & HA & Hcov).
  { exists nm. split; [reflexivity|]. split; [|auto]. apply Forall_app_r in Hp. now inversion Hp. }
  assert (nm' = nm) by (cbn in Hok; congruence). subst nm'.
  exists L', ds. auto.
Qed.

Lemma rename_general L i po nm0 nm n name (force : bool) :
  consistent L -> path_of L i = Some (abs_path (po ++ [nm0])) -> Forall plain (po ++ [nm0]) ->
  Forall plain (po ++ [nm]) -> obj L i = Some n ->
  (if force then name = nm
   else unique_name ud uw extra L (Some name) (abs_path po) = Some (Ok nm)) ->
  vacant L (po ++ [nm]) ->
  exists L' xs,
    set_node_name ud uw extra L i name force = (L', Done (abs_path (po ++ [nm]))) /\
    consistent L' /\
    NoDup xs /\ (forall x, In x xs <-> plain x /\ holds L (po ++ [nm0; x])) /\
    renamed L i (po ++ [nm0]) (po ++ [nm]) xs L' /\ same_nodes L L' /\
    (muted L = false -> forall k p m, lookup L' p = Some k -> obj L' k = Some m -> sourced m p) /\
    (forall k m m', obj L k = Some m -> obj L' k = Some m' ->
      (k = i -> s_order m' = fold_left (fun l x => adding x l) xs (s_order m)) /\
      (lookup L (abs_path po) = Some k ->
       s_order m' = map (fun x => if str_eqb x nm0 then nm else x) (s_order m)) /\
      (k <> i -> lookup L (abs_path po) <> Some k ->
       (forall c, nearest_above L (po ++ [nm0]) k c -> s_order m' = repeat_without c (length xs) (s_order m)) /\
       ((forall c, ~ nearest_above L (po ++ [nm0]) k c) -> s_order m' = s_order m))) /\
    same_flags L L' /\
    positions L' = move_key (abs_path (po ++ [nm0])) (abs_path (po ++ [nm])) (positions L) /\
    collapse L' = fold_left (fun d x => move_key (abs_path ((po ++ [nm0]) ++ x)) (abs_path ((po ++ [nm]) ++ x)) d)
                            ([] :: map (fun x => [x]) xs) (collapse L).
Proof.
  intros HC Hp Ho Hw En Hch Hv.
  assert (Hi : lookup L (abs_path (po ++ [nm0])) = Some i) by now apply (c_inverse L HC).
  destruct (set_node_name_spec ud uw extra L i po nm0 nm (consistent_books L HC) Ho Hw Hi Hv n name force En Hch)
    as (L' & xs & E & HC' & X1 & X2 & HH & HS & Hsrc & HO & Hf & Hpos & Hcol).
  exists L', xs. split; [exact E|]. split; [exact HC'|]. split; [exact X1|].
  split; [intros x; rewrite X2, <- app_assoc; reflexivity|].
  split; [destruct HH; constructor; assumption|]. split; [exact HS|]. split; [exact Hsrc|].
  split; [exact HO|]. split; [exact Hf|]. split; assumption.
Qed.

Lemma delete_subtree L i ns rd :
  consistent L -> path_of L i = Some (abs_path ns) -> Forall plain ns -> gapless L ns ->
  exists L' ps,
    delete_node L i rd true = (L', Done ps) /\ consistent L' /\
    NoDup ps /\
    (forall x, In x ps <-> exists r, Forall plain r /\ x = abs_path (ns ++ r) /\ holds L (ns ++ r)) /\
    (forall r, Forall plain r -> lookup L' (abs_path (ns ++ r)) = None) /\
    (forall ms, Forall plain ms -> ~ (exists r, ms = ns ++ r) ->
       lookup L' (abs_path ms) = lookup L (abs_path ms)) /\
    stays L L' ns True /\
    (muted L = false -> forall k p m, lookup L' p = Some k -> obj L' k = Some m -> sourced m p) /\
    (NoDup (dkeys (positions L)) -> NoDup (dkeys (collapse L)) -> forall q,
       dget q (positions L') = (if rd && str_in q ps then None else dget q (positions L)) /\
       dget q (collapse L') = (if rd && str_in q ps then None else dget q (collapse L))).
Proof.
  intros HC Hp Hns Hg.
  destruct (delete_spec L i ns rd true HC Hp Hns (fun _ => Hg))
    as (L' & ps & E & HC' & Hnd & Hps & Lk & Hst & Hsrc & _ & _ & Hpos & Hcol & _).
  assert (Hps' : forall x, In x ps <-> exists r, Forall plain r /\ x = abs_path (ns ++ r) /\ holds L (ns ++ r)).
  { intros x. rewrite Hps. split; [|intros H; right; split; [reflexivity|exact H]].
    intros [->|[_ H]]; [|exact H]. exists []. rewrite app_nil_r. split; [constructor|]. split; [reflexivity|].
    exists i. now apply (c_inverse L HC). }
  exists L', ps. split; [exact E|]. split; [exact HC'|]. split; [exact Hnd|]. split; [exact Hps'|]. split.
  { intros r Hr. rewrite Lk. destruct (str_in (abs_path (ns ++ r)) ps) eqn:Es; [reflexivity|].
    destruct (lookup L (abs_path (ns ++ r))) as [k|] eqn:Ek; [|reflexivity]. exfalso.
    assert (In (abs_path (ns ++ r)) ps).
    { apply Hps'. exists r. split; [exact Hr|]. split; [reflexivity|]. now exists k. }
    apply str_in_In in H. congruence. }
  split.
  { intros ms Hms Hno. rewrite Lk. destruct (str_in (abs_path ms) ps) eqn:Es; [|reflexivity].
    exfalso. apply str_in_In, Hps' in Es as (r & Hr & Es & _). apply abs_inj in Es; [|exact Hms|apply Forall_app; auto].
    apply Hno. now exists r. }
  split.
  { intros k m Hk Em. destruct (Hst k m Hk Em) as (m' & A1 & A2 & A3 & A4 & A5 & A6). exists m'.
    split; [exact A1|]. split; [exact A2|]. split; [exact A3|]. split; [exact A4|]. split; [|exact A6].
    intros po nm H1 H2. destruct (A5 po nm H1 H2) as [B1 _]. split; [intros _; apply B1; now left|tauto]. }
  split; [exact Hsrc|]. intros Hk1 Hk2 q. split; [now apply Hpos|now apply Hcol].
Qed.

Lemma delete_single L i ns rd :
  consistent L -> path_of L i = Some (abs_path ns) -> Forall plain ns ->
  exists L',
    delete_node L i rd false = (L', Done [abs_path ns]) /\ consistent L' /\
    lookup L' (abs_path ns) = None /\
    (forall q, q <> abs_path ns -> lookup L' q = lookup L q) /\
    stays L L' ns (forall r, Forall plain r -> r <> [] -> ~ holds L (ns ++ r)) /\
    (NoDup (dkeys (positions L)) -> NoDup (dkeys (collapse L)) -> forall q,
       dget q (positions L') = (if rd && str_eqb q (abs_path ns) then None else dget q (positions L)) /\
       dget q (collapse L') = (if rd && str_eqb q (abs_path ns) then None else dget q (collapse L))).
Proof.
  intros HC Hp Hns.
  destruct (delete_spec L i ns rd false HC Hp Hns ltac:(discriminate))
    as (L' & ps & E & HC' & Hnd & Hps & Lk & Hst & Hsrc & _ & _ & Hpos & Hcol & _).
  assert (ps = [abs_path ns]).
  { assert (Hi : In (abs_path ns) ps) by (apply Hps; now left).
    destruct ps as [|x [|y ps]]; [destruct Hi| |].
    - destruct Hi as [->|[]]. reflexivity.
    - exfalso. inversion Hnd as [|? ? Hx _]; subst. apply Hx.
      assert (x = abs_path ns) by (destruct (proj1 (Hps x) (or_introl eq_refl)) as [H|[H _]]; [exact H|discriminate]).
      assert (y = abs_path ns) by (destruct (proj1 (Hps y) (or_intror (or_introl eq_refl))) as [H0|[H0 _]]; [exact H0|discriminate]).
      left. congruence. }
  subst ps. unfold str_in in *. cbn [existsb] in *.
  exists L'. split; [exact E|]. split; [exact HC'|]. split; [now rewrite Lk, str_eqb_refl|]. split.
  { intros q Hq. rewrite Lk. rewrite (proj2 (str_eqb_neq q (abs_path ns)) Hq). reflexivity. }
  split.
  { intros k m Hk Em. destruct (Hst k m Hk Em) as (m' & A1 & A2 & A3 & A4 & A5 & A6). exists m'.
    split; [exact A1|]. split; [exact A2|]. split; [exact A3|]. split; [exact A4|]. split; [|exact A6].
    intros po nm H1 H2. destruct (A5 po nm H1 H2) as [B1 B2]. split; [intros H; apply B1; now right|].
    intros H. apply B2. intros [H3|H3]; [discriminate|exact (H H3)]. }
  intros Hk1 Hk2 q. rewrite (Hpos Hk1), (Hcol Hk2), orb_false_r. auto.
Qed.
End Cor.
