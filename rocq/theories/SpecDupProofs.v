(** Duplicating nodes and adding hierarchies. *)

From Coq Require Import String List NArith Bool Arith Lia Permutation.
From Verif Require Import PyStr PyStrFacts NxtPath PathSpec PathProofs Dict DictFacts ListMerger
  MergeProofs Layer LayerSpec LayerProofs DescProofs ChildCacheSpec ChildCacheProofs HierarchyProofs SortRows SortProofs PyVal
  Names NamesSpec NamesProofs SpecOps SpecOpsSpec SpecBase SpecMove SpecParent SpecClosed SpecReparent SpecRename
  SpecDelete SpecAdd SpecCor SpecDup.
Import ListNotations.

(** *** The children of a node *)

Lemma kid_nodes_spec L ref ns : consistent L -> Forall plain ns -> lookup L (abs_path ns) = Some ref ->
  exists xs, NoDup xs /\ (forall x, In x xs <-> plain x /\ holds L (ns ++ [x])) /\
    Forall2 (fun j x => lookup L (abs_path (ns ++ [x])) = Some j) (kid_nodes L ref) xs.
Proof.
  intros HC Hns Hr. pose proof (consistent_books L HC) as HB. apply (c_inverse L HC) in Hr.
  unfold kid_nodes. rewrite Hr. unfold kid_paths.
  destruct (children_exact same_string same_string (view L) ns (view_wf L HB) (view_ready L)
              (plain_component ns Hns)) as (l & E & Hnd & Hin & _).
  rewrite E. cbn [as_list]. clear E.
  assert (Hin' : forall c, In c l <-> exists x, plain x /\ c = abs_path (ns ++ [x]) /\ holds L (ns ++ [x])).
  { intros c. rewrite Hin. split.
    - intros (x & Hx & -> & Hh). apply (view_has L) in Hh as [Hh Hp]; [|exact HB|].
      + apply Forall_app_r in Hp. inversion Hp; subst. exists x. auto.
      + apply Forall_app. split; [now apply plain_component|]. constructor; [exact Hx|constructor].
    - intros (x & Hx & -> & Hh). exists x. split; [now destruct Hx|]. split; [reflexivity|].
      apply (view_has L); [exact HB| |].
      + apply plain_component, Forall_app. auto.
      + split; [exact Hh|]. apply Forall_app. auto. }
  clear Hin.
  assert (G : forall l, NoDup l -> (forall c, In c l -> exists x, plain x /\ c = abs_path (ns ++ [x]) /\ holds L (ns ++ [x])) ->
    exists xs, NoDup xs /\ (forall x, In x xs -> plain x /\ In (abs_path (ns ++ [x])) l) /\
      (forall x, plain x -> In (abs_path (ns ++ [x])) l -> In x xs) /\
      Forall2 (fun j x => lookup L (abs_path (ns ++ [x])) = Some j)
        (flat_map (fun c => match lookup L c with Some j => [j] | None => [] end) l) xs).
  { induction l0 as [|c l0 IH]; intros Hl Hc.
    - exists []. split; [constructor|]. split; [intros ? []|]. split; [intros ? ? []|constructor].
    - inversion Hl as [|? ? Hcl Hl']; subst.
      destruct IH as (xs & X1 & X2 & X3 & X4); [exact Hl'|intros d Hd; apply Hc; now right|].
      destruct (Hc c (or_introl eq_refl)) as (x & Hx & -> & (j & Ej)). cbn [flat_map]. rewrite Ej. cbn [app].
      exists (x :: xs). split.
      { constructor; [|exact X1]. intros H. apply X2 in H as [_ H]. contradiction. }
      split; [intros y [<-|Hy]; [split; [exact Hx|now left]|apply X2 in Hy; split; [tauto|right; tauto]]|].
      split; [|constructor; assumption].
      intros y Hy [He|Hl2]; [|right; now apply X3]. left.
      apply abs_inj in He; [|apply Forall_app; auto..]. apply app_inj_tail in He as [_ ->]. reflexivity. }
  destruct (G l Hnd) as (xs & X1 & X2 & X3 & X4); [intros c Hc; now apply Hin'|].
  exists xs. split; [exact X1|]. split; [|exact X4]. intros x. split.
  - intros Hx. destruct (X2 x Hx) as [Hp Hi]. split; [exact Hp|].
    apply Hin' in Hi as (y & Hy & E & Hh). apply abs_inj in E; [|apply Forall_app; auto..].
    apply app_inj_tail in E as [_ ->]. exact Hh.
  - intros [Hp Hh]. apply X3; [exact Hp|]. apply Hin'. eauto.
Qed.

Lemma closed_prefix L ns : closed L -> ns <> [] -> forall r, Forall plain (ns ++ r) -> holds L (ns ++ r) -> holds L ns.
Proof.
  intros Hc Hne r. pattern r. apply rev_ind; clear r.
  - intros _ H. now rewrite app_nil_r in H.
  - intros x r IH Hp Hh. rewrite app_assoc in Hp, Hh. apply IH; [exact (Forall_app_l _ _ _ Hp)|].
    destruct (Hc (ns ++ r) x Hp Hh) as [E|H]; [|exact H]. destruct ns; [congruence|discriminate].
Qed.

Lemma to_path ns : ns <> [] -> node_namespace_to_str_path ns = abs_path ns.
Proof. intros Hn. rewrite abs_path_slashed by exact Hn. unfold node_namespace_to_str_path. symmetry. now apply slashed_join. Qed.

Section DupProofs.
Variables ud uw : N -> bool.
Variable extra : slayer -> list pystr.
Variable kept_attrs : dict pyval -> dict pyval.
Variable kept_rest : pyval -> pyval.
Variable bare : pyval.
Notation add := (SpecOps.add_node ud uw extra).
Notation dupe := (dupe_descendants ud uw extra kept_attrs kept_rest).
Notation copyof := (copy_of kept_attrs kept_rest).
Notation good := (fun x => legal (isdigit ud) (is_word uw) x /\ x <> lit "__name__").

(** *** One node without children *)

Lemma add_leaf (fx : bool) L order attrs rest (name : option pystr) par nm :
  consistent L -> Forall plain (par ++ [nm]) -> ~ holds L (par ++ [nm]) ->
  (if fx then unique_name ud uw extra L name (abs_path par) = Some (Ok nm) else name = Some nm) ->
  exists L' ds,
    add (Tree order attrs rest []) name (abs_path par) fx L = (L', Done ([length (objs L)], abs_path (par ++ [nm]) :: ds)) /\
    added L L' par nm 1 /\
    (forall q, lookup L' q = if str_eqb (abs_path (par ++ [nm])) q then Some (length (objs L)) else lookup L q) /\
    obj L' (length (objs L)) = Some (make_node nm (abs_path par) order attrs rest).
Proof.
  intros HC Hp Hno Hnm.
  destruct (enter_spec L nm par order attrs rest HC Hp Hno) as (L1 & E1 & HC1 & Lk & Oi & Okk & Sr & Hlen & Hsl).
  pose proof (enter_added L nm par order attrs rest L1 HC Hp Hno E1) as HA.
  assert (En : (if fx then unique_name ud uw extra L name (abs_path par)
                else Some (match name with Some s => Ok s | None => Raise TypeError end)) = Some (Ok nm)).
  { destruct fx; [exact Hnm|now rewrite Hnm]. }
  destruct (add_node_unfold ud uw extra fx order attrs rest [] name (abs_path par) L nm L1 _ _ En E1) as (dirty & EU).
  exists L1, dirty. cbn [add_all fst snd] in EU. auto.
Qed.

(** *** The subtree *)

(** The node at [ws] of [L'] is a copy of the node at [os] of [L]. *)
Definition copy (L L' : slayer) (os ws : list pystr) : Prop :=
  exists i j n m kids, lookup L (abs_path os) = Some i /\ obj L i = Some n /\
    lookup L' (abs_path ws) = Some j /\ obj L' j = Some m /\
    map (fun kv => (fst kv, fst (snd kv))) (s_attrs m) =
      kept_attrs (map (fun kv => (fst kv, fst (snd kv))) (s_attrs n)) /\
    sourced m (abs_path ws) /\ s_rest m = kept_rest (s_rest n) /\
    s_order m = firsts (s_order n ++ kids) /\ NoDup kids /\
    forall x, In x kids <-> plain x /\ holds L (os ++ [x]).

Definition below (rs : list pystr) (L K : slayer) : Prop :=
  forall r, Forall plain r -> lookup K (abs_path (rs ++ r)) = lookup L (abs_path (rs ++ r)) /\
    forall i, lookup L (abs_path (rs ++ r)) = Some i -> obj K i = obj L i.

Lemma below_holds rs L K r : below rs L K -> Forall plain r -> (holds K (rs ++ r) <-> holds L (rs ++ r)).
Proof. intros H Hr. unfold holds. destruct (H r Hr) as [E _]. now rewrite E. Qed.

Lemma copy_below rs L K L' r ws : below rs L K -> Forall plain r -> copy K L' (rs ++ r) ws -> copy L L' (rs ++ r) ws.
Proof.
  intros H Hr (i & j & n & m & kids & C1 & C2 & C3 & C4 & C5 & C6 & C7 & C8 & C9 & C10).
  destruct (H r Hr) as [E Ho]. rewrite E in C1. rewrite (Ho i C1) in C2.
  exists i, j, n, m, kids. repeat (split; [assumption|]). intros x. rewrite C10. split; intros [P Q]; (split; [exact P|]).
  - rewrite <- app_assoc in *. apply (below_holds rs L K); [exact H| |exact Q]. apply Forall_app. auto.
  - rewrite <- app_assoc in *. apply (below_holds rs L K); [exact H| |exact Q]. apply Forall_app. auto.
Qed.

Lemma copy_up L L1 L2 os ws : copy L L1 os ws ->
  (forall q k, lookup L1 q = Some k -> lookup L2 q = Some k) ->
  (forall k m, lookup L1 (abs_path ws) = Some k -> obj L1 k = Some m -> obj L2 k = Some m) -> copy L L2 os ws.
Proof.
  intros (i & j & n & m & kids & C1 & C2 & C3 & C4 & C5) H1 H2.
  exists i, j, n, m, kids. split; [exact C1|]. split; [exact C2|]. split; [now apply H1|]. split; [now apply H2|exact C5].
Qed.

Record duped (L L' : slayer) (new : nat) (rs ws xs : list pystr) (ids : list nat) (ds : list pystr) : Prop := {
  d_consistent : consistent L';
  d_closed : closed L';
  d_rest : same_rest L L';
  d_old : forall q k, lookup L q = Some k -> lookup L' q = Some k;
  d_new : forall q k, lookup L' q = Some k -> lookup L q = Some k \/
    (length (objs L) <= k /\ exists x r, In x xs /\ Forall plain (x :: r) /\ q = abs_path (ws ++ x :: r) /\
                                         holds L (rs ++ x :: r));
  d_objs : forall k m, obj L k = Some m -> k <> new -> obj L' k = Some m;
  d_top : forall m, obj L new = Some m -> NoDup (s_order m) ->
    obj L' new = Some (set_order (fold_left (fun acc x => adding x acc) xs (s_order m)) m);
  d_copy : forall x r, In x xs -> Forall plain r -> holds L (rs ++ x :: r) -> copy L L' (rs ++ x :: r) (ws ++ x :: r);
  d_ids : ids = seq (length (objs L)) (length (objs L') - length (objs L));
  d_len : length (objs L) <= length (objs L');
  d_list : spec_list L' = spec_list L ++ ids;
  d_dirty : covers L' ids ds
}.

(** What lets the subtree at [rs] be copied below [ws]. *)
Record ready (L : slayer) (new ref : nat) (rs ws : list pystr) : Prop := {
  r_consistent : consistent L;
  r_closed : closed L;
  r_composed : composed L;
  r_rs : Forall plain rs;
  r_ws : Forall plain ws;
  r_ref : lookup L (abs_path rs) = Some ref;
  r_new : lookup L (abs_path ws) = Some new;
  r_apart : forall r r', rs ++ r <> ws ++ r';
  r_order : forall m, obj L new = Some m -> NoDup (s_order m);
  r_names : forall r x, Forall plain r -> plain x -> holds L (rs ++ r ++ [x]) -> good x;
  r_extra : forall K r, r <> [] -> ~ In (abs_path (ws ++ r)) (extra K)
}.

Definition each (fuel : nat) (new : nat) :=
  fix each (kids : list nat) (L : slayer) (created : list nat) (dirty : list pystr)
         : slayer * outcome (list nat * list pystr) :=
         match kids with
         | [] => (L, Done (created, dirty))
         | c :: rest =>
             match obj L c with
             | None => (L, Failed AttributeError)
             | Some n =>
                 match add (copyof n) (Some (s_name n)) (spelled_path L new) true L with
                 | (L1, Done (made, d1)) =>
                     match dupe fuel (last made 0) c L1 with
                     | (L2, Done (made2, d2)) => each rest L2 (created ++ made ++ made2) (dirty ++ d1 ++ d2)
                     | (L2, r) => (L2, r)
                     end
                 | (L1, r) => (L1, r)
                 end
             end
         end.

Lemma dupe_S fuel new ref L : dupe (S fuel) new ref L = each fuel new (kid_nodes L ref) L [] [].
Proof. reflexivity. Qed.

Definition dupe_ok (fuel : nat) : Prop := forall L new ref rs ws,
  ready L new ref rs ws ->
  (forall x r, Forall plain (x :: r) -> ~ holds L (ws ++ x :: r)) ->
  (forall r, Forall plain r -> holds L (rs ++ r) -> length r < fuel) ->
  exists L' xs ids ds, dupe fuel new ref L = (L', Done (ids, ds)) /\
    (forall x, In x xs <-> plain x /\ holds L (rs ++ [x])) /\ NoDup xs /\
    duped L L' new rs ws xs ids ds.

Lemma good_preferred x : good x -> preferred (isdigit ud) (is_word uw) (Some x) = x.
Proof.
  intros [Hl Hn]. unfold preferred. rewrite (legal_form_id ud uw x Hl).
  destruct (str_eqb x (lit "__name__")) eqn:E; [apply str_eqb_eq in E; contradiction|reflexivity].
Qed.

Lemma below_of rs ws L K : consistent L -> Forall plain rs ->
  (forall r r', rs ++ r <> ws ++ r') -> Forall plain ws ->
  (forall q k, lookup L q = Some k -> lookup K q = Some k) ->
  (forall q k, lookup K q = Some k -> lookup L q = Some k \/ exists r, Forall plain r /\ q = abs_path (ws ++ r)) ->
  (forall r k m, Forall plain r -> lookup L (abs_path (rs ++ r)) = Some k -> obj L k = Some m -> obj K k = Some m) ->
  below rs L K.
Proof.
  intros HC Hrs Hap Hws H1 H2 H3 r Hr. split.
  - destruct (lookup L (abs_path (rs ++ r))) as [k|] eqn:E; [now apply H1|].
    destruct (lookup K (abs_path (rs ++ r))) as [k|] eqn:E2; [|reflexivity].
    apply H2 in E2 as [E2|(r' & Hr' & Eq)]; [congruence|]. exfalso.
    apply abs_inj in Eq; [|apply Forall_app; auto..]. exact (Hap _ _ Eq).
  - intros i Ei. destruct (c_spells L HC _ _ Ei) as (m & Em & _). rewrite Em. now apply (H3 r).
Qed.

Lemma below_trans rs A B C : below rs A B -> below rs B C -> below rs A C.
Proof.
  intros H1 H2 r Hr. destruct (H1 r Hr) as [E1 O1], (H2 r Hr) as [E2 O2]. split; [congruence|].
  intros i Ei. rewrite O2 by congruence. now apply O1.
Qed.

Lemma below_sub rs x A B : plain x -> below rs A B -> below (rs ++ [x]) A B.
Proof. intros Hx H r Hr. rewrite <- app_assoc. apply (H ([x] ++ r)). now constructor. Qed.

Lemma duped_below L L' new rs ws xs ids ds : consistent L -> Forall plain rs -> Forall plain ws ->
  (forall r r', rs ++ r <> ws ++ r') -> lookup L (abs_path ws) = Some new ->
  duped L L' new rs ws xs ids ds -> below rs L L'.
Proof.
  intros HC Hrs Hws Hap Hn HD. apply (below_of rs ws); auto.
  - exact (d_old _ _ _ _ _ _ _ _ HD).
  - intros q k E. apply (d_new _ _ _ _ _ _ _ _ HD) in E as [E|(_ & x & r & _ & Hr & -> & _)]; [now left|right; eauto].
  - intros r k m Hr Ek Em. apply (d_objs _ _ _ _ _ _ _ _ HD); [exact Em|]. intros ->.
    apply (books_inj L _ _ _ (consistent_books L HC) Hn), abs_inj in Ek; [|auto|apply Forall_app; auto].
    apply (Hap r []). now rewrite app_nil_r.
Qed.

Lemma apart_snoc (rs ws : list pystr) x : (forall r r', rs ++ r <> ws ++ r') ->
  forall r r', (rs ++ [x]) ++ r <> (ws ++ [x]) ++ r'.
Proof. intros H r r' E. rewrite <- !app_assoc in E. exact (H _ _ E). Qed.

Lemma firsts_fold l : forall k, fold_left (fun acc x => adding x acc) k (firsts l) = firsts (l ++ k).
Proof. intros k. unfold firsts. now rewrite fold_left_app. Qed.

Lemma each_ok fuel new ref rs ws : dupe_ok fuel -> forall xs js L created dirty,
  ready L new ref rs ws -> NoDup xs -> Forall plain xs ->
  Forall2 (fun j x => lookup L (abs_path (rs ++ [x])) = Some j) js xs ->
  (forall x r, In x xs -> Forall plain r -> ~ holds L (ws ++ x :: r)) ->
  (forall r, Forall plain r -> holds L (rs ++ r) -> length r < S fuel) ->
  exists L' ids ds, each fuel new js L created dirty = (L', Done (created ++ ids, dirty ++ ds)) /\
    duped L L' new rs ws xs ids ds.
Proof.
  intros IHf. induction xs as [|x xs IH]; intros js L created dirty R Hnd Hpx HF Hfree Hdep.
  - inversion HF; subst. exists L, [], []. rewrite !app_nil_r. split; [reflexivity|].
    destruct R. constructor; auto.
    + repeat split.
    + intros m Em _. cbn [fold_left]. now rewrite set_order_same.
    + intros x r [].
    + now rewrite Nat.sub_diag.
    + now rewrite app_nil_r.
    + intros k p [].
  - inversion HF as [|j x' js' xs' Hj HF']; subst. clear HF.
    inversion Hnd as [|? ? Hnx Hnd']; subst. inversion Hpx as [|? ? Hx Hpx']; subst.
    pose proof (r_consistent _ _ _ _ _ R) as HC. pose proof (consistent_books L HC) as HB.
    pose proof (r_rs _ _ _ _ _ R) as Hrs. pose proof (r_ws _ _ _ _ _ R) as Hws.
    pose proof (r_apart _ _ _ _ _ R) as Hap. pose proof (r_new _ _ _ _ _ R) as Hnew.
    assert (Hrx : Forall plain (rs ++ [x])) by (apply Forall_app; auto).
    assert (Hwx : Forall plain (ws ++ [x])) by (apply Forall_app; auto).
    destruct (c_spells L HC _ _ Hj) as (n & En & Hsp).
    pose proof (spells_snoc n rs x Hrx Hsp) as [_ Hname].
    assert (Hsw : spelled_path L new = abs_path ws).
    { apply (spelled_is_path L new (abs_path ws) HC). now apply (c_inverse L HC). }
    assert (Hgood : good x).
    { apply (r_names _ _ _ _ _ R [] x); [constructor|exact Hx|]. exists j. exact Hj. }
    assert (Hno : ~ holds L (ws ++ [x])) by (apply (Hfree x []); [now left|constructor]).
    assert (Hun : unique_name ud uw extra L (Some x) (abs_path ws) = Some (Ok x)).
    { destruct (unique_name_free ud uw extra L (Some x) ws) as (nm & Eu & _ & _ & _ & _ & Hpref).
      - destruct Hx as [[Hx0 _] _]. intros [= ->]. now apply Hx0.
      - exact Hws.
      - exact (r_composed _ _ _ _ _ R).
      - rewrite (good_preferred x Hgood) in Hpref. rewrite Hpref in Eu; auto.
        apply (r_extra _ _ _ _ _ R). discriminate. }
    destruct (add_leaf true L (s_order n) (kept_attrs (map (fun kv => (fst kv, fst (snd kv))) (s_attrs n)))
                (kept_rest (s_rest n)) (Some x) ws x HC Hwx Hno Hun) as (L1 & ds1 & E1 & HA & Lk & Oi).
    set (k1 := length (objs L)) in *.
    pose proof (a_consistent _ _ _ _ _ HA) as HC1.
    assert (Hlt : forall k m, obj L k = Some m -> k < k1).
    { intros k m Em. apply nth_error_Some. unfold obj in Em. congruence. }
    assert (Hobj1 : forall k m, obj L k = Some m -> k <> new -> obj L1 k = Some m).
    { intros k m Em Hk. destruct (a_kept _ _ _ _ _ HA k m Em) as (l & El & _ & A2).
      rewrite El, A2, set_order_same; [reflexivity|]. intros E. apply Hk. congruence. }
    assert (B1 : below rs L L1).
    { apply (below_of rs ws); auto.
      - exact (a_old _ _ _ _ _ HA).
      - intros q k E. apply (a_new _ _ _ _ _ HA) in E as [E|(_ & r & Hr & ->)]; [now left|right].
        exists (x :: r). auto.
      - intros r k m Hr Ek Em. apply Hobj1; [exact Em|]. intros ->.
        apply (books_inj L _ _ _ HB Hnew), abs_inj in Ek; [|auto|apply Forall_app; auto].
        apply (Hap r []). now rewrite app_nil_r. }
    assert (Hk1 : lookup L1 (abs_path (ws ++ [x])) = Some k1) by (rewrite Lk; now rewrite str_eqb_refl).
    assert (R1 : ready L1 k1 j (rs ++ [x]) (ws ++ [x])).
    { constructor; auto.
      - apply (a_closed _ _ _ _ _ HA (r_closed _ _ _ _ _ R)). right. now exists new.
      - destruct (r_composed _ _ _ _ _ R), (a_rest _ _ _ _ _ HA) as (Z1 & Z2 & _). split; congruence.
      - exact (a_old _ _ _ _ _ HA _ _ Hj).
      - now apply apart_snoc.
      - intros m Em. rewrite Oi in Em. injection Em as <-. cbn [s_order make_node].
        change (dedup (s_order n)) with (firsts (s_order n)). apply NoDup_firsts.
      - intros r y Hr Hy Hh. apply (r_names _ _ _ _ _ R (x :: r) y); [now constructor|exact Hy|].
        rewrite <- app_assoc in Hh. apply (below_holds rs L L1 ([x] ++ r ++ [y]) B1); [|exact Hh].
        constructor; [exact Hx|]. apply Forall_app. auto.
      - intros K r Hr. rewrite <- app_assoc. apply (r_extra _ _ _ _ _ R). discriminate. }
    destruct (IHf L1 k1 j (rs ++ [x]) (ws ++ [x]) R1) as (L2 & ys & ids2 & ds2 & E2 & Hys & Hndy & HD).
    { intros y r Hr (k & Ek). rewrite Lk in Ek. rewrite <- app_assoc in Ek. cbn [app] in Ek.
      destruct (str_eqb _ _) eqn:Es.
      - apply str_eqb_eq, abs_inj in Es; [|exact Hwx|apply Forall_app; split; [exact Hws|now constructor]].
        apply app_inv_head in Es. discriminate.
      - apply (Hfree x (y :: r)); [now left|exact Hr|]. now exists k. }
    { intros r Hr Hh. rewrite <- app_assoc in Hh.
      apply (below_holds rs L L1 ([x] ++ r) B1) in Hh; [|now constructor].
      apply Hdep in Hh; [|now constructor]. cbn [length app] in Hh. lia. }
    pose proof (d_consistent _ _ _ _ _ _ _ _ HD) as HC2.
    assert (Bx : below (rs ++ [x]) L1 L2).
    { apply (duped_below L1 L2 k1 (rs ++ [x]) (ws ++ [x]) ys ids2 ds2); auto. now apply apart_snoc. }
    assert (B2 : below rs L1 L2).
    { apply (below_of rs ws); auto.
      - exact (d_old _ _ _ _ _ _ _ _ HD).
      - intros q k E. apply (d_new _ _ _ _ _ _ _ _ HD) in E as [E|(_ & y & r & _ & Hr & -> & _)]; [now left|right].
        exists (x :: y :: r). split; [now constructor|]. now rewrite <- app_assoc.
      - intros r k m Hr Ek Em. apply (d_objs _ _ _ _ _ _ _ _ HD); [exact Em|]. intros ->.
        apply (books_inj L1 _ _ _ (consistent_books L1 HC1) Hk1), abs_inj in Ek; [|auto|apply Forall_app; auto].
        apply (Hap r [x]). congruence. }
    pose proof (below_trans _ _ _ _ B1 B2) as B12.
    assert (Hnew12 : lookup L2 (abs_path ws) = Some new).
    { apply (d_old _ _ _ _ _ _ _ _ HD), (a_old _ _ _ _ _ HA), Hnew. }
    assert (Hnk : new <> k1).
    { destruct (c_spells L HC _ _ Hnew) as (m & Em & _). apply Hlt in Em. lia. }
    assert (Hobj12 : forall k m, obj L k = Some m -> k <> new -> obj L2 k = Some m).
    { intros k m Em Hk. apply (d_objs _ _ _ _ _ _ _ _ HD); [now apply Hobj1|]. apply Hlt in Em. lia. }
    assert (Htop12 : forall m, obj L new = Some m -> obj L2 new = Some (set_order (adding x (s_order m)) m)).
    { intros m Em. destruct (a_kept _ _ _ _ _ HA new m Em) as (l & El & A1 & _).
      destruct (A1 Hnew) as [_ A1']. rewrite A1' in El by exact (r_order _ _ _ _ _ R m Em).
      apply (d_objs _ _ _ _ _ _ _ _ HD _ _ El). exact Hnk. }
    assert (Rest12 : same_rest L L2) by exact (same_rest_trans _ _ _ (a_rest _ _ _ _ _ HA) (d_rest _ _ _ _ _ _ _ _ HD)).
    assert (Old12 : forall q k, lookup L q = Some k -> lookup L2 q = Some k).
    { intros q k E. apply (d_old _ _ _ _ _ _ _ _ HD), (a_old _ _ _ _ _ HA), E. }
    pose proof (a_count _ _ _ _ _ HA) as Hc1. fold k1 in Hc1.
    pose proof (d_len _ _ _ _ _ _ _ _ HD) as Hl2.
    assert (New12 : forall q k, lookup L2 q = Some k -> lookup L q = Some k \/
      (k1 <= k /\ exists r, Forall plain (x :: r) /\ q = abs_path (ws ++ x :: r) /\ holds L (rs ++ x :: r))).
    { intros q k E. apply (d_new _ _ _ _ _ _ _ _ HD) in E as [E|(Hk & y & r & _ & Hr & -> & Hh)].
      - rewrite Lk in E. destruct (str_eqb (abs_path (ws ++ [x])) q) eqn:Es; [|now left]. right.
        injection E as <-. split; [lia|]. exists []. split; [auto|]. apply str_eqb_eq in Es.
        split; [now symmetry|]. now exists j.
      - right. split; [lia|]. exists (y :: r). split; [now constructor|]. split; [now rewrite <- app_assoc|].
        rewrite <- app_assoc in Hh. apply (below_holds rs L L1 ([x] ++ y :: r) B1); [now constructor|exact Hh]. }
    assert (R2 : ready L2 new ref rs ws).
    { constructor; auto.
      - exact (d_closed _ _ _ _ _ _ _ _ HD).
      - destruct (r_composed _ _ _ _ _ R), Rest12 as (Z1 & Z2 & _). split; congruence.
      - apply Old12, (r_ref _ _ _ _ _ R).
      - intros m Em. destruct (c_spells L HC _ _ Hnew) as (m0 & Em0 & _). rewrite (Htop12 m0 Em0) in Em.
        injection Em as <-. cbn [s_order set_order]. apply NoDup_adding. exact (r_order _ _ _ _ _ R m0 Em0).
      - intros r y Hr Hy Hh. apply (r_names _ _ _ _ _ R r y); auto.
        apply (below_holds rs L L2 (r ++ [y]) B12); [apply Forall_app; auto|exact Hh].
      - exact (r_extra _ _ _ _ _ R). }
    destruct (IH js' L2 (created ++ [k1] ++ ids2) (dirty ++ (abs_path (ws ++ [x]) :: ds1) ++ ds2) R2 Hnd' Hpx')
      as (L3 & ids3 & ds3 & E3 & HD3).
    { clear - HF' Old12. induction HF'; constructor; auto. }
    { intros y r Hy Hr (k & Ek). apply New12 in Ek as [Ek|(_ & r' & Hr' & Eq & _)].
      - apply (Hfree y r); [now right|exact Hr|]. now exists k.
      - apply abs_inj in Eq.
        + apply app_inv_head in Eq. injection Eq as -> _. contradiction.
        + apply Forall_app. split; [exact Hws|]. constructor; [|exact Hr]. rewrite Forall_forall in Hpx'. auto.
        + apply Forall_app. auto. }
    { intros r Hr Hh. apply Hdep; [exact Hr|]. now apply (below_holds rs L L2 r B12). }
    exists L3, ([k1] ++ ids2 ++ ids3), ((abs_path (ws ++ [x]) :: ds1) ++ ds2 ++ ds3). split.
    { cbn [each]. rewrite En, Hname, Hsw. unfold copy_of. rewrite E1. cbn [last]. rewrite E2.
      fold (each fuel new). rewrite E3. now rewrite <- !app_assoc. }
    pose proof (d_len _ _ _ _ _ _ _ _ HD3) as Hl3.
    assert (Ids : [k1] ++ ids2 ++ ids3 = seq k1 (length (objs L3) - k1)).
    { rewrite (d_ids _ _ _ _ _ _ _ _ HD), (d_ids _ _ _ _ _ _ _ _ HD3).
      replace (length (objs L3) - k1) with (1 + ((length (objs L2) - length (objs L1)) + (length (objs L3) - length (objs L2)))) by lia.
      rewrite !seq_app. cbn [seq]. do 2 f_equal. { rewrite Hc1. reflexivity. } f_equal. lia. }
    constructor.
    + exact (d_consistent _ _ _ _ _ _ _ _ HD3).
    + exact (d_closed _ _ _ _ _ _ _ _ HD3).
    + exact (same_rest_trans _ _ _ Rest12 (d_rest _ _ _ _ _ _ _ _ HD3)).
    + intros q k E. apply (d_old _ _ _ _ _ _ _ _ HD3), Old12, E.
    + intros q k E. apply (d_new _ _ _ _ _ _ _ _ HD3) in E as [E|(Hk & y & r & Hy & Hr & -> & Hh)].
      * apply New12 in E as [E|(Hk & r & Hr & -> & Hh)]; [now left|right]. split; [exact Hk|].
        exists x, r. split; [now left|]. auto.
      * right. split; [lia|]. exists y, r. split; [now right|]. split; [exact Hr|]. split; [reflexivity|].
        now apply (below_holds rs L L2 (y :: r) B12).
    + intros k m Em Hk. apply (d_objs _ _ _ _ _ _ _ _ HD3); [now apply Hobj12|exact Hk].
    + intros m Em Hno'. rewrite (d_top _ _ _ _ _ _ _ _ HD3 _ (Htop12 m Em)); [reflexivity|]. cbn [s_order set_order].
      now apply NoDup_adding.
    + intros y r [<-|Hy] Hr Hh.
      * assert (Hup : forall k m, k1 <= k -> obj L2 k = Some m -> obj L3 k = Some m).
        { intros k m Hk Em. apply (d_objs _ _ _ _ _ _ _ _ HD3); [exact Em|].
          destruct (c_spells L HC _ _ Hnew) as (m0 & Em0 & _). apply Hlt in Em0. lia. }
        destruct r as [|y r].
        -- (* the child itself *)
           assert (Ek : obj L2 k1 = Some (set_order (fold_left (fun acc x => adding x acc) ys (dedup (s_order n)))
                          (make_node x (abs_path ws) (s_order n) (kept_attrs (map (fun kv => (fst kv, fst (snd kv))) (s_attrs n)))
                             (kept_rest (s_rest n))))).
           { rewrite (d_top _ _ _ _ _ _ _ _ HD _ Oi); [reflexivity|]. cbn [s_order make_node]. apply NoDup_firsts. }
           destruct (make_node_attrs x ws (s_order n) (kept_attrs (map (fun kv => (fst kv, fst (snd kv))) (s_attrs n)))
                       (kept_rest (s_rest n)) Hwx) as (M1 & M2 & M3 & _).
           exists j, k1, n. eexists. exists ys. split; [exact Hj|]. split; [exact En|].
           split; [apply (d_old _ _ _ _ _ _ _ _ HD3), (d_old _ _ _ _ _ _ _ _ HD), Hk1|].
           split; [apply Hup; [lia|exact Ek]|]. split; [exact M1|]. split; [exact M2|]. split; [exact M3|].
           split; [cbn [s_order set_order]; apply (firsts_fold (s_order n))|]. split; [exact Hndy|].
           intros y. rewrite Hys. rewrite <- app_assoc. split; intros [P Q]; (split; [exact P|]).
           ++ apply (below_holds rs L L1 ([x] ++ [y]) B1); [constructor; [exact Hx|constructor; [exact P|constructor]]|].
              rewrite <- ?app_assoc in Q. exact Q.
           ++ apply (below_holds rs L L1 ([x] ++ [y]) B1); [constructor; [exact Hx|constructor; [exact P|constructor]]|].
              rewrite <- ?app_assoc in Q. exact Q.
        -- assert (Hy : plain y) by now inversion Hr. assert (Hr' : Forall plain r) by now inversion Hr.
           assert (Hh1 : holds L1 ((rs ++ [x]) ++ y :: r)).
           { rewrite <- app_assoc. apply (below_holds rs L L1 ([x] ++ y :: r) B1); [now constructor|exact Hh]. }
           assert (Hyin : In y ys).
           { apply Hys. split; [exact Hy|].
             apply (closed_prefix L1 ((rs ++ [x]) ++ [y]) (r_closed _ _ _ _ _ R1)) with (r := r).
             - intros E. destruct (rs ++ [x]); discriminate.
             - rewrite <- app_assoc. apply Forall_app. split; [exact Hrx|now constructor].
             - rewrite <- app_assoc. exact Hh1. }
           pose proof (d_copy _ _ _ _ _ _ _ _ HD y r Hyin Hr' Hh1) as Cp.
           rewrite <- !app_assoc in Cp. cbn [app] in Cp.
           apply (copy_below rs L L1 L2 (x :: y :: r)) in Cp; [|exact B1|now constructor].
           apply (copy_up L L2 L3 _ _ Cp); [exact (d_old _ _ _ _ _ _ _ _ HD3)|].
           intros k m Ek Em. apply Hup; [|exact Em].
           apply New12 in Ek as [Ek|(Hk & _)]; [|exact Hk]. exfalso.
           apply (Hfree x (y :: r)); [now left|now constructor|]. now exists k.
      * apply (copy_below rs L L2 L3 (y :: r)); [exact B12| |].
        -- constructor; [|exact Hr]. rewrite Forall_forall in Hpx'. auto.
        -- apply (d_copy _ _ _ _ _ _ _ _ HD3); [exact Hy|exact Hr|].
           apply (below_holds rs L L2 (y :: r) B12); [|exact Hh].
           constructor; [|exact Hr]. rewrite Forall_forall in Hpx'. auto.
    + exact Ids.
    + lia.
    + rewrite (d_list _ _ _ _ _ _ _ _ HD3), (d_list _ _ _ _ _ _ _ _ HD), (a_list _ _ _ _ _ HA).
      cbn [seq]. fold k1. now rewrite <- !app_assoc.
    + assert (Up23 : forall k p, path_of L2 k = Some p -> path_of L3 k = Some p).
      { intros k p Ep. apply (c_inverse L3 (d_consistent _ _ _ _ _ _ _ _ HD3)), (d_old _ _ _ _ _ _ _ _ HD3).
        now apply (c_inverse L2 HC2). }
      intros k p Hk Ep. apply in_app_iff in Hk as [[<-|[]]|Hk].
      * assert (E : path_of L2 k1 = Some (abs_path (ws ++ [x]))).
        { apply (c_inverse L2 HC2), (d_old _ _ _ _ _ _ _ _ HD), Hk1. }
        apply Up23 in E. assert (p = abs_path (ws ++ [x])) by congruence. subst p. now left.
      * apply in_app_iff. right. apply in_app_iff in Hk as [Hk|Hk]; apply in_app_iff.
        -- left. apply (d_dirty _ _ _ _ _ _ _ _ HD k); [exact Hk|].
           destruct (proj1 (c_listed L2 HC2 k)) as (p' & Ep').
           { rewrite (d_list _ _ _ _ _ _ _ _ HD). apply in_app_iff. now right. }
           apply (c_inverse L2 HC2) in Ep'. pose proof (Up23 _ _ Ep') as E. congruence.
        -- right. exact (d_dirty _ _ _ _ _ _ _ _ HD3 k p Hk Ep).
Qed.

Lemma dupe_all fuel : dupe_ok fuel.
Proof.
  induction fuel as [|fuel IH]; intros L new ref rs ws R Hfree Hdep.
  - exfalso. specialize (Hdep [] (Forall_nil _)). rewrite app_nil_r in Hdep. assert (H : holds L rs); [|apply Hdep in H; cbn in H; lia].
    exists ref. exact (r_ref _ _ _ _ _ R).
  - destruct (kid_nodes_spec L ref rs (r_consistent _ _ _ _ _ R) (r_rs _ _ _ _ _ R) (r_ref _ _ _ _ _ R))
      as (xs & Hnd & Hin & HF).
    destruct (each_ok fuel new ref rs ws IH xs (kid_nodes L ref) L [] [] R Hnd) as (L' & ids & ds & E & HD); auto.
    + apply Forall_forall. intros x Hx. now apply Hin in Hx as [Hx _].
    + intros x r Hx Hr. apply Hfree. constructor; [|exact Hr]. now apply Hin in Hx as [Hx _].
    + exists L', xs, ids, ds. rewrite dupe_S. auto.
Qed.

(** *** duplicate_node *)

Notation duplicate := (duplicate_node ud uw extra kept_attrs kept_rest bare).

Lemma abs_world ns : Forall plain ns -> str_eqb (abs_path ns) WORLD = match ns with [] => true | _ => false end.
Proof.
  intros H. destruct ns as [|x ns]; [reflexivity|]. destruct (str_eqb _ _) eqn:E; [|reflexivity].
  apply str_eqb_eq in E. change WORLD with (abs_path []) in E. apply abs_inj in E; [discriminate|exact H|constructor].
Qed.

Lemma abs_not_empty ns : str_eqb (abs_path ns) [] = false.
Proof. destruct ns; reflexivity. Qed.

Lemma depth_bound L ns : consistent L -> Forall plain ns -> holds L ns -> length ns < depth_fuel L.
Proof.
  intros HC Hp Hh. apply (view_shallower L (consistent_books L HC)); [now apply plain_component|].
  apply (view_has L ns (consistent_books L HC)); [now apply plain_component|auto].
Qed.

Lemma duplicate_unfold L i n po nm0 desc L2 made d :
  consistent L -> closed L -> Forall plain (po ++ [nm0]) -> holds L (po ++ [nm0]) ->
  s_parent n = abs_path po ->
  add (copyof n) (Some (s_name n)) (abs_path po) true L = (L2, Done (made, d)) ->
  duplicate L i n desc =
    if desc then
      match dupe (depth_fuel L2) (last made 0) i L2 with
      | (L3, Done (made3, d3)) => (L3, Done (made ++ made3, d ++ d3))
      | (L3, r) => (L3, r)
      end
    else (L2, Done (made, d)).
Proof.
  intros HC Hcl Hp Hh Hpar E. unfold duplicate_node. rewrite Hpar, abs_not_empty.
  rewrite abs_world by exact (Forall_app_l _ _ _ Hp).
  destruct po as [|x po].
  - change (abs_path []) with WORLD in E. rewrite E. destruct desc; reflexivity.
  - destruct (Hcl (x :: po) nm0 Hp Hh) as [H|(j & Ej)]; [discriminate|]. rewrite Ej.
    rewrite (spelled_is_path L j (abs_path (x :: po)) HC) by now apply (c_inverse L HC).
    rewrite E. destruct desc; reflexivity.
Qed.

Lemma kept_trans L L1 L2 par nm k1 : olds_kept L L1 par nm -> length (objs L) <= k1 ->
  (forall k m, obj L1 k = Some m -> k <> k1 -> obj L2 k = Some m) -> olds_kept L L2 par nm.
Proof.
  intros H Hk H2 k m Em. destruct (H k m Em) as (l & El & A). exists l. split; [|exact A].
  apply H2; [exact El|]. assert (k < length (objs L)); [|lia]. apply nth_error_Some. unfold obj in Em. congruence.
Qed.

Lemma duplicate_ok L i n po nm0 :
  consistent L -> closed L -> composed L -> Forall plain (po ++ [nm0]) ->
  lookup L (abs_path (po ++ [nm0])) = Some i -> obj L i = Some n ->
  (forall r x, Forall plain r -> plain x -> holds L (po ++ nm0 :: r ++ [x]) -> good x) ->
  (forall K nm r, unique_name ud uw extra L (Some nm0) (abs_path po) = Some (Ok nm) -> r <> [] ->
     ~ In (abs_path (po ++ nm :: r)) (extra K)) ->
  exists L' nm ids ds, duplicate L i n true = (L', Done (ids, ds)) /\
    legal (isdigit ud) (is_word uw) nm /\ ~ holds L (po ++ [nm]) /\
    consistent L' /\ closed L' /\ same_rest L L' /\
    (forall q k, lookup L q = Some k -> lookup L' q = Some k) /\
    (forall q k, lookup L' q = Some k -> lookup L q = Some k \/
       exists r, Forall plain r /\ q = abs_path (po ++ nm :: r) /\ holds L (po ++ nm0 :: r)) /\
    olds_kept L L' po nm /\
    (forall r, Forall plain r -> holds L (po ++ nm0 :: r) -> copy L L' (po ++ nm0 :: r) (po ++ nm :: r)) /\
    ids = seq (length (objs L)) (length (objs L') - length (objs L)) /\
    spec_list L' = spec_list L ++ ids /\ covers L' ids ds.
Proof.
  intros HC Hcl Hco Hp Hi En Hgood Hex. pose proof (consistent_books L HC) as HB.
  destruct (c_spells L HC _ _ Hi) as (n' & En' & Hsp). assert (n' = n) by congruence. subst n'.
  destruct (spells_snoc n po nm0 Hp Hsp) as [Hpar Hname].
  pose proof (Forall_app_l _ _ _ Hp) as Hpo. pose proof (Forall_app_r _ _ _ Hp) as Hn0. assert (Hn0' : plain nm0) by now inversion Hn0.
  destruct (unique_name_free ud uw extra L (Some nm0) po) as (nm & Eu & Hleg & Hpl & Hno & Hnx & Hpref); auto.
  { destruct Hn0' as [[H _] _]. intros [= ->]. now apply H. }
  destruct (add_leaf true L (s_order n) (kept_attrs (map (fun kv => (fst kv, fst (snd kv))) (s_attrs n)))
              (kept_rest (s_rest n)) (Some nm0) po nm HC Hpl Hno Eu) as (L1 & ds1 & E1 & HA & Lk & Oi).
  set (k1 := length (objs L)) in *.
  assert (Hh0 : holds L (po ++ [nm0])) by now exists i.
  pose proof (duplicate_unfold L i n po nm0 true L1 [k1] (abs_path (po ++ [nm]) :: ds1) HC Hcl Hp Hh0 Hpar) as EU.
  rewrite Hname in EU. specialize (EU E1). cbn [last] in EU.
  pose proof (a_consistent _ _ _ _ _ HA) as HC1.
  assert (Hne : nm <> nm0) by (intros ->; contradiction).
  assert (Hap : forall r r', (po ++ [nm0]) ++ r <> (po ++ [nm]) ++ r').
  { intros r r' E. rewrite <- !app_assoc in E. apply app_inv_head in E. cbn in E. congruence. }
  assert (Hlt : forall k m, obj L k = Some m -> k < k1).
  { intros k m Em. apply nth_error_Some. unfold obj in Em. congruence. }
  assert (Hvac : vacant L (po ++ [nm])).
  { apply closed_vacant; auto. destruct po; discriminate. }
  assert (B1 : below (po ++ [nm0]) L L1).
  { apply (below_of (po ++ [nm0]) (po ++ [nm])); auto.
    - exact (a_old _ _ _ _ _ HA).
    - intros q k E. apply (a_new _ _ _ _ _ HA) in E as [E|(_ & r & Hr & ->)]; [now left|right].
      exists r. split; [exact Hr|]. now rewrite <- app_assoc.
    - intros r k m Hr Ek Em. destruct (a_kept _ _ _ _ _ HA k m Em) as (l & El & _ & A2).
      rewrite El, A2, set_order_same; [reflexivity|]. intros E.
      apply (books_inj L _ _ _ HB E), abs_inj in Ek; [|exact Hpo|apply Forall_app; auto].
      apply (f_equal (@length pystr)) in Ek. rewrite !app_length in Ek. cbn in Ek. lia. }
  assert (Hk1 : lookup L1 (abs_path (po ++ [nm])) = Some k1) by (rewrite Lk; now rewrite str_eqb_refl).
  assert (Hcl1 : closed L1).
  { apply (a_closed _ _ _ _ _ HA Hcl). exact (Hcl po nm0 Hp Hh0). }
  assert (R1 : ready L1 k1 i (po ++ [nm0]) (po ++ [nm])).
  { constructor; auto.
    - destruct Hco, (a_rest _ _ _ _ _ HA) as (Z1 & Z2 & _). split; congruence.
    - exact (a_old _ _ _ _ _ HA _ _ Hi).
    - intros m Em. rewrite Oi in Em. injection Em as <-. cbn [s_order make_node].
      change (dedup (s_order n)) with (firsts (s_order n)). apply NoDup_firsts.
    - intros r y Hr Hy Hh. apply (Hgood r y Hr Hy).
      apply (below_holds _ L L1 (r ++ [y]) B1) in Hh; [|apply Forall_app; auto]. now rewrite <- app_assoc in Hh.
    - intros K r Hr. rewrite <- app_assoc. now apply Hex. }
  destruct (dupe_all (depth_fuel L1) L1 k1 i (po ++ [nm0]) (po ++ [nm]) R1) as (L2 & ys & ids2 & ds2 & E2 & Hys & Hndy & HD).
  { intros y r Hr (k & Ek). rewrite Lk in Ek. destruct (str_eqb _ _) eqn:Es.
    - apply str_eqb_eq, abs_inj in Es; [|exact Hpl|apply Forall_app; auto].
      rewrite <- (app_nil_r (po ++ [nm])) in Es at 1. apply app_inv_head in Es. discriminate.
    - rewrite (Hvac (y :: r) Hr) in Ek. discriminate. }
  { intros r Hr Hh. apply depth_bound in Hh; [|exact HC1|apply Forall_app; auto]. rewrite app_length in Hh. lia. }
  rewrite E2 in EU. exists L2, nm. eexists. eexists. split; [exact EU|].
  split; [exact Hleg|]. split; [exact Hno|].
  split; [exact (d_consistent _ _ _ _ _ _ _ _ HD)|]. split; [exact (d_closed _ _ _ _ _ _ _ _ HD)|].
  split; [exact (same_rest_trans _ _ _ (a_rest _ _ _ _ _ HA) (d_rest _ _ _ _ _ _ _ _ HD))|].
  split; [intros q k E; apply (d_old _ _ _ _ _ _ _ _ HD), (a_old _ _ _ _ _ HA), E|].
  split.
  { intros q k E. apply (d_new _ _ _ _ _ _ _ _ HD) in E as [E|(Hk & y & r & _ & Hr & -> & Hh)].
    - rewrite Lk in E. destruct (str_eqb (abs_path (po ++ [nm])) q) eqn:Es; [|now left]. right.
      exists []. split; [constructor|]. apply str_eqb_eq in Es. split; [now symmetry|exact Hh0].
    - right. exists (y :: r). split; [exact Hr|]. split; [now rewrite <- app_assoc|].
      apply (below_holds _ L L1 (y :: r) B1) in Hh; [|exact Hr]. now rewrite <- app_assoc in Hh. }
  split; [exact (kept_trans L L1 L2 po nm k1 (a_kept _ _ _ _ _ HA) (le_n _) (d_objs _ _ _ _ _ _ _ _ HD))|].
  split.
  { intros r Hr Hh. destruct r as [|y r].
    - assert (Ek : obj L2 k1 = Some (set_order (fold_left (fun acc x => adding x acc) ys (dedup (s_order n)))
                     (make_node nm (abs_path po) (s_order n) (kept_attrs (map (fun kv => (fst kv, fst (snd kv))) (s_attrs n)))
                        (kept_rest (s_rest n))))).
      { rewrite (d_top _ _ _ _ _ _ _ _ HD _ Oi); [reflexivity|]. cbn [s_order make_node]. apply NoDup_firsts. }
      destruct (make_node_attrs nm po (s_order n) (kept_attrs (map (fun kv => (fst kv, fst (snd kv))) (s_attrs n)))
                  (kept_rest (s_rest n)) Hpl) as (M1 & M2 & M3 & _).
      exists i, k1, n. eexists. exists ys. split; [exact Hi|]. split; [exact En|].
      split; [apply (d_old _ _ _ _ _ _ _ _ HD), Hk1|]. split; [exact Ek|]. split; [exact M1|]. split; [exact M2|].
      split; [exact M3|]. split; [cbn [s_order set_order]; apply (firsts_fold (s_order n))|]. split; [exact Hndy|].
      intros y. rewrite Hys. split; intros [P Q]; (split; [exact P|]);
        (apply (below_holds _ L L1 [y] B1); [constructor; [exact P|constructor]|exact Q]).
    - assert (Hy : plain y) by now inversion Hr. assert (Hr' : Forall plain r) by now inversion Hr.
      assert (Hh1 : holds L1 ((po ++ [nm0]) ++ y :: r)).
      { apply (below_holds _ L L1 (y :: r) B1); [exact Hr|]. now rewrite <- app_assoc. }
      assert (Hyin : In y ys).
      { apply Hys. split; [exact Hy|].
        apply (closed_prefix L1 ((po ++ [nm0]) ++ [y]) Hcl1) with (r := r).
        - intros E. destruct (po ++ [nm0]); discriminate.
        - rewrite <- app_assoc. apply Forall_app. split; [exact Hp|exact Hr].
        - rewrite <- app_assoc. exact Hh1. }
      pose proof (d_copy _ _ _ _ _ _ _ _ HD y r Hyin Hr' Hh1) as Cp.
      apply (copy_below (po ++ [nm0]) L L1 L2 (y :: r)) in Cp; [|exact B1|exact Hr].
      rewrite <- !app_assoc in Cp. exact Cp. }
  pose proof (a_count _ _ _ _ _ HA) as Hc1. fold k1 in Hc1. pose proof (d_len _ _ _ _ _ _ _ _ HD) as Hl2.
  split.
  { rewrite (d_ids _ _ _ _ _ _ _ _ HD). replace (length (objs L2) - k1) with (1 + (length (objs L2) - length (objs L1))) by lia.
    rewrite seq_app. cbn [seq]. now rewrite Hc1. }
  split.
  { rewrite (d_list _ _ _ _ _ _ _ _ HD), (a_list _ _ _ _ _ HA). cbn [seq]. fold k1. now rewrite <- app_assoc. }
  intros k p Hk Ep. apply in_app_iff in Hk as [[<-|[]]|Hk].
  - assert (E : path_of L2 k1 = Some (abs_path (po ++ [nm]))).
    { apply (c_inverse L2 (d_consistent _ _ _ _ _ _ _ _ HD)), (d_old _ _ _ _ _ _ _ _ HD), Hk1. }
    assert (p = abs_path (po ++ [nm])) by congruence. subst p. now left.
  - apply in_app_iff. right. exact (d_dirty _ _ _ _ _ _ _ _ HD k p Hk Ep).
Qed.

(** Without the descendants: one node. *)
Lemma duplicate_one L i n po nm0 :
  consistent L -> closed L -> composed L -> Forall plain (po ++ [nm0]) ->
  lookup L (abs_path (po ++ [nm0])) = Some i -> obj L i = Some n ->
  exists L' nm ds m, duplicate L i n false = (L', Done ([length (objs L)], ds)) /\
    legal (isdigit ud) (is_word uw) nm /\ ~ holds L (po ++ [nm]) /\ added L L' po nm 1 /\
    (forall q, lookup L' q = if str_eqb (abs_path (po ++ [nm])) q then Some (length (objs L)) else lookup L q) /\
    obj L' (length (objs L)) = Some m /\
    map (fun kv => (fst kv, fst (snd kv))) (s_attrs m) =
      kept_attrs (map (fun kv => (fst kv, fst (snd kv))) (s_attrs n)) /\
    sourced m (abs_path (po ++ [nm])) /\ s_rest m = kept_rest (s_rest n) /\ s_order m = firsts (s_order n).
Proof.
  intros HC Hcl Hco Hp Hi En.
  destruct (c_spells L HC _ _ Hi) as (n' & En' & Hsp). assert (n' = n) by congruence. subst n'.
  destruct (spells_snoc n po nm0 Hp Hsp) as [Hpar Hname].
  pose proof (Forall_app_l _ _ _ Hp) as Hpo. pose proof (Forall_app_r _ _ _ Hp) as Hn0. assert (Hn0' : plain nm0) by now inversion Hn0.
  destruct (unique_name_free ud uw extra L (Some nm0) po) as (nm & Eu & Hleg & Hpl & Hno & Hnx & Hpref); auto.
  { destruct Hn0' as [[H _] _]. intros [= ->]. now apply H. }
  destruct (add_leaf true L (s_order n) (kept_attrs (map (fun kv => (fst kv, fst (snd kv))) (s_attrs n)))
              (kept_rest (s_rest n)) (Some nm0) po nm HC Hpl Hno Eu) as (L1 & ds1 & E1 & HA & Lk & Oi).
  assert (Hh0 : holds L (po ++ [nm0])) by now exists i.
  pose proof (duplicate_unfold L i n po nm0 false L1 [length (objs L)] (abs_path (po ++ [nm]) :: ds1) HC Hcl Hp Hh0 Hpar) as EU.
  rewrite Hname in EU. specialize (EU E1). cbn iota in EU.
  destruct (make_node_attrs nm po (s_order n) (kept_attrs (map (fun kv => (fst kv, fst (snd kv))) (s_attrs n)))
              (kept_rest (s_rest n)) Hpl) as (M1 & M2 & M3 & M4).
  exists L1, nm. eexists. eexists. split; [exact EU|]. split; [exact Hleg|]. split; [exact Hno|]. split; [exact HA|].
  split; [exact Lk|]. split; [exact Oi|]. auto.
Qed.

(** *** add_node_hierarchy *)

(** The paths from the first name of [names] down. *)
Fixpoint steps (done names : list pystr) : list (list pystr) :=
  match names with
  | [] => []
  | x :: r => (done ++ [x]) :: steps (done ++ [x]) r
  end.

Definition is_missing (L : slayer) (ns : list pystr) : bool :=
  match lookup L (abs_path ns) with None => true | Some _ => false end.

Record hier (L L' : slayer) (done names : list pystr) (made : list (pystr * nat)) : Prop := {
  h_consistent : consistent L';
  h_rest : same_rest L L';
  h_old : forall q k, lookup L q = Some k -> lookup L' q = Some k;
  h_new : forall q k, lookup L' q = Some k -> lookup L q = Some k \/ In (q, k) made;
  h_made : map fst made = map abs_path (filter (is_missing L) (steps done names));
  h_nodes : forall q k, In (q, k) made -> lookup L' q = Some k /\
     exists m, obj L' k = Some m /\ s_attrs m = [] /\ s_rest m = bare;
  h_kept : forall k m, obj L k = Some m -> exists l, obj L' k = Some (set_order l m) /\
     (l = s_order m \/
      exists ns x, In (ns ++ [x]) (steps done names) /\ lookup L (abs_path ns) = Some k /\
        is_missing L (ns ++ [x]) = true /\ announced x (s_order m) l)
}.

Lemma steps_longer names : forall done s, In s (steps done names) -> length done < length s.
Proof.
  induction names as [|x names IH]; intros done s H; [destruct H|]. destruct H as [<-|H].
  - rewrite app_length. cbn. lia.
  - apply IH in H. rewrite app_length in H. cbn in H. lia.
Qed.

Lemma steps_plain names : forall done s, Forall plain (done ++ names) -> In s (steps done names) -> Forall plain s.
Proof.
  induction names as [|x names IH]; intros done s H Hs; [destruct Hs|]. destruct Hs as [<-|Hs].
  - apply Forall_app in H as [H1 H2]. apply Forall_app. split; [exact H1|]. inversion H2. auto.
  - apply (IH (done ++ [x])); [now rewrite <- app_assoc|exact Hs].
Qed.

Lemma add_missing_ok names : forall done L made ds,
  consistent L -> Forall plain (done ++ names) -> done = [] \/ holds L done ->
  exists L' made' ds',
    add_missing ud uw extra bare names done (abs_path done) L made ds = (L', Done (made ++ made', ds ++ ds')) /\
    hier L L' done names made' /\
    (forall s, In s (steps done names) -> holds L' s /\ In (abs_path s) ds').
Proof.
  induction names as [|x names IH]; intros done L made ds HC Hp Hd.
  - exists L, [], []. rewrite !app_nil_r. split; [reflexivity|]. split; [|intros s []].
    constructor; auto.
    + repeat split.
    + intros q k [].
    + intros k m Em. exists (s_order m). rewrite set_order_same. auto.
  - assert (Hdx : Forall plain (done ++ [x])).
    { apply Forall_app in Hp as [H1 H2]. apply Forall_app. split; [exact H1|]. inversion H2. auto. }
    assert (Hp' : Forall plain ((done ++ [x]) ++ names)) by now rewrite <- app_assoc.
    cbn [add_missing]. rewrite to_path by (destruct done; discriminate).
    destruct (lookup L (abs_path (done ++ [x]))) as [j|] eqn:Ej.
    + rewrite (spelled_is_path L j (abs_path (done ++ [x])) HC) by now apply (c_inverse L HC).
      destruct (IH (done ++ [x]) L made (ds ++ [abs_path (done ++ [x])]) HC Hp') as (L' & made' & ds' & E & HH & Hs).
      { right. now exists j. }
      exists L', made', ([abs_path (done ++ [x])] ++ ds'). rewrite E, <- app_assoc. split; [reflexivity|]. split.
      * destruct HH as [A1 A2 A3 A4 A5 A6 A7]. constructor; auto.
        -- cbn [steps filter]. unfold is_missing at 1. now rewrite Ej.
        -- intros k m Em. destruct (A7 k m Em) as (l & El & [H|(ns & y & H1 & H2)]); exists l; (split; [exact El|]).
           ++ now left.
           ++ right. exists ns, y. split; [now right|exact H2].
      * intros s [<-|Hin].
        -- split; [exists j; apply (h_old _ _ _ _ _ HH), Ej|now left].
        -- destruct (Hs s Hin) as [H1 H2]. split; [exact H1|now right].
    + assert (Hno : ~ holds L (done ++ [x])) by (intros (k & Ek); congruence).
      destruct (add_leaf false L [] [] bare (Some x) done x HC Hdx Hno eq_refl) as (L1 & d1 & E1 & HA & Lk & Oi).
      rewrite E1. set (k1 := length (objs L)) in *. pose proof (a_consistent _ _ _ _ _ HA) as HC1.
      assert (Hk1 : lookup L1 (abs_path (done ++ [x])) = Some k1) by (rewrite Lk; now rewrite str_eqb_refl).
      rewrite (spelled_is_path L1 k1 (abs_path (done ++ [x])) HC1) by now apply (c_inverse L1 HC1).
      destruct (IH (done ++ [x]) L1 (made ++ [(abs_path (done ++ [x]), k1)]) (ds ++ abs_path (done ++ [x]) :: d1) HC1 Hp')
        as (L' & made' & ds' & E & HH & Hs).
      { right. now exists k1. }
      exists L', ((abs_path (done ++ [x]), k1) :: made'), ((abs_path (done ++ [x]) :: d1) ++ ds').
      rewrite E, <- !app_assoc. split; [reflexivity|].
      assert (Hlt : forall k m, obj L k = Some m -> k < k1).
      { intros k m Em. apply nth_error_Some. unfold obj in Em. congruence. }
      assert (Hmiss : forall s, In s (steps (done ++ [x]) names) -> is_missing L1 s = is_missing L s).
      { intros s Hin. unfold is_missing. rewrite Lk. destruct (str_eqb _ _) eqn:Es; [|reflexivity]. exfalso.
        apply str_eqb_eq, abs_inj in Es; [|exact Hdx|exact (steps_plain names (done ++ [x]) s Hp' Hin)]. subst s.
        apply steps_longer in Hin. lia. }
      split.
      * destruct HH as [A1 A2 A3 A4 A5 A6 A7]. constructor; auto.
        -- exact (same_rest_trans _ _ _ (a_rest _ _ _ _ _ HA) A2).
        -- intros q k Eq. apply A3, (a_old _ _ _ _ _ HA), Eq.
        -- intros q k Eq. apply A4 in Eq as [Eq|Hin]; [|right; now right]. rewrite Lk in Eq.
           destruct (str_eqb (abs_path (done ++ [x])) q) eqn:Es; [|now left]. right. left.
           apply str_eqb_eq in Es. congruence.
        -- cbn [steps filter map fst]. unfold is_missing at 1. rewrite Ej. cbn [map]. f_equal. rewrite A5.
           f_equal. clear - Hmiss. induction (steps (done ++ [x]) names) as [|s l IHl]; [reflexivity|]. cbn [filter].
           rewrite (Hmiss s) by now left. rewrite IHl; [reflexivity|]. intros t Ht. apply Hmiss. now right.
        -- intros q k [[= <- <-]|Hin]; [|now apply A6]. split; [now apply A3|].
           destruct (A7 k1 _ Oi) as (l & El & _). eexists. split; [exact El|]. split; reflexivity.
        -- intros k m Em. destruct (a_kept _ _ _ _ _ HA k m Em) as (l1 & El1 & K1 & K2).
           destruct (A7 k _ El1) as (l & El & Hl). exists l. split; [exact El|].
           destruct (Nat.eq_dec k k1) as [->|Hk]; [apply Hlt in Em; lia|].
           destruct (lookup L (abs_path done)) as [j|] eqn:Ed.
           ++ destruct (Nat.eq_dec j k) as [->|Hjk].
              ** specialize (K1 eq_refl). destruct Hl as [->|(ns & y & H1 & H2 & _)].
                 --- right. exists done, x. split; [now left|]. split; [exact Ed|]. split; [unfold is_missing; now rewrite Ej|exact K1].
                 --- exfalso. apply (a_old _ _ _ _ _ HA) in Ed.
                     apply (books_inj L1 _ _ _ (consistent_books L1 HC1) Ed), abs_inj in H2.
                     +++ subst ns. apply steps_longer in H1. rewrite !app_length in H1. cbn in H1. lia.
                     +++ exact (Forall_app_l _ _ _ Hdx).
                     +++ apply steps_plain in H1; [|exact Hp']. exact (Forall_app_l _ _ _ H1).
              ** assert (El' : l1 = s_order m) by (apply K2; congruence). subst l1. rewrite set_order_same in *.
                 destruct Hl as [->|(ns & y & H1 & H2 & H3 & H4)]; [now left|right]. exists ns, y.
                 split; [now right|]. rewrite (Hmiss _ H1) in H3. split; [|auto].
                 rewrite Lk in H2. destruct (str_eqb _ _); [congruence|exact H2].
           ++ assert (El' : l1 = s_order m) by (apply K2; congruence). subst l1. rewrite set_order_same in *.
              destruct Hl as [->|(ns & y & H1 & H2 & H3 & H4)]; [now left|right]. exists ns, y.
              split; [now right|]. rewrite (Hmiss _ H1) in H3. split; [|auto].
              rewrite Lk in H2. destruct (str_eqb _ _); [congruence|exact H2].
      * intros s [<-|Hin].
        -- split; [exists k1; apply (h_old _ _ _ _ _ HH), Hk1|now left].
        -- destruct (Hs s Hin) as [H1 H2]. split; [exact H1|]. apply in_app_iff. now right.
Qed.

Lemma steps_prefixes names : forall done s,
  In s (steps done names) <-> exists a b, a <> [] /\ names = a ++ b /\ s = done ++ a.
Proof.
  induction names as [|x names IH]; intros done s; cbn [steps].
  - split; [intros []|]. intros (a & b & H & E & _). symmetry in E. apply app_eq_nil in E as [-> _]. congruence.
  - split.
    + intros [<-|H].
      * exists [x], names. split; [discriminate|]. auto.
      * apply IH in H as (a & b & Ha & -> & ->). exists (x :: a), b. split; [discriminate|]. split; [reflexivity|].
        now rewrite <- app_assoc.
    + intros (a & b & Ha & E & ->). destruct a as [|y a]; [congruence|]. injection E as <- ->.
      destruct a as [|z a]; [now left|]. right. apply IH. exists (z :: a), b. split; [discriminate|]. split; [reflexivity|].
      now rewrite <- app_assoc.
Qed.
End DupProofs.
