(** Proofs about the file converter. *)

From Coq Require Import String List NArith ZArith Bool Sorted Permutation Lia.
From Verif Require Import PyStr PyStrFacts Dict DictFacts PyVal PyValFacts Legacy LegacySpec.
Import ListNotations.

Fixpoint distinct_b (l : list pystr) : bool :=
  match l with [] => true | x :: r => negb (str_in x r) && distinct_b r end.
Lemma distinct_nodup l : distinct_b l = true -> NoDup l.
Proof.
  induction l as [|x r IH]; intros H; [constructor|]. apply andb_prop in H as [H1 H2].
  constructor; [|now apply IH]. intros Hx. apply str_in_In in Hx. rewrite Hx in H1. discriminate.
Qed.
Ltac nodup_lits := apply distinct_nodup; vm_compute; reflexivity.

(** *** [proper] and [canon] *)

Lemma proper_list l : proper (VList l) <-> Forall proper l.
Proof.
  cbn [proper]. induction l as [|x t IH]; split; auto.
  - intros [H1 H2]. constructor; auto. now apply IH.
  - intros H. inversion H; subst. split; auto. now apply IH.
Qed.
Lemma proper_dict d : proper (VDict d) <-> NoDup (dkeys d) /\ Forall (fun kv => proper (snd kv)) d.
Proof.
  cbn [proper]. unfold dkeys. split; intros [H1 H2]; split; auto; clear H1.
  - induction d as [|[k x] t IH]; [constructor|]. destruct H2. constructor; auto.
  - induction H2 as [|[k x] t H2 _ IH]; auto.
Qed.
Lemma proper_get d k v : proper (VDict d) -> dget k d = Some v -> proper v.
Proof.
  intros [_ H]%proper_dict E. apply dget_In in E. rewrite Forall_forall in H. exact (H _ E).
Qed.

Lemma proper_nodup d : proper (VDict d) -> NoDup (dkeys d).
Proof. intros H. now apply proper_dict in H. Qed.

Lemma dget_map_vals {V W} (f : V -> W) (d : dict V) k :
  dget k (map (fun kv => (fst kv, f (snd kv))) d) = option_map f (dget k d).
Proof. induction d as [|[k0 v0] d IH]; cbn; auto. destruct (str_eqb k0 k); auto. Qed.
Lemma dkeys_map_vals {V W} (f : V -> W) (d : dict V) :
  dkeys (map (fun kv => (fst kv, f (snd kv))) d) = dkeys d.
Proof. unfold dkeys. rewrite map_map. apply map_ext. reflexivity. Qed.

Lemma same_refl v : same v v. Proof. reflexivity. Qed.
Lemma same_trans u v w : same u v -> same v w -> same u w. Proof. unfold same. congruence. Qed.
Lemma osame_trans u v w : osame u v -> osame v w -> osame u w. Proof. unfold osame. congruence. Qed.
Lemma osame_refl v : osame v v. Proof. reflexivity. Qed.
Lemma osame_some v w : same v w -> osame (Some v) (Some w). Proof. unfold osame, same. cbn. congruence. Qed.
Lemma osame_inv v w : osame (Some v) w -> exists x, w = Some x /\ same v x.
Proof. destruct w as [x|]; cbn; intros H; [|discriminate]. injection H. eauto. Qed.
Lemma osame_none w : osame None w -> w = None.
Proof. destruct w; cbn; intros H; [discriminate|reflexivity]. Qed.

Lemma same_dict d e :
  NoDup (dkeys d) -> NoDup (dkeys e) ->
  (same (VDict d) (VDict e) <-> forall k, osame (dget k d) (dget k e)).
Proof.
  intros Hd He. unfold same, osame. cbn [canon]. split.
  - intros H k. injection H as H.
    assert (E : dget k (sort_items (map (fun kv => (fst kv, canon (snd kv))) d))
              = dget k (sort_items (map (fun kv => (fst kv, canon (snd kv))) e))) by now rewrite H.
    rewrite !sort_dget in E by now rewrite dkeys_map_vals.
    now rewrite !dget_map_vals in E.
  - intros H. f_equal. apply sort_ext; try now rewrite dkeys_map_vals.
    intros k. now rewrite !dget_map_vals.
Qed.
Lemma same_list l m : same (VList l) (VList m) <-> Forall2 same l m.
Proof.
  unfold same. cbn [canon]. split.
  - intros H. injection H as H. revert m H. induction l as [|x l IH]; intros [|y m] H; try discriminate; constructor.
    + now injection H.
    + apply IH. now injection H.
  - intros H. f_equal. induction H as [|x y l m H _ IH]; cbn; auto. now rewrite H, IH.
Qed.
Lemma same_dict_inv d w : same (VDict d) w -> exists e, w = VDict e.
Proof. destruct w; intros H; try discriminate. eauto. Qed.
Lemma same_truthy v w : same v w -> truthy v = truthy w.
Proof.
  assert (E : forall u, truthy (canon u) = truthy u).
  { intros [| | | |[]|[]|d|]; cbn; auto. destruct d as [|kv d]; auto. cbn.
    destruct (insert_item _ _) eqn:E; auto. exfalso.
    pose proof (insert_perm (fst kv, canon (snd kv))
      (sort_items (map (fun kv => (fst kv, canon (snd kv))) d))) as P. rewrite E in P.
    apply Permutation_length in P. discriminate. }
  intros H. rewrite <- (E v), <- (E w). now rewrite H.
Qed.

(** *** reorder and deep_order_data *)

Lemma to_end_get d k k' : dget k' (to_end d k) = dget k' d.
Proof.
  unfold to_end. destruct (dget k d) as [v|] eqn:E; auto. rewrite dget_dset.
  destruct (str_eqb_spec k k') as [->|Hn]; auto. now apply dget_ddel_other.
Qed.
Lemma to_end_nodup d k : NoDup (dkeys d) -> NoDup (dkeys (to_end d k)).
Proof. intros H. unfold to_end. destruct (dget k d); auto. now apply NoDup_dset, NoDup_ddel. Qed.
Lemma reorder_get ks : forall d k, dget k (reorder ks d) = dget k d.
Proof.
  unfold reorder. induction ks as [|x ks IH]; intros d k; cbn; auto. rewrite IH. apply to_end_get.
Qed.
Lemma reorder_nodup ks : forall d, NoDup (dkeys d) -> NoDup (dkeys (reorder ks d)).
Proof.
  unfold reorder. induction ks as [|x ks IH]; intros d H; cbn; auto. apply IH. now apply to_end_nodup.
Qed.
Lemma reorder_in ks d kv : NoDup (dkeys d) -> In kv (reorder ks d) -> In kv d.
Proof.
  intros H Hi. destruct kv as [k v]. apply dget_In. rewrite <- (reorder_get ks).
  apply In_dget; auto. now apply reorder_nodup.
Qed.

Definition deep_val ks (v : pyval) : pyval :=
  match v with
  | VDict _ => deep ks v
  | VList l => VList (map (fun i => match i with VDict _ => deep ks i | _ => i end) l)
  | x => x
  end.
Lemma deep_dict ks d : deep ks (VDict d) = VDict (reorder ks (map (fun kv => (fst kv, deep_val ks (snd kv))) d)).
Proof. cbn [deep]. do 2 f_equal. apply map_ext. intros [k []]; reflexivity. Qed.

Lemma deep_val_ok ks v : proper v -> proper (deep_val ks v) /\ same v (deep_val ks v) /\
  (forall d, v = VDict d -> proper (deep ks v) /\ same v (deep ks v)).
Proof.
  induction v as [| | | | |l IH|l IH|d IH] using pyval_ind2; intros Hp;
    try (split; [exact Hp|]; split; [reflexivity|]; intros ? E; discriminate).
  - cbn [deep_val]. apply proper_list in Hp.
    assert (G : Forall (fun v => let w := match v with VDict _ => deep ks v | _ => v end in
                                 proper w /\ same v w) l).
    { rewrite Forall_forall in *. intros v Hv. cbn zeta. specialize (Hp v Hv).
      destruct (IH v Hv Hp) as (_ & _ & H). destruct v; try (split; [exact Hp|reflexivity]).
      now apply (H d). }
    split; [|split].
    + apply proper_list. clear IH Hp. induction G as [|v l [H _] _ IH]; cbn; constructor; auto.
    + apply same_list. clear IH Hp. induction G as [|v l [_ H] _ IH]; cbn; constructor; auto.
    + intros ? E. discriminate.
  - cbn [deep_val]. rewrite deep_dict. apply proper_dict in Hp as [Hn Hp].
    set (e := map (fun kv => (fst kv, deep_val ks (snd kv))) d).
    assert (Hk : NoDup (dkeys e)) by (unfold e; now rewrite dkeys_map_vals).
    assert (P : proper (VDict (reorder ks e)) /\ same (VDict d) (VDict (reorder ks e))).
    { split.
      - apply proper_dict. split; [now apply reorder_nodup|]. apply Forall_forall. intros kv Hkv.
        apply reorder_in in Hkv; auto. unfold e in Hkv. apply in_map_iff in Hkv as ([k v] & <- & Hv).
        cbn [fst snd]. rewrite Forall_forall in IH, Hp. now apply (IH _ Hv), (Hp _ Hv).
      - apply same_dict; auto; [now apply reorder_nodup|]. intros k. rewrite reorder_get. unfold e.
        rewrite dget_map_vals. destruct (dget k d) as [v|] eqn:E; [|reflexivity]. apply osame_some.
        apply dget_In in E. rewrite Forall_forall in IH, Hp. now apply (IH _ E), (Hp _ E). }
    split; [apply P|]. split; [apply P|]. intros _ _. exact P.
Qed.

Lemma deep_order_same ks d : proper (VDict d) ->
  proper (VDict (deep_order_data ks d)) /\ same (VDict d) (VDict (deep_order_data ks d)).
Proof.
  intros H. destruct (deep_val_ok ks (VDict d) H) as (_ & _ & G). apply (G d eq_refl).
Qed.

(** *** arrange_node_data *)

Lemma depth_in p : 0 < depth p <-> In slash p.
Proof.
  unfold depth. pose proof (count_char_zero SLASHC p) as H. change SLASHC with slash in *.
  destruct (count_char slash p) eqn:E.
  - split; [lia|]. intros Hi. exfalso. now apply H.
  - split; [|lia]. intros _. destruct (in_dec N.eq_dec slash p); auto.
    exfalso. apply H in n0. discriminate.
Qed.
Lemma in_at_depth n d p : In p (at_depth n d) <-> In p (dkeys n) /\ depth p = d.
Proof.
  unfold at_depth. rewrite sort_keys_in. unfold dkeys. rewrite !in_map_iff. split.
  - intros (kv & <- & H). apply filter_In in H as [H E]. apply Nat.eqb_eq in E. split; eauto.
  - intros ((kv & <- & H) & E). exists kv. split; auto. apply filter_In. split; auto. now apply Nat.eqb_eq.
Qed.

(** What [handle] and the outer loop keep true. *)
Definition ainv (n : dict pyval) (s : list pystr) : Prop :=
  NoDup s /\ forall p, In p s -> In p (dkeys n) /\ 0 < depth p.
Lemma ainv_snoc n s p : ainv n s -> ~ In p s -> In p (dkeys n) -> 0 < depth p -> ainv n (s ++ [p]).
Proof.
  intros [H1 H2] Hn Hi Hd. split.
  - apply (Permutation_NoDup (l := p :: s)); [apply Permutation_cons_append|]. now constructor.
  - intros q Hq. apply in_app_iff in Hq as [Hq|[<-|[]]]; auto.
Qed.

Lemma fold_keeps {A B} (P : A -> Prop) (R : A -> A -> Prop) (f : A -> B -> A) l :
  (forall a, R a a) -> (forall a b c, R a b -> R b c -> R a c) ->
  (forall a x, In x l -> P a -> P (f a x) /\ R a (f a x)) ->
  forall a, P a -> P (fold_left f l a) /\ R a (fold_left f l a).
Proof.
  intros Rr Rt. induction l as [|x l IH]; intros H a Ha; cbn; auto.
  destruct (H a x (or_introl eq_refl) Ha) as [H1 H2].
  destruct (IH (fun a x Hx => H a x (or_intror Hx)) _ H1) as [H3 H4]. split; eauto.
Qed.
Notation grows := (fun s t : list pystr => incl s t).

Lemma handle_ok n mx fuel : forall cur d s, ainv n s ->
  ainv n (handle n mx fuel cur d s) /\ incl s (handle n mx fuel cur d s).
Proof.
  induction fuel as [|fuel IH]; intros cur d s H; cbn [handle]; [split; auto using incl_refl|].
  apply (fold_keeps (ainv n) grows); auto using incl_refl; [intros a b c; apply incl_tran|].
  intros a e He Ha.
  apply (fold_keeps (ainv n) grows); auto using incl_refl; [intros x y z; apply incl_tran|].
  intros b lower Hl Hb. apply in_at_depth in Hl as [Hl Hd]. apply in_seq in He.
  destruct (is_ancestor lower cur); [|split; auto using incl_refl].
  destruct (str_in lower b) eqn:E; [split; auto using incl_refl|].
  apply str_in_not_In in E.
  destruct (IH lower e (b ++ [lower])) as [G1 G2]; [apply ainv_snoc; auto; lia|].
  split; auto. intros x Hx. apply G2. apply in_or_app. now left.
Qed.

Lemma max_depth_le n p : In p (dkeys n) -> depth p <= max_depth n.
Proof.
  unfold max_depth. intros H. apply (in_map depth) in H. revert H. generalize (map depth (dkeys n)).
  assert (G : forall l a, a <= fold_left Nat.max l a).
  { induction l as [|x l IH]; intros a; cbn; auto. specialize (IH (Nat.max a x)). lia. }
  assert (F : forall l a x, In x l -> x <= fold_left Nat.max l a).
  { induction l as [|y l IH]; intros a x Hx; [destruct Hx|]. destruct Hx as [->|Hx]; cbn; [|now apply IH].
    specialize (G l (Nat.max a x)). lia. }
  intros l H. now apply F.
Qed.

Lemma arranged_ok n : NoDup (arranged_paths n) /\
  forall p, In p (arranged_paths n) <-> In p (dkeys n) /\ In slash p.
Proof.
  unfold arranged_paths.
  set (inner := fun d s => fold_left (fun sorted path => if str_in path sorted then sorted
        else handle n (max_depth n) (max_depth n - d) path d (sorted ++ [path])) (at_depth n d) s).
  assert (I : forall d s, 0 < d -> ainv n s ->
     ainv n (inner d s) /\ incl s (inner d s) /\ incl (at_depth n d) (inner d s)).
  { intros d s Hd. unfold inner.
    assert (Hin : forall x, In x (at_depth n d) -> In x (dkeys n) /\ depth x = d) by (intros x; apply in_at_depth).
    generalize dependent (at_depth n d). intros l. revert s.
    induction l as [|x l IH]; intros s Hl Hs; cbn [fold_left].
    { split; auto. split; [apply incl_refl|]. intros y []. }
    destruct (str_in x s) eqn:E.
    - apply str_in_In in E. destruct (IH s (fun y Hy => Hl y (or_intror Hy)) Hs) as (G1 & G2 & G3).
      split; [exact G1|]. split; [exact G2|]. intros y [<-|Hy]; auto.
    - apply str_in_not_In in E. destruct (Hl x (or_introl eq_refl)) as [Hx1 Hx2].
      destruct (handle_ok n (max_depth n) (max_depth n - d) x d (s ++ [x])) as [G1 G2];
        [apply ainv_snoc; auto; lia|].
      destruct (IH _ (fun y Hy => Hl y (or_intror Hy)) G1) as (G3 & G4 & G5).
      split; [exact G3|]. split.
      + intros y Hy. apply G4, G2, in_or_app. now left.
      + intros y [<-|Hy]; auto. apply G4, G2, in_or_app. right. now left. }
  assert (O : forall l s, ainv n s -> (forall d, In d l -> 0 < d) ->
     ainv n (fold_left (fun s d => inner d s) l s) /\ incl s (fold_left (fun s d => inner d s) l s) /\
     forall d, In d l -> incl (at_depth n d) (fold_left (fun s d => inner d s) l s)).
  { induction l as [|d l IH]; intros s Hs Hl; cbn [fold_left].
    { split; auto. split; [apply incl_refl|]. intros d []. }
    destruct (I d s (Hl d (or_introl eq_refl)) Hs) as (G1 & G2 & G3).
    destruct (IH _ G1 (fun d' Hd => Hl d' (or_intror Hd))) as (G4 & G5 & G6).
    split; auto. split; [eapply incl_tran; eauto|]. intros d' [<-|Hd']; auto.
    eapply incl_tran; eauto. }
  destruct (O (seq 1 (max_depth n)) []) as ([G1 G2] & _ & G3).
  - split; [constructor|]. intros p [].
  - intros d Hd. apply in_seq in Hd. lia.
  - split; [exact G1|]. intros p. split.
    + intros Hp. destruct (G2 p Hp) as [H1 H2]. split; auto. now apply depth_in.
    + intros [H1 H2]. apply depth_in in H2. apply (G3 (depth p)).
      * apply in_seq. pose proof (max_depth_le n p H1). lia.
      * now apply in_at_depth.
Qed.

Lemma pick_get n ps : forall k,
  dget k (pick n ps) = if str_in k ps then dget k n else None.
Proof.
  unfold pick.
  assert (G : forall ps acc k, dget k (fold_left (fun acc p => match dget p n with
       Some v => dset p v acc | None => acc end) ps acc)
     = if str_in k ps then match dget k n with Some v => Some v | None => dget k acc end else dget k acc).
  { clear ps. induction ps as [|p ps IH]; intros acc k; cbn [fold_left]; auto. rewrite IH.
    cbn [str_in existsb]. fold (str_in k ps). rewrite (str_eqb_sym k p).
    destruct (str_eqb_spec p k) as [->|Hn]; cbn [orb].
    - destruct (dget k n) as [v|]; [rewrite dget_dset_same|]; destruct (str_in k ps); auto.
    - destruct (dget p n); auto. rewrite dget_dset_other by auto. reflexivity. }
  intros k. rewrite G. cbn [dget]. destruct (str_in k ps), (dget k n); auto.
Qed.
Lemma pick_nodup n ps : NoDup (dkeys (pick n ps)).
Proof.
  unfold pick. assert (G : forall ps acc, NoDup (dkeys acc) -> NoDup (dkeys
    (fold_left (fun acc p => match dget p n with Some v => dset p v acc | None => acc end) ps acc))).
  { clear ps. induction ps as [|p ps IH]; intros acc H; cbn [fold_left]; auto. apply IH.
    destruct (dget p n); auto. now apply NoDup_dset. }
  apply G. constructor.
Qed.
Lemma pick_arranged n k : rooted n -> dget k (pick n (arranged_paths n)) = dget k n.
Proof.
  intros Hr. rewrite pick_get. destruct (str_in k (arranged_paths n)) eqn:E; auto.
  apply str_in_not_In in E. symmetry. apply dget_none. intros Hk. apply E. apply arranged_ok.
  split; auto.
Qed.

Lemma proper_dset d k v : proper (VDict d) -> proper v -> proper (VDict (dset k v d)).
Proof.
  intros [H1 H2]%proper_dict Hv. apply proper_dict. split; [now apply NoDup_dset|].
  rewrite Forall_forall in *. intros [k' v'] Hi. cbn [snd].
  apply In_dget in Hi; [|now apply NoDup_dset]. rewrite dget_dset in Hi.
  destruct (str_eqb k k'); [now injection Hi as <-|]. apply dget_In in Hi. exact (H2 _ Hi).
Qed.
Lemma proper_ddel d k : proper (VDict d) -> proper (VDict (ddel k d)).
Proof.
  intros [H1 H2]%proper_dict. apply proper_dict. split; [now apply NoDup_ddel|].
  rewrite Forall_forall in *. intros kv Hi. apply H2. clear H1 H2. revert Hi.
  induction d as [|[k0 v0] d IH]; cbn; auto. destruct (str_eqb k0 k); cbn; tauto.
Qed.
Lemma proper_of_get d : NoDup (dkeys d) -> (forall k v, dget k d = Some v -> proper v) -> proper (VDict d).
Proof.
  intros H G. apply proper_dict. split; auto. apply Forall_forall. intros [k v] Hi. cbn.
  apply (G k). now apply In_dget.
Qed.


Lemma arrange_same d d' : proper (VDict d) -> rooted_file d -> arrange_node_data d = Ok d' ->
  proper (VDict d') /\ same (VDict d) (VDict d').
Proof.
  intros Hp Hr. unfold arrange_node_data, nodes_of.
  destruct (dget (lit "nodes") d) as [v|] eqn:E; cbn [bind].
  2:{ intros H. injection H as <-. split; auto. apply same_refl. }
  destruct v; try discriminate. cbn [bind]. intros H. injection H as <-. rename d0 into n.
  pose proof (proper_get _ _ _ Hp E) as Hn. pose proof (proj1 (proj1 (proper_dict n) Hn)) as Hnn.
  assert (P : proper (VDict (pick n (arranged_paths n)))).
  { apply proper_of_get; [apply pick_nodup|]. intros k v. rewrite pick_arranged by (now apply Hr).
    intros Hk. eapply proper_get; eauto. }
  split; [now apply proper_dset|].
  apply same_dict; [now apply proper_nodup|now apply proper_nodup, proper_dset|].
  intros k. rewrite dget_dset. destruct (str_eqb_spec (lit "nodes") k) as [<-|Hk]; [|reflexivity].
  rewrite E. apply osame_some. apply same_dict; auto; [apply pick_nodup|].
  intros k. now rewrite pick_arranged by (now apply Hr).
Qed.

Lemma arrange_total d : (forall v, dget (lit "nodes") d = Some v -> exists n, v = VDict n) ->
  exists d', arrange_node_data d = Ok d'.
Proof.
  intros H. unfold arrange_node_data, nodes_of. destruct (dget (lit "nodes") d) as [v|]; cbn [bind]; eauto.
  destruct (H v eq_refl) as [n ->]. cbn [bind]. eauto.
Qed.

Lemma same_get d e k : NoDup (dkeys d) -> NoDup (dkeys e) -> same (VDict d) (VDict e) ->
  osame (dget k d) (dget k e).
Proof. intros H1 H2 H. now apply same_dict. Qed.
Lemma same_keys d e k : NoDup (dkeys d) -> NoDup (dkeys e) -> same (VDict d) (VDict e) ->
  (In k (dkeys d) <-> In k (dkeys e)).
Proof.
  intros H1 H2 H. pose proof (same_get _ _ k H1 H2 H) as G. rewrite <- !dget_some_key.
  destruct (dget k d) as [v|], (dget k e) as [w|]; try discriminate G; split; eauto; intros [? ?]; discriminate.
Qed.


Lemma rooted_same d d' :
  proper (VDict d) -> proper (VDict d') -> rooted_file d ->
  osame (dget (lit "nodes") d) (dget (lit "nodes") d') -> rooted_file d'.
Proof.
  intros Hp Hp' Hr Hs n E. rewrite E in Hs.
  destruct (dget (lit "nodes") d) as [v|] eqn:F; [|discriminate].
  apply osame_inv in Hs as (w & Ew & Hs). injection Ew as <-. symmetry in Hs.
  destruct (same_dict_inv _ _ Hs) as [m ->]. intros p Hpn. apply (Hr m F).
  apply (same_keys m n); auto.
  - exact (proper_nodup _ (proper_get _ _ _ Hp F)).
  - exact (proper_nodup _ (proper_get _ _ _ Hp' E)).
  - now symmetry.
Qed.

(** *** V114 *)

Definition off_dropped (k : pystr) (v : option pyval) : option pyval :=
  if str_in k [lit "mute"; lit "solo"]
  then match v with Some (VBool false) => None | _ => v end else v.

Lemma drop_false_get k d k' : NoDup (dkeys d) ->
  dget k' (drop_false k d) =
  if str_eqb (lit k) k' then match dget k' d with Some (VBool false) => None | v => v end else dget k' d.
Proof.
  intros H. unfold drop_false. destruct (str_eqb_spec (lit k) k') as [<-|Hn].
  - destruct (dget (lit k) d) as [[|[]| | | | | |]|] eqn:E; auto. rewrite dget_ddel by auto. now rewrite str_eqb_refl.
  - destruct (dget (lit k) d) as [[|[]| | | | | |]|] eqn:E; auto. now apply dget_ddel_other.
Qed.
Lemma drop_false_nodup k d : NoDup (dkeys d) -> NoDup (dkeys (drop_false k d)).
Proof.
  intros H. unfold drop_false. destruct (dget (lit k) d) as [[|[]| | | | | |]|]; auto. now apply NoDup_ddel.
Qed.
Lemma drop_false_proper k d : proper (VDict d) -> proper (VDict (drop_false k d)).
Proof.
  intros H. unfold drop_false. destruct (dget (lit k) d) as [[|[]| | | | | |]|]; auto. now apply proper_ddel.
Qed.

Lemma v114_ok d d' : proper (VDict d) -> rooted_file d -> v114 d = Ok d' ->
  proper (VDict d') /\ rooted_file d' /\
  dget (lit "version") d' = Some (VStr (lit "1.15")) /\
  forall k, k <> lit "version" -> osame (off_dropped k (dget k d)) (dget k d').
Proof.
  intros Hp Hr. unfold v114.
  set (d1 := dset (lit "version") (VStr (lit "1.15")) d).
  set (d2 := drop_false "solo" (drop_false "mute" d1)).
  assert (P1 : proper (VDict d1)) by (apply proper_dset; cbn; auto).
  assert (P2 : proper (VDict d2)) by (now apply drop_false_proper, drop_false_proper).
  assert (G : forall k, dget k d2 = off_dropped k (dget k d1)).
  { intros k. unfold d2. rewrite drop_false_get by (now apply proper_nodup, drop_false_proper).
    rewrite drop_false_get by (now apply proper_nodup). unfold off_dropped. cbn [str_in existsb].
    rewrite (str_eqb_sym k (lit "mute")), (str_eqb_sym k (lit "solo")).
    destruct (str_eqb (lit "mute") k) eqn:E1, (str_eqb (lit "solo") k) eqn:E2; cbn [orb];
      try (destruct (dget k d1) as [[|[]| | | | | |]|]; reflexivity). }
  assert (R2 : rooted_file d2).
  { intros n. rewrite G. unfold off_dropped, d1. cbn [str_in existsb].
    change (str_eqb (lit "nodes") (lit "mute")) with false. change (str_eqb (lit "nodes") (lit "solo")) with false.
    cbn [orb]. rewrite dget_dset_other by discriminate. apply Hr. }
  destruct (arrange_node_data d2) as [d3|] eqn:E; [|discriminate]. cbn [bind]. intros H. injection H as <-.
  destruct (arrange_same _ _ P2 R2 E) as [P3 S3].
  destruct (deep_order_same V109_KEYS d3 P3) as [P4 S4].
  assert (S : forall k, osame (dget k d2) (dget k (deep_order_data V109_KEYS d3))).
  { intros k. apply same_get; try now apply proper_nodup. eapply same_trans; eauto. }
  split; auto. split.
  { apply (rooted_same d2); auto. }
  split.
  - specialize (S (lit "version")). rewrite G in S. unfold d1 in S. rewrite dget_dset_same in S.
    apply osame_inv in S as (w & -> & Hw). destruct w; try discriminate Hw. now injection Hw as ->.
  - intros k Hk. specialize (S k). rewrite G in S. unfold d1 in S. now rewrite dget_dset_other in S by auto.
Qed.

Lemma v114_total d : (forall v, dget (lit "nodes") d = Some v -> exists n, v = VDict n) ->
  NoDup (dkeys d) -> exists d', v114 d = Ok d'.
Proof.
  intros H Hn. unfold v114.
  destruct (arrange_total (drop_false "solo" (drop_false "mute" (dset (lit "version") (VStr (lit "1.15")) d))))
    as [d' E].
  - assert (N1 : NoDup (dkeys (dset (lit "version") (VStr (lit "1.15")) d))) by now apply NoDup_dset.
    intros v. rewrite drop_false_get.
    2:{ now apply drop_false_nodup. }
    rewrite drop_false_get by auto. change (str_eqb (lit "solo") (lit "nodes")) with false.
    change (str_eqb (lit "mute") (lit "nodes")) with false. cbn iota.
    rewrite dget_dset_other by discriminate. apply H.
  - rewrite E. cbn [bind]. eauto.
Qed.

(** *** Loops of V115 *)

(** [for x in l: acc[key] = g(x)], where g may raise. *)
Lemma fold_res_sets {B} (g : B -> res pyval) (key : B -> pystr) l : forall acc r,
  fold_res (fun acc x => bind (g x) (fun w => Ok (dset (key x) w acc))) l acc = Ok r ->
  NoDup (map key l) -> (forall x, In x l -> ~ In (key x) (dkeys acc)) ->
  exists ws, Forall2 (fun x w => g x = Ok w) l ws /\ r = acc ++ combine (map key l) ws.
Proof.
  induction l as [|x l IH]; intros acc r H Hn Hf; cbn [fold_res] in H.
  - injection H as <-. exists []. split; [constructor|]. cbn. now rewrite app_nil_r.
  - cbn [map] in Hn. inversion Hn as [|? ? Hx Hn']; subst.
    destruct (g x) as [w|] eqn:E; [|discriminate]. cbn [bind] in H.
    apply IH in H as (ws & Hws & ->); auto.
    + exists (w :: ws). split; [now constructor|]. rewrite dset_new by (apply Hf; now left).
      rewrite <- app_assoc. reflexivity.
    + intros y Hy Hi. apply in_dkeys_dset in Hi as [Hi|Hi]; [|apply (Hf y); cbn; auto].
      apply Hx. rewrite <- Hi. now apply in_map.
Qed.

Lemma combine_keys {B} (key : B -> pystr) (l : list B) (ws : list pyval) (P : B -> pyval -> Prop) :
  Forall2 P l ws -> dkeys (combine (map key l) ws) = map key l.
Proof. induction 1 as [|x w l ws H _ IH]; cbn; auto. unfold dkeys in IH. now rewrite IH. Qed.
Lemma combine_get {B} (key : B -> pystr) (l : list B) (ws : list pyval) (P : B -> pyval -> Prop) x :
  Forall2 P l ws -> NoDup (map key l) -> In x l ->
  exists w, dget (key x) (combine (map key l) ws) = Some w /\ P x w.
Proof.
  induction 1 as [|y w l ws H Hf IH]; intros Hn Hi; [destruct Hi|]. cbn [map combine dget].
  cbn [map] in Hn. inversion Hn as [|? ? Hy Hn']; subst.
  destruct Hi as [->|Hi].
  - rewrite str_eqb_refl. eauto.
  - destruct (str_eqb_spec (key y) (key x)) as [E|E]; [|now apply IH].
    exfalso. apply Hy. rewrite E. now apply in_map.
Qed.

Lemma sort_keys_eq (d : dict pyval) : map fst (sort_items d) = dkeys (sort_items d).
Proof. reflexivity. Qed.

(** Sorting the sub-attributes keeps the value. *)
Lemma same_sort d : NoDup (dkeys d) -> same (VDict d) (VDict (sort_items d)).
Proof.
  intros H. apply same_dict; auto; [now apply sort_nodup|]. intros k. now rewrite sort_dget.
Qed.

Lemma order_attrs_ok v w : proper v -> order_attrs v = Ok w -> same v w.
Proof.
  intros Hp. unfold order_attrs. destruct v as [| | | | | |d|]; try discriminate. cbn [as_dict bind].
  destruct (fold_res _ _ _) as [r|] eqn:E; [|discriminate]. cbn [bind]. intros H. injection H as <-.
  pose proof (proper_nodup _ Hp) as Hn.
  assert (E' : fold_res (fun acc (kv : pystr * pyval) =>
     bind (bind (as_dict (snd kv)) (fun sub => Ok (VDict (sort_items sub))))
          (fun w => Ok (dset (fst kv) w acc))) (sort_items d) [] = Ok r).
  { rewrite <- E. generalize (sort_items d) (@nil (pystr * pyval)). clear.
    induction d as [|[k v] l IH]; intros acc; cbn [fold_res]; auto. destruct v; cbn [bind as_dict snd]; auto. }
  apply (fold_res_sets (fun kv : pystr * pyval => bind (as_dict (snd kv)) (fun sub => Ok (VDict (sort_items sub))))
           fst) in E' as (ws & Hws & ->); [|now apply sort_nodup|intros ? ? []].
  cbn [app]. apply same_dict; auto.
  { rewrite (combine_keys _ _ _ _ Hws). now apply sort_nodup. }
  intros k. destruct (dget k d) as [v|] eqn:Ek.
  - pose proof (dget_In _ _ _ Ek) as Hi. apply (sort_in (k, v) d) in Hi.
    destruct (combine_get fst _ _ _ _ Hws (sort_nodup _ Hn) Hi) as (w & Hw & Hg). cbn [fst snd] in *.
    unfold dkeys. rewrite Hw. apply osame_some. destruct v; try discriminate. cbn [as_dict bind] in Hg.
    injection Hg as <-. apply same_sort. exact (proper_nodup _ (proper_get _ _ _ Hp Ek)).
  - replace (dget k (combine (map fst (sort_items d)) ws)) with (@None pyval); [reflexivity|].
    symmetry. apply dget_none. rewrite (combine_keys _ _ _ _ Hws). change (map fst (sort_items d)) with (dkeys (sort_items d)).
    rewrite sort_keys_in. now apply dget_none.
Qed.

(** [for key in keys: if key in d: acc[key] = f(key, d[key])]. *)
Definition copy_step (f : pystr -> pyval -> res pyval) (d : dict pyval) acc key :=
  match dget key d with
  | None => Ok acc
  | Some v => bind (f key v) (fun w => Ok (dset key w acc))
  end.
Definition present (d : dict pyval) (k : pystr) : bool :=
  match dget k d with Some _ => true | None => false end.
Lemma copy_fold f d ks : forall acc r,
  fold_res (copy_step f d) ks acc = Ok r -> NoDup ks -> (forall k, In k ks -> ~ In k (dkeys acc)) ->
  dkeys r = dkeys acc ++ filter (present d) ks /\
  (forall k, In k (dkeys acc) -> dget k r = dget k acc) /\
  (forall k v, In k ks -> dget k d = Some v -> exists w, f k v = Ok w /\ dget k r = Some w).
Proof.
  induction ks as [|x ks IH]; intros acc r H Hn Hf; cbn [fold_res] in H.
  - injection H as <-. cbn. rewrite app_nil_r. repeat split; auto. intros k v [].
  - inversion Hn as [|? ? Hx Hn']; subst. unfold copy_step at 1 in H.
    destruct (dget x d) as [v|] eqn:E.
    + destruct (f x v) as [w|] eqn:F; [|discriminate]. cbn [bind] in H.
      apply IH in H as (H1 & H2 & H3); auto.
      2:{ intros k Hk Hi. apply in_dkeys_dset in Hi as [->|Hi]; [auto|]. apply (Hf k); cbn; auto. }
      cbn [filter]. unfold present at 1. rewrite E.
      rewrite dkeys_dset_new in H1 by (apply Hf; now left). rewrite H1, <- app_assoc. split; auto.
      split.
      * intros k Hk. rewrite H2 by (rewrite in_dkeys_dset; auto). apply dget_dset_other.
        intros <-. apply (Hf x); cbn; auto.
      * intros k v' [<-|Hk] Hv; [|now apply H3]. rewrite E in Hv. injection Hv as <-. exists w. split; auto.
        rewrite H2 by (apply in_dkeys_dset; auto). apply dget_dset_same.
    + cbn [bind] in H. apply IH in H as (H1 & H2 & H3); auto; [|intros k Hk; apply Hf; now right].
      cbn [filter]. unfold present at 1. rewrite E. split; auto. split; auto.
      intros k v' [<-|Hk] Hv; [congruence|now apply H3].
Qed.

Definition node_entry (key : pystr) (v : pyval) : res pyval :=
  if str_eqb key (lit "attrs") then order_attrs v else Ok v.

Lemma parts_nodup : NoDup node_parts.
Proof. nodup_lits. Qed.

Lemma order_node_ok v w : proper v -> order_node_data v = Ok w -> node_kept v w.
Proof.
  intros Hp. unfold order_node_data. destruct v as [| | | | | |d|]; try discriminate. cbn [as_dict bind].
  destruct (fold_res _ _ _) as [r|] eqn:E; [|discriminate]. cbn [bind]. intros H. injection H as <-.
  exists d, r. split; auto. split; auto. change NODE_KEYS with node_parts in E.
  assert (E' : fold_res (copy_step node_entry d) node_parts [] = Ok r).
  { rewrite <- E. generalize node_parts (@nil (pystr * pyval)). clear.
    induction l as [|k l IH]; intros acc; cbn [fold_res]; auto. unfold copy_step at 1, node_entry.
    destruct (dget k d) as [v|]; cbn [bind]; auto. destruct (str_eqb k (lit "attrs")); cbn [bind]; auto.
    destruct (order_attrs v); cbn [bind]; auto. }
  destruct (copy_fold _ _ _ _ _ E' parts_nodup) as (H1 & _ & H3); [intros k _ []|].
  split; [|exact H1]. intros k Hk. destruct (dget k d) as [v|] eqn:Ek.
  - destruct (H3 k v Hk Ek) as (w & Hw & ->). apply osame_some. unfold node_entry in Hw.
    destruct (str_eqb k (lit "attrs")); [|injection Hw as <-; apply same_refl].
    apply order_attrs_ok; auto. eapply proper_get; eauto.
  - replace (dget k r) with (@None pyval); [reflexivity|]. symmetry. apply dget_none. rewrite H1. cbn [app dkeys map].
    rewrite filter_In. unfold present. rewrite Ek. intros [_ F]. discriminate.
Qed.

Lemma order_nodes_ok n m : proper (VDict n) -> order_nodes n = Ok m ->
  dkeys m = dkeys (sort_items n) /\
  forall p v, dget p n = Some v -> exists w, dget p m = Some w /\ node_kept v w.
Proof.
  intros Hp E. pose proof (proper_nodup _ Hp) as Hn. unfold order_nodes in E.
  apply (fold_res_sets (fun kv : pystr * pyval => order_node_data (snd kv)) fst) in E as (ws & Hws & ->);
    [|now apply sort_nodup|intros ? ? []].
  cbn [app]. split; [now rewrite (combine_keys _ _ _ _ Hws)|].
  intros p v Hv. pose proof (dget_In _ _ _ Hv) as Hi. apply (sort_in (p, v) n) in Hi.
  destruct (combine_get fst _ _ _ _ Hws (sort_nodup _ Hn) Hi) as (w & Hw & Hg). cbn [fst snd] in *.
  exists w. split; auto. apply order_node_ok; auto. eapply proper_get; eauto.
Qed.

(** The two loops that carry the leftover keys along. *)
Definition keep_step (f : pystr -> pyval -> res pyval) (d : dict pyval)
           (acc : dict pyval * list pystr) key :=
  let '(result, data_keys) := acc in
  match dget key d with
  | None => Ok acc
  | Some v => bind (f key v) (fun w => Ok (dset key w result, remove_key key data_keys))
  end.

Lemma remove_key_in k l x : NoDup l -> (In x (remove_key k l) <-> In x l /\ x <> k).
Proof.
  induction l as [|y l IH]; intros Hn; cbn; [tauto|]. inversion Hn; subst.
  destruct (str_eqb_spec y k) as [->|Hy].
  - split; [|intros [[->|H] Hk]; [congruence|auto]]. intros H. split; auto. now intros ->.
  - cbn. specialize (IH H2). unfold remove_key in IH. rewrite IH. split; [intros [->|[H Hk]]|intros [[->|H] Hk]]; auto.
Qed.
Lemma remove_key_nodup k l : NoDup l -> NoDup (remove_key k l).
Proof.
  induction l as [|y l IH]; intros Hn; cbn; auto. inversion Hn; subst.
  destruct (str_eqb y k); auto. constructor; [|now apply IH].
  change (~ In y (remove_key k l)). rewrite remove_key_in by auto. tauto.
Qed.

Lemma keep_fold f d ks : forall res0 rem r rem',
  fold_res (keep_step f d) ks (res0, rem) = Ok (r, rem') ->
  fold_res (copy_step f d) ks res0 = Ok r /\
  (NoDup rem -> NoDup rem' /\
   forall k, (In k rem' <-> In k rem /\ ~ (In k ks /\ In k (dkeys d)))).
Proof.
  induction ks as [|x ks IH]; intros res0 rem r rem' H; cbn [fold_res] in *.
  - injection H as <- <-. split; auto. intros Hn. split; auto. intros k. split; [|tauto].
    intros Hk. split; auto. intros [[] _].
  - unfold keep_step at 1 in H. unfold copy_step at 1.
    destruct (dget x d) as [v|] eqn:E.
    + destruct (f x v) as [w|]; [|discriminate]. cbn [bind] in *.
      apply IH in H as [H1 H2]. split; auto. intros Hn.
      destruct (H2 (remove_key_nodup x rem Hn)) as [H3 H4]. split; auto. intros k. rewrite H4.
      rewrite remove_key_in by auto.
      assert (Hx : In x (dkeys d)) by (apply dget_some_key; eauto).
      split; [intros [[G1 G2] G3]|intros [G1 G2]].
      * split; auto. intros [[->|Hk] Hd]; auto.
      * split; [split; auto; intros ->; apply G2; split; auto; now left|].
        intros [Hk Hd]. apply G2. split; auto. now right.
    + cbn [bind] in *. apply IH in H as [H1 H2]. split; auto. intros Hn.
      destruct (H2 Hn) as [H3 H4]. split; auto. intros k. rewrite H4.
      assert (Hx : ~ In x (dkeys d)) by now apply dget_none.
      split; intros [G1 G2]; split; auto; intros [Hk Hd]; apply G2; split; auto; [|now right].
      destruct Hk as [->|Hk]; auto. contradiction.
Qed.

Lemma copy_keys_get d ks acc k :
  dget k (copy_keys d ks acc) = if str_in k ks && present d k then dget k d else dget k acc.
Proof.
  unfold copy_keys. revert acc. induction ks as [|x ks IH]; intros acc; cbn [fold_left]; auto.
  rewrite IH. cbn [str_in existsb]. fold (str_in k ks). rewrite (str_eqb_sym k x).
  destruct (str_eqb_spec x k) as [->|Hn]; cbn [orb].
  - unfold present. destruct (dget k d) as [v|] eqn:E.
    + destruct (str_in k ks); cbn; auto. apply dget_dset_same.
    + now rewrite !andb_false_r.
  - destruct (dget x d) as [v|]; auto. now rewrite dget_dset_other by auto.
Qed.
Lemma copy_keys_nodup d ks acc : NoDup (dkeys acc) -> NoDup (dkeys (copy_keys d ks acc)).
Proof.
  unfold copy_keys. revert acc. induction ks as [|x ks IH]; intros acc H; cbn [fold_left]; auto.
  apply IH. destruct (dget x d); auto. now apply NoDup_dset.
Qed.

(** What such a loop followed by the leftovers gives. *)
Lemma keep_all f d ks r rem : NoDup (dkeys d) -> NoDup ks ->
  fold_res (keep_step f d) ks ([], dkeys d) = Ok (r, rem) ->
  NoDup (dkeys (copy_keys d rem r)) /\
  forall k, match dget k d with
            | None => dget k (copy_keys d rem r) = None
            | Some v => if str_in k ks then exists w, f k v = Ok w /\ dget k (copy_keys d rem r) = Some w
                        else dget k (copy_keys d rem r) = Some v
            end.
Proof.
  intros Hd Hk H. apply keep_fold in H as [H1 H2]. destruct (H2 Hd) as [H3 H4].
  destruct (copy_fold _ _ _ _ _ H1 Hk) as (G1 & _ & G3); [intros k _ []|].
  cbn [dkeys map app] in G1. split.
  - apply copy_keys_nodup. rewrite G1. now apply NoDup_filter.
  - intros k. rewrite copy_keys_get. unfold present. destruct (dget k d) as [v|] eqn:E.
    + rewrite andb_true_r. assert (Hin : In k (dkeys d)) by (apply dget_some_key; eauto).
      destruct (str_in k ks) eqn:Ek.
      * apply str_in_In in Ek. destruct (G3 k v Ek E) as (w & Hw & Hr). exists w. split; auto.
        destruct (str_in k rem) eqn:Er; auto. apply str_in_In, H4 in Er as [_ Er]. tauto.
      * apply str_in_not_In in Ek. rewrite (proj2 (str_in_In k rem)); auto. apply H4. tauto.
    + rewrite andb_false_r. apply dget_none. rewrite G1. rewrite filter_In. unfold present. rewrite E.
      intros [_ F]. discriminate.
Qed.

Definition meta_entry (key : pystr) (v : pyval) : res pyval :=
  bind (as_dict v) (fun s => Ok (VDict (sort_items s))).

Lemma order_meta_ok m m' : proper (VDict m) -> order_meta_data m = Ok m' ->
  NoDup (dkeys m') /\ same (VDict m) (VDict m').
Proof.
  intros Hp. unfold order_meta_data. pose proof (proper_nodup _ Hp) as Hn.
  destruct (fold_res _ _ _) as [[r rem]|] eqn:E; [|discriminate]. cbn [bind]. intros H. injection H as <-.
  assert (E' : fold_res (keep_step meta_entry m) META_KEYS ([], dkeys m) = Ok (r, rem)).
  { rewrite <- E. generalize META_KEYS (@nil (pystr * pyval)) (dkeys m). clear.
    induction l as [|k l IH]; intros acc rem; cbn [fold_res]; auto. unfold keep_step at 1, meta_entry.
    destruct (dget k m) as [v|]; cbn [bind]; auto. destruct v; cbn [as_dict bind]; auto. }
  assert (Hk : NoDup META_KEYS) by nodup_lits.
  destruct (keep_all _ _ _ _ _ Hn Hk E') as [H1 H2]. split; auto.
  apply same_dict; auto. intros k. specialize (H2 k). destruct (dget k m) as [v|] eqn:Ek.
  - destruct (str_in k META_KEYS).
    + destruct H2 as (w & Hw & ->). apply osame_some. unfold meta_entry in Hw.
      destruct v; try discriminate. cbn [as_dict bind] in Hw. injection Hw as <-. apply same_sort.
      exact (proper_nodup _ (proper_get _ _ _ Hp Ek)).
    + rewrite H2. reflexivity.
  - rewrite H2. reflexivity.
Qed.

Lemma v115_ok d d' : proper (VDict d) -> v115 d = Ok d' ->
  NoDup (dkeys d') /\
  dget (lit "version") d' = Some (VStr (lit "1.16")) /\
  (forall n, dget (lit "nodes") d = Some (VDict n) ->
     exists n', dget (lit "nodes") d' = Some (VDict n') /\ dkeys n' = dkeys (sort_items n) /\
     forall p v, dget p n = Some v -> exists w, dget p n' = Some w /\ node_kept v w) /\
  (forall k, k <> lit "version" -> k <> lit "nodes" -> osame (dget k d) (dget k d')) /\
  (dget (lit "nodes") d = None -> dget (lit "nodes") d' = None).
Proof.
  intros Hp. unfold v115, order_save_data. set (d1 := dset (lit "version") (VStr (lit "1.16")) d).
  assert (P1 : proper (VDict d1)) by (apply proper_dset; cbn; auto).
  pose proof (proper_nodup _ P1) as Hn.
  destruct (fold_res _ _ _) as [[r rem]|] eqn:E; [|discriminate]. cbn [bind]. intros H. injection H as <-.
  change (fold_res (keep_step order_entry d1) V115_KEYS ([], dkeys d1) = Ok (r, rem)) in E.
  assert (Hnk : NoDup V115_KEYS) by nodup_lits.
  destruct (keep_all _ _ _ _ _ Hn Hnk E) as [H1 H2]. split; auto.
  assert (O : forall k, k <> lit "version" -> dget k d1 = dget k d)
    by (intros k Hk; unfold d1; now rewrite dget_dset_other by auto).
  split; [|split; [|split]].
  - specialize (H2 (lit "version")). unfold d1 in H2 at 1. rewrite dget_dset_same in H2.
    change (str_in (lit "version") V115_KEYS) with true in H2. destruct H2 as (w & Hw & ->).
    injection Hw as <-. reflexivity.
  - intros n Hd. specialize (H2 (lit "nodes")). rewrite O, Hd in H2 by discriminate.
    change (str_in (lit "nodes") V115_KEYS) with true in H2. destruct H2 as (w & Hw & ->).
    unfold order_entry in Hw. rewrite str_eqb_refl in Hw. cbn [as_dict bind] in Hw.
    destruct (order_nodes n) as [m|] eqn:Em; [|discriminate]. cbn [bind] in Hw. injection Hw as <-.
    exists m. split; auto. apply order_nodes_ok; auto. exact (proper_get _ _ _ Hp Hd).
  - intros k Hk Hk2. specialize (H2 k). rewrite O in H2 by auto. destruct (dget k d) as [v|] eqn:Ek.
    2:{ rewrite H2. reflexivity. }
    pose proof (proper_get _ _ _ Hp Ek) as Pv. destruct (str_in k V115_KEYS); [|rewrite H2; reflexivity].
    destruct H2 as (w & Hw & ->). apply osame_some. unfold order_entry in Hw.
    rewrite (proj2 (str_eqb_neq k (lit "nodes"))) in Hw by auto.
    destruct (str_eqb k (lit "meta_data")).
    { destruct v; try discriminate. cbn [as_dict bind] in Hw. destruct (order_meta_data d0) as [m|] eqn:Em; [|discriminate].
      cbn [bind] in Hw. injection Hw as <-. now apply order_meta_ok. }
    destruct (str_eqb k (lit "comp_overrides")).
    { destruct v; try discriminate. cbn [as_dict bind] in Hw. injection Hw as <-. apply same_sort.
      now apply proper_nodup. }
    injection Hw as <-. apply same_refl.
  - intros Hd. specialize (H2 (lit "nodes")). now rewrite O, Hd in H2 by discriminate.
Qed.
