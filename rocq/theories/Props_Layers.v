(** C16 and C17: which layers take part, and overrides between layers. *)

From Coq Require Import String List NArith Bool Lia.
From Verif Require Import PyStr PyStrFacts Dict DictFacts LayerOver LayerOverSpec
     LayerOverProofs.
Import ListNotations.

(** A root file that references a file that references another one. *)
Definition ex_layer (path : pystr) (p : option nat) (ov : dict nat) : slayer :=
  {| l_filepath := path; l_mute := false; l_solo := false; l_alias := Some path;
     l_color := None; l_lock := None; l_over := ov; l_aliases := []; l_colors := [];
     l_locks := []; l_parent := p |}.
Definition ex_store : store :=
  {| layers := [ex_layer (lit "root") None [];
                ex_layer (lit "mid") (Some 0) [(lit "leaf", 0)];
                ex_layer (lit "leaf") (Some 1) []];
     objs := [{| o_mute := Some true; o_solo := None |}] |}.

Lemma ex_above_root : above (layers ex_store) 0 [].
Proof. eapply above_root; reflexivity. Qed.
Lemma ex_above_mid : above (layers ex_store) 1 [0].
Proof. eapply above_next; [reflexivity|reflexivity|exact ex_above_root]. Qed.
Lemma ex_above_leaf : above (layers ex_store) 2 [1; 0].
Proof. eapply above_next; [reflexivity|reflexivity|exact ex_above_mid]. Qed.

Lemma ex_store_ok : store_ok ex_store.
Proof.
  split; [|split].
  - repeat constructor; cbn; intuition.
  - split.
    + intros l p a [<-|[<-|[<-|[]]]] H; cbn in H; try contradiction.
      destruct H as [H|[]]. injection H as <- <-. cbn. lia.
    + intros l1 l2 p q a H1 H2 H3 H4.
      destruct H1 as [<-|[<-|[<-|[]]]]; cbn in H3; try contradiction;
      destruct H2 as [<-|[<-|[<-|[]]]]; cbn in H4; try contradiction.
      destruct H3 as [H3|[]]. destruct H4 as [H4|[]]. congruence.
  - intros [|[|[|i]]] l H; cbn in H.
    + exists []. exact ex_above_root.
    + exists [0]. exact ex_above_mid.
    + exists [1; 0]. exact ex_above_leaf.
    + now destruct i.
Qed.

(** *** C16 *)

(** The layers that take part are, in the order given and with nothing else,
    those not muted and, when some layer is soloed, soloed. *)
Theorem C16_active_exact {L} (muted soloed : L -> bool) (ls : list L) :
  get_active_layers muted soloed ls
  = if existsb soloed ls
    then filter (fun l => soloed l && negb (muted l)) ls
    else filter (fun l => negb (muted l)) ls.
Proof. exact (active_layers_spec muted soloed ls). Qed.
Print Assumptions C16_active_exact.

Example C16_active_exact_ex :
  get_active_layers (fun n => Nat.eqb n 1) (fun n => Nat.leb n 1) [0; 1; 2] = [0] /\
  get_active_layers (fun n => Nat.eqb n 1) (fun _ => false) [2; 1; 0] = [2; 0].
Proof. auto. Qed.

Theorem C16_active_member {L} (muted soloed : L -> bool) (ls : list L) l :
  In l (get_active_layers muted soloed ls) <->
  In l ls /\ muted l = false /\
  ((exists x, In x ls /\ soloed x = true) -> soloed l = true).
Proof.
  rewrite active_layers_spec. destruct (existsb soloed ls) eqn:E.
  - apply existsb_exists in E. rewrite filter_In, andb_true_iff, negb_true_iff. tauto.
  - rewrite filter_In, negb_true_iff. split; [|tauto]. intros [H1 H2].
    repeat split; auto. intros H. apply existsb_exists in H. congruence.
Qed.
Print Assumptions C16_active_member.

(** A layer that is both muted and soloed never takes part, but still keeps
    the layers that are not soloed out. *)
Theorem C16_mute_beats_solo {L} (muted soloed : L -> bool) (ls : list L) l :
  In l ls -> soloed l = true -> muted l = true ->
  (forall x, In x ls -> soloed x = true -> x = l) ->
  get_active_layers muted soloed ls = [].
Proof.
  intros Hl Hs Hm Hu.
  destruct (get_active_layers muted soloed ls) as [|x t] eqn:E; auto. exfalso.
  assert (Hx : In x (get_active_layers muted soloed ls)) by (rewrite E; now left).
  apply C16_active_member in Hx as (H1 & H2 & H3).
  assert (x = l) by (apply Hu; auto; apply H3; eauto). congruence.
Qed.
Print Assumptions C16_mute_beats_solo.

(** The flags that count are the effective ones: a mute override set through
    any layer of a layer's chain takes the layer out. *)
Theorem C16_muted_by_override s s' i p m upm lm ls :
  store_ok s -> set_mute_over (length (layers s)) s i p true = Some s' ->
  above (layers s) m upm -> In i (m :: upm) ->
  nth_error (layers s) m = Some lm -> l_filepath lm = p ->
  let flag g j := match g (length (layers s')) s' false j with Some b => b | None => false end in
  ~ In m (get_active_layers (flag get_muted) (flag get_soloed) ls).
Proof.
  intros Hok Hset Hm Hin El Hp flag Hi. apply C16_active_member in Hi as (_ & H & _).
  unfold flag in H.
  now rewrite (mute_over_read _ _ _ _ _ _ _ _ Hok Hset Hm Hin El Hp) in H.
Qed.
Print Assumptions C16_muted_by_override.

(** *** C17 *)

(** Every sequence of override calls leaves the layers well formed, so the
    theorems below apply after any history. *)
Theorem C17_history_ok cs s : store_ok s -> store_ok (fold_left call cs s).
Proof. exact (calls_ok cs s). Qed.
Print Assumptions C17_history_ok.

Example C17_history_ok_ex :
  store_ok (fold_left call [SoloOver 0 (lit "leaf") true; AliasOver 2 (Some (lit "x"))] ex_store)
  /\ get_soloed 3 (fold_left call [SoloOver 1 (lit "leaf") true] ex_store) false 2 = Some true
  /\ get_muted 3 (fold_left call [SoloOver 1 (lit "leaf") true] ex_store) false 2 = Some true.
Proof. split; [apply C17_history_ok, ex_store_ok|]. split; reflexivity. Qed.

(** The mute flag a layer reports is the opinion of the strongest layer of its
    chain that has an entry for it, and its own flag when that entry is silent
    or there is none. *)
Theorem C17_muted s i l up e :
  store_ok s -> above (layers s) i up -> nth_error (layers s) i = Some l ->
  strongest l_over (layers s) (l_filepath l) (i :: up) e ->
  get_muted (length (layers s)) s false i
  = Some (match e with
          | None => l_mute l
          | Some a => match o_mute (nth a (objs s) no_over) with
                      | Some b => b
                      | None => l_mute l
                      end
          end).
Proof.
  intros (Ht & _) Ha El Hs. apply (get_muted_spec s i l up _ e); auto.
  apply above_length in Ha. lia.
Qed.
Print Assumptions C17_muted.

Theorem C17_soloed s i l up e :
  store_ok s -> above (layers s) i up -> nth_error (layers s) i = Some l ->
  strongest l_over (layers s) (l_filepath l) (i :: up) e ->
  get_soloed (length (layers s)) s false i
  = Some (match e with
          | None => l_solo l
          | Some a => match o_solo (nth a (objs s) no_over) with
                      | Some b => b
                      | None => l_solo l
                      end
          end).
Proof.
  intros (Ht & _) Ha El Hs. apply (get_soloed_spec s i l up _ e); auto.
  apply above_length in Ha. lia.
Qed.
Print Assumptions C17_soloed.

Example C17_muted_ex :
  strongest l_over (layers ex_store) (lit "leaf") [2; 1; 0] (Some 0) /\
  get_muted 3 ex_store false 2 = Some true /\ get_muted 3 ex_store true 2 = Some false.
Proof.
  split; [|auto]. apply strongest_up.
  apply (strongest_here l_over (layers ex_store) (lit "leaf") 1 [0]
           (ex_layer (lit "mid") (Some 0) [(lit "leaf", 0)])); [|reflexivity].
  apply (strongest_here l_over (layers ex_store) (lit "leaf") 0 []
           (ex_layer (lit "root") None [])); [constructor|reflexivity].
Qed.

(** Alias, colour and lock: the strongest override, else the layer's own value
    (or nothing when the caller does not want to fall back). *)
Theorem C17_alias s i l up fb e :
  store_ok s -> above (layers s) i up -> nth_error (layers s) i = Some l ->
  strongest l_aliases (layers s) (l_filepath l) (i :: up) e ->
  get_alias false fb (length (layers s)) s i
  = Some (match e with Some v => Some v | None => if fb then l_alias l else None end).
Proof.
  intros (Ht & _) Ha El Hs. apply (get_meta_spec l_alias l_aliases s i l up); auto.
  - now apply tables_aliases.
  - apply above_length in Ha. lia.
Qed.
Print Assumptions C17_alias.

Theorem C17_color s i l up fb e :
  store_ok s -> above (layers s) i up -> nth_error (layers s) i = Some l ->
  strongest l_colors (layers s) (l_filepath l) (i :: up) e ->
  get_color false fb (length (layers s)) s i
  = Some (match e with Some v => Some v | None => if fb then l_color l else None end).
Proof.
  intros (Ht & _) Ha El Hs. apply (get_meta_spec l_color l_colors s i l up); auto.
  - now apply tables_colors.
  - apply above_length in Ha. lia.
Qed.
Print Assumptions C17_color.

Theorem C17_locked s i l up fb e :
  store_ok s -> above (layers s) i up -> nth_error (layers s) i = Some l ->
  strongest l_locks (layers s) (l_filepath l) (i :: up) e ->
  get_locked false fb (length (layers s)) s i
  = Some (match e with
          | Some v => v
          | None => if fb then match l_lock l with Some b => b | None => false end else false
          end).
Proof.
  intros (Ht & _) Ha El Hs. unfold get_locked.
  rewrite (get_meta_spec l_lock l_locks s i l up _ fb e); auto.
  - cbn. destruct e; auto. destruct fb; auto.
  - now apply tables_locks.
  - apply above_length in Ha. lia.
Qed.
Print Assumptions C17_locked.

(** Asked for the local opinion, a layer ignores every override. *)
Theorem C17_local s i l fb :
  nth_error (layers s) i = Some l ->
  get_muted (length (layers s)) s true i = Some (l_mute l) /\
  get_soloed (length (layers s)) s true i = Some (l_solo l) /\
  get_alias true fb (length (layers s)) s i = Some (l_alias l) /\
  get_color true fb (length (layers s)) s i = Some (l_color l).
Proof.
  intros H. unfold get_muted, get_soloed, get_alias, get_color, get_meta_attr.
  rewrite H. auto.
Qed.
Print Assumptions C17_local.

(** A mute (solo) override set through layer [i] is what every layer with that
    path and [i] in its chain reports afterwards. *)
Theorem C17_mute_over_read s s' i p b m upm lm :
  store_ok s -> set_mute_over (length (layers s)) s i p b = Some s' ->
  above (layers s) m upm -> In i (m :: upm) ->
  nth_error (layers s) m = Some lm -> l_filepath lm = p ->
  get_muted (length (layers s')) s' false m = Some b.
Proof. exact (mute_over_read s s' i p b m upm lm). Qed.
Print Assumptions C17_mute_over_read.

Theorem C17_solo_over_read s s' i p b m upm lm :
  store_ok s -> set_solo_over (length (layers s)) s i p b = Some s' ->
  above (layers s) m upm -> In i (m :: upm) ->
  nth_error (layers s) m = Some lm -> l_filepath lm = p ->
  get_soloed (length (layers s')) s' false m = Some b.
Proof. exact (solo_over_read s s' i p b m upm lm). Qed.
Print Assumptions C17_solo_over_read.

Example C17_over_read_ex :
  exists s', set_mute_over 3 ex_store 0 (lit "leaf") false = Some s' /\
             get_muted 3 s' false 2 = Some false.
Proof. eexists. split; [reflexivity|reflexivity]. Qed.

(** ... and layers with any other path report what they did before. *)
Theorem C17_mute_over_frame s s' i p b m lm :
  store_ok s -> set_mute_over (length (layers s)) s i p b = Some s' ->
  nth_error (layers s) m = Some lm -> l_filepath lm <> p ->
  get_muted (length (layers s')) s' false m = get_muted (length (layers s)) s false m /\
  get_soloed (length (layers s')) s' false m = get_soloed (length (layers s)) s false m.
Proof. intros. eapply over_frame; eauto. Qed.
Print Assumptions C17_mute_over_frame.

Theorem C17_solo_over_frame s s' i p b m lm :
  store_ok s -> set_solo_over (length (layers s)) s i p b = Some s' ->
  nth_error (layers s) m = Some lm -> l_filepath lm <> p ->
  get_muted (length (layers s')) s' false m = get_muted (length (layers s)) s false m /\
  get_soloed (length (layers s')) s' false m = get_soloed (length (layers s)) s false m.
Proof. intros. eapply over_frame; eauto. Qed.
Print Assumptions C17_solo_over_frame.

Theorem C17_mute_over_keeps_solo s s' p b m lm :
  store_ok s -> nth_error (layers s) m = Some lm -> l_filepath lm = p ->
  set_mute_over (length (layers s)) s m p b = Some s' ->
  get_soloed (length (layers s')) s' false m = get_soloed (length (layers s)) s false m.
Proof. exact (mute_over_keeps_solo s s' p b m lm). Qed.
Print Assumptions C17_mute_over_keeps_solo.

(** Setting a solo override from further up is not always harmless to the mute
    override: the root's new entry hides the whole entry of the layer below. *)
Theorem C17_solo_over_keeps_mute_refuted :
  ~ (forall s s' i p b m upm lm,
       store_ok s -> set_solo_over (length (layers s)) s i p b = Some s' ->
       above (layers s) m upm -> In i (m :: upm) ->
       nth_error (layers s) m = Some lm -> l_filepath lm = p ->
       get_muted (length (layers s')) s' false m = get_muted (length (layers s)) s false m).
Proof.
  intros H. specialize (H ex_store).
  destruct (set_solo_over 3 ex_store 0 (lit "leaf") false) as [s'|] eqn:E; [|discriminate].
  specialize (H s' 0 (lit "leaf") false 2 [1; 0] _ ex_store_ok E ex_above_leaf
                (or_intror (or_intror (or_introl eq_refl))) eq_refl eq_refl).
  vm_compute in E. injection E as <-. vm_compute in H. discriminate.
Qed.
Print Assumptions C17_solo_over_keeps_mute_refuted.

(** An alias override lands on the root of the chain, under the layer's path,
    and nowhere else; [None] removes it. *)
Theorem C17_alias_over_effect s i l up r root v :
  store_ok s -> above (layers s) i (up ++ [r]) ->
  nth_error (layers s) i = Some l -> nth_error (layers s) r = Some root ->
  exists s' root', set_alias_over (length (layers s)) s i v = Some s' /\
    nth_error (layers s') r = Some root' /\
    (forall k, dget k (l_aliases root')
               = if str_eqb (l_filepath l) k then v else dget k (l_aliases root)) /\
    (l_filepath root', l_alias root', l_colors root', l_over root', l_locks root',
     l_parent root') = (l_filepath root, l_alias root, l_colors root, l_over root,
     l_locks root, l_parent root) /\
    (forall j, j <> r -> nth_error (layers s') j = nth_error (layers s) j).
Proof.
  intros Hok Ha El Er. destruct (store_tables _ _ _ Hok Er) as (H1 & _ & _).
  destruct (set_on_root_effect l_aliases with_aliases (length (layers s)) s i l up r root v)
    as (s' & root' & A & B & (d & C) & D & E & _); auto.
  - apply above_length in Ha. lia.
  - exists s', root'. subst root'. repeat split; auto.
Qed.
Print Assumptions C17_alias_over_effect.

Theorem C17_color_over_effect s i l up r root v :
  store_ok s -> above (layers s) i (up ++ [r]) ->
  nth_error (layers s) i = Some l -> nth_error (layers s) r = Some root ->
  exists s' root', set_color_over (length (layers s)) s i v = Some s' /\
    nth_error (layers s') r = Some root' /\
    (forall k, dget k (l_colors root')
               = if str_eqb (l_filepath l) k then v else dget k (l_colors root)) /\
    (l_filepath root', l_alias root', l_aliases root', l_over root', l_locks root',
     l_parent root') = (l_filepath root, l_alias root, l_aliases root, l_over root,
     l_locks root, l_parent root) /\
    (forall j, j <> r -> nth_error (layers s') j = nth_error (layers s) j).
Proof.
  intros Hok Ha El Er. destruct (store_tables _ _ _ Hok Er) as (_ & H1 & _).
  destruct (set_on_root_effect l_colors with_colors (length (layers s)) s i l up r root v)
    as (s' & root' & A & B & (d & C) & D & E & _); auto.
  - apply above_length in Ha. lia.
  - exists s', root'. subst root'. repeat split; auto.
Qed.
Print Assumptions C17_color_over_effect.

(** So the alias set through a layer is what every layer with the same file
    and the same root reports. *)
Theorem C17_alias_over_read s s' i l up r a fb m lm upm :
  store_ok s -> above (layers s) i (up ++ [r]) -> nth_error (layers s) i = Some l ->
  set_alias_over (length (layers s)) s i (Some a) = Some s' ->
  above (layers s) m (upm ++ [r]) -> nth_error (layers s) m = Some lm ->
  l_filepath lm = l_filepath l ->
  get_alias false fb (length (layers s')) s' m = Some (Some a).
Proof.
  intros Hok Ha El Hset Hm Elm Hp.
  assert (exists root, nth_error (layers s) r = Some root) as [root Er].
  { pose proof (above_suffix _ _ _ (i :: up) r [] Ha eq_refl) as H. now apply above_nth in H. }
  destruct (C17_alias_over_effect s i l up r root (Some a) Hok Ha El Er)
    as (s2 & root' & E2 & Er' & Hd & Hsame & Hother).
  rewrite Hset in E2. injection E2 as <-.
  assert (Hok' : store_ok s').
  { pose proof (call_ok s (AliasOver i (Some a)) Hok) as H. unfold call in H.
    now rewrite Hset in H. }
  assert (Hpar : forall j, option_map l_parent (nth_error (layers s') j)
                           = option_map l_parent (nth_error (layers s) j)).
  { intros j. destruct (PeanoNat.Nat.eq_dec j r) as [->|Hne].
    - rewrite Er', Er. cbn. congruence.
    - now rewrite Hother. }
  pose proof (above_same_parents _ _ _ _ Hpar Hm) as Hm'.
  assert (Hpath : exists lm', nth_error (layers s') m = Some lm' /\
                              l_filepath lm' = l_filepath lm).
  { destruct (PeanoNat.Nat.eq_dec m r) as [->|Hne].
    - exists root'. split; auto. assert (lm = root) by congruence. subst. congruence.
    - exists lm. rewrite Hother; auto. }
  destruct Hpath as (lm' & Elm' & Hp').
  rewrite (C17_alias s' m lm' (upm ++ [r]) fb (Some a) Hok' Hm' Elm'); auto.
  rewrite Hp', Hp. change (m :: upm ++ [r]) with ((m :: upm) ++ [r]).
  apply strongest_root with root'; auto.
  - rewrite Forall_forall. intros j Hj.
    apply in_split in Hj as (b & post & Eb).
    assert (Hj2 : above (layers s') j (post ++ [r])).
    { apply (above_suffix _ _ _ b j (post ++ [r]) Hm').
      change (m :: upm ++ [r]) with ((m :: upm) ++ [r]). rewrite Eb.
      now rewrite <- app_assoc. }
    now apply above_nth in Hj2.
  - rewrite Hd. now rewrite str_eqb_refl.
Qed.
Print Assumptions C17_alias_over_read.

Example C17_alias_over_read_ex :
  above (layers ex_store) 2 ([1] ++ [0]) /\
  exists s', set_alias_over 3 ex_store 2 (Some (lit "nice")) = Some s' /\
    get_alias false true 3 s' 2 = Some (Some (lit "nice")) /\
    get_alias false true 3 s' 1 = Some (Some (lit "mid")).
Proof. split; [exact ex_above_leaf|]. eexists. repeat split; reflexivity. Qed.

(** The top layer has no root parent: its alias override call raises. *)
Theorem C17_alias_over_top s i l v :
  nth_error (layers s) i = Some l -> l_parent l = None ->
  set_alias_over (length (layers s)) s i v = None.
Proof. apply (set_on_root_none l_aliases with_aliases). Qed.
Print Assumptions C17_alias_over_top.

(** Removing a lock override with [None] does not always remove it: the
    colours are consulted instead of the locks. *)
Theorem C17_lock_over_clears_refuted :
  ~ (forall s s' i l up r root',
       store_ok s -> above (layers s) i (up ++ [r]) -> nth_error (layers s) i = Some l ->
       set_locked_over (length (layers s)) s i None = Some s' ->
       nth_error (layers s') r = Some root' ->
       dget (l_filepath l) (l_locks root') = None).
Proof.
  intros H. pose (s0 := call ex_store (LockOver 2 (Some true))).
  assert (Hok : store_ok s0) by apply call_ok, ex_store_ok.
  assert (Ha : above (layers s0) 2 ([1] ++ [0])).
  { eapply above_next; [reflexivity|reflexivity|].
    eapply above_next; [reflexivity|reflexivity|]. eapply above_root; reflexivity. }
  specialize (H s0 s0 2 _ [1] 0 _ Hok Ha eq_refl eq_refl eq_refl).
  vm_compute in H. discriminate.
Qed.
Print Assumptions C17_lock_over_clears_refuted.

(** What it does instead: with a colour override for the file the lock
    override goes if there is one and the call fails if there is none; without
    a colour override nothing happens. *)
Theorem C17_lock_over_clear s i l up r root :
  store_ok s -> above (layers s) i (up ++ [r]) ->
  nth_error (layers s) i = Some l -> nth_error (layers s) r = Some root ->
  (dget (l_filepath l) (l_colors root) = None ->
     set_locked_over (length (layers s)) s i None = Some s) /\
  (forall c, dget (l_filepath l) (l_colors root) = Some c ->
     dget (l_filepath l) (l_locks root) = None ->
     set_locked_over (length (layers s)) s i None = None) /\
  (forall c b, dget (l_filepath l) (l_colors root) = Some c ->
     dget (l_filepath l) (l_locks root) = Some b ->
     exists s' root', set_locked_over (length (layers s)) s i None = Some s' /\
       nth_error (layers s') r = Some root' /\
       l_colors root' = l_colors root /\ l_aliases root' = l_aliases root /\
       (forall k, dget k (l_locks root')
                  = if str_eqb (l_filepath l) k then None else dget k (l_locks root)) /\
       (forall j, j <> r -> nth_error (layers s') j = nth_error (layers s) j)).
Proof.
  intros Hok Ha El Er. destruct (store_tables _ _ _ Hok Er) as (_ & _ & H1).
  assert (Hf : length (up ++ [r]) <= length (layers s)) by (apply above_length in Ha; lia).
  unfold set_locked_over. rewrite El, (root_parent_above s i (up ++ [r]) _ Ha Hf).
  rewrite map_app. cbn [map]. rewrite last_last, Er.
  unfold dmem. repeat split.
  - intros ->. reflexivity.
  - intros c -> ->. reflexivity.
  - intros c b -> ->. eexists _, _. split; [reflexivity|]. cbn [layers].
    split; [now rewrite nth_set_nth, PeanoNat.Nat.eqb_refl, Er|]. repeat split.
    + intros k. cbn [with_locks l_locks]. now rewrite dget_ddel.
    + intros j Hj. rewrite nth_set_nth. destruct (PeanoNat.Nat.eqb_spec r j); congruence.
Qed.
Print Assumptions C17_lock_over_clear.
Example C17_lock_over_clear_ex :
  let s0 := call (call ex_store (LockOver 2 (Some true))) (ColorOver 2 (Some (lit "red"))) in
  store_ok s0 /\
  option_map (fun s => map l_locks (layers s)) (set_locked_over (length (layers s0)) s0 2 None)
  = Some (map l_locks (layers ex_store)).
Proof. split; [repeat apply call_ok; apply ex_store_ok|vm_compute; reflexivity]. Qed.

(** Setting a lock override does work: it lands on the root of the chain. *)
Theorem C17_lock_over_set s i l up r root b :
  store_ok s -> above (layers s) i (up ++ [r]) ->
  nth_error (layers s) i = Some l -> nth_error (layers s) r = Some root ->
  exists s' root', set_locked_over (length (layers s)) s i (Some b) = Some s' /\
    nth_error (layers s') r = Some root' /\
    (forall k, dget k (l_locks root')
               = if str_eqb (l_filepath l) k then Some b else dget k (l_locks root)) /\
    (forall j, j <> r -> nth_error (layers s') j = nth_error (layers s) j).
Proof.
  intros Hok Ha El Er. destruct (store_tables _ _ _ Hok Er) as (_ & _ & H1).
  assert (Hf : length (up ++ [r]) <= length (layers s)) by (apply above_length in Ha; lia).
  destruct (set_on_root_effect l_locks with_locks (length (layers s)) s i l up r root (Some b))
    as (s' & root' & A & B & (d & C) & D & E & _); auto.
  exists s', root'. repeat split; auto.
Qed.
Print Assumptions C17_lock_over_set.
