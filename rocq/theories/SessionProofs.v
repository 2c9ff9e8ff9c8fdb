(** Proofs about sessions. *)

From Coq Require Import String List NArith ZArith Bool Arith Lia.
From Verif Require Import PyStr PyStrFacts NxtPath PathSpec PathProofs PyVal NodeIO Names NamesSpec NamesProofs Session SessionSpec.
Import ListNotations.

(** *** Unused names *)

Definition called (s : session) (n : pystr) : bool :=
  existsb (fun r => str_eqb n (g_name (snd r))) (loaded s).

Lemma called_false s n : called s n = false <-> free_name s n.
Proof.
  unfold called, free_name. split.
  - intros H uid g I E. assert (existsb (fun r => str_eqb n (g_name (snd r))) (loaded s) = true) as H'.
    { apply existsb_exists. exists (uid, g). split; [exact I|]. cbn. now apply str_eqb_eq. }
    congruence.
  - intros H. destruct (existsb _ (loaded s)) eqn:E; [|reflexivity].
    apply existsb_exists in E as ([uid g] & I & E). cbn in E. apply str_eqb_eq in E.
    exfalso. apply (H uid g I). now symmetry.
Qed.

Lemma called_in s n : called s n = str_in n (map (fun r => g_name (snd r)) (loaded s)).
Proof.
  unfold called. destruct (str_in n (map _ (loaded s))) eqn:E.
  - apply str_in_In in E. apply in_map_iff in E as (r & <- & I). apply existsb_exists.
    exists r. split; [exact I|]. now apply str_eqb_eq.
  - apply str_in_not in E. destruct (existsb _ (loaded s)) eqn:F; [|reflexivity].
    apply existsb_exists in F as (r & I & F). apply str_eqb_eq in F. exfalso. apply E.
    apply in_map_iff. exists r. auto.
Qed.

Lemma loop_done taken name fuel num c t : unused_loop taken name fuel num (c :: t) (c :: t) = Some (c :: t).
Proof. destruct fuel; reflexivity. Qed.

(** Once the candidate is not empty the loop is counting up. *)
Lemma loop_counts taken name fuel : forall num pot,
  pot <> [] -> (forall k, name ++ dec k <> []) ->
  unused_loop taken name (S fuel) num pot [] = count_up taken name fuel num pot.
Proof.
  induction fuel as [|f IH]; intros num pot Hp Hn; cbn [unused_loop count_up].
  - destruct (taken pot); [reflexivity|]. destruct pot; [congruence|reflexivity].
  - destruct (taken pot).
    + apply IH; auto.
    + destruct pot; [congruence|reflexivity].
Qed.

Lemma dec_ne k : dec k <> [].
Proof. destruct (dec_numeral k) as (_ & H & _). exact H. Qed.

Lemma count_up_stable taken base fuel : forall num test r fuel',
  count_up taken base fuel num test = Some r -> fuel <= fuel' ->
  count_up taken base fuel' num test = Some r.
Proof.
  induction fuel as [|f IH]; intros num test r fuel' E L; cbn [count_up] in E.
  - destruct (taken test) eqn:T; [discriminate|]. destruct fuel'; cbn [count_up]; rewrite T; exact E.
  - destruct (taken test) eqn:T.
    + destruct fuel' as [|f']; [lia|]. cbn [count_up]. rewrite T. apply IH; [exact E|lia].
    + destruct fuel'; cbn [count_up]; rewrite T; exact E.
Qed.

Lemma unused_name s name : name <> [] ->
  exists r, (forall fuel, length (loaded s) + 1 < fuel -> get_unused_graph_name s fuel name = Some r) /\
    free_name s r /\ (free_name s name -> r = name) /\
    (~ free_name s name -> first_free (free_name s) name 0 r).
Proof.
  intros Hn. pose (names := map (fun r => g_name (snd r)) (loaded s)).
  assert (Hc : forall k, name ++ dec k <> []) by (intros k E; apply app_eq_nil in E; tauto).
  destruct (count_up_ends names (fun x => x) name (S (length (loaded s))) 0 name) as (r & E).
  - intros a b H. apply app_inv_head in H. now apply dec_inj.
  - unfold names. rewrite map_length. lia.
  - assert (E' : count_up (called s) name (S (length (loaded s))) 0 name = Some r).
    { rewrite <- E. clear E. generalize (S (length (loaded s))), 0, name at 2 4. intros f.
      induction f as [|f IH]; intros num test; cbn [count_up]; rewrite called_in; [reflexivity|].
      fold names. destruct (str_in test names); [apply IH|reflexivity]. }
    exists r. split; [|].
    + intros fuel L. unfold get_unused_graph_name. destruct fuel as [|f]; [lia|].
      change (fun n => existsb (fun r0 => str_eqb n (g_name (snd r0))) (loaded s)) with (called s).
      rewrite loop_counts by auto. apply count_up_stable with (1 := E'). lia.
    + apply count_up_some in E' as (Hf & D). apply called_false in Hf. split; [exact Hf|].
      split.
      * intros F. destruct D as [D|(T & _)]; [exact D|]. apply called_false in F. congruence.
      * intros F. destruct D as [->|(T & k & Hk & -> & Hj)]; [contradiction|].
        exists k, (dec k). split; [exact Hk|]. split; [apply dec_numeral|]. split; [reflexivity|].
        split; [exact Hf|]. intros j e J N. apply numeral_dec in N as ->.
        specialize (Hj j J). intros X. apply called_false in X. congruence.
Qed.

Lemma unused_empty s : free_name s [] -> forall fuel, get_unused_graph_name s fuel [] = None.
Proof.
  intros F fuel. unfold get_unused_graph_name.
  change (fun n => existsb (fun r0 => str_eqb n (g_name (snd r0))) (loaded s)) with (called s).
  apply called_false in F. generalize 0. induction fuel as [|f IH]; intros num; cbn [unused_loop]; [reflexivity|].
  rewrite F. apply IH.
Qed.

(** *** The dict of loaded graphs *)

Lemma put_new k g l : (forall g', ~ In (k, g') l) -> put k g l = l ++ [(k, g)].
Proof.
  induction l as [|[k' g'] l IH]; intros H; cbn; [reflexivity|].
  destruct (Z.eqb_spec k' k) as [->|N].
  - exfalso. apply (H g'). now left.
  - f_equal. apply IH. intros g0 I. apply (H g0). now right.
Qed.

Lemma put_uids k g l : NoDup (map fst l) -> NoDup (map fst (put k g l)).
Proof.
  induction l as [|[k' g'] l IH]; cbn; intros H.
  - constructor; [intros []|constructor].
  - inversion H as [|? ? N D]; subst. destruct (Z.eqb_spec k' k) as [->|Ne]; cbn.
    + constructor; assumption.
    + constructor; [|auto]. intros I. apply N. clear -I Ne.
      induction l as [|[k1 g1] l IH]; cbn in *.
      * destruct I as [E|[]]. congruence.
      * destruct (Z.eqb_spec k1 k); cbn in I.
        -- destruct I as [E|I]; [congruence|now right].
        -- destruct I as [E|I]; [now left|right; auto].
Qed.

Lemma put_in k g l : In (k, g) (put k g l).
Proof.
  induction l as [|[k' g'] l IH]; cbn; [now left|].
  destruct (Z.eqb k' k); [now left|now right].
Qed.

Lemma put_lost k g g' l : NoDup (map fst l) -> In (k, g') (put k g l) -> g' = g.
Proof.
  intros D I. pose proof (put_uids k g l D) as D'. pose proof (put_in k g l) as J.
  revert D' I J. generalize (put k g l). clear. induction l as [|[a x] l IH]; cbn; [tauto|].
  intros D I J. inversion D as [|? ? N D']; subst.
  destruct I as [E|I], J as [F|J].
  - congruence.
  - injection E as -> ->. exfalso. apply N. apply in_map_iff. exists (k, g). auto.
  - injection F as -> ->. exfalso. apply N. apply in_map_iff. exists (k, g'). auto.
  - auto.
Qed.

Lemma in_put k g k' g' l : In (k', g') (put k g l) -> (k' = k /\ g' = g) \/ In (k', g') l.
Proof.
  induction l as [|[a x] l IH]; cbn; [intros [E|[]]; left; split; congruence|].
  destruct (Z.eqb_spec a k) as [->|N]; intros [E|I]; [left; split; congruence| | |].
  - right. now right.
  - right. now left.
  - destruct (IH I) as [J|J]; [now left|right; now right].
Qed.

Lemma stage_of_file_holds f : holds f (stage_of_file f).
Proof.
  unfold holds, stage_of_file. cbn. repeat split; intros; subst;
    try match goal with E : _ = _ |- _ => rewrite E end; reflexivity.
Qed.

Section Paths.
Variable normcase : pystr -> pystr.

Lemma find_unfiled s p : unfiled s p ->
  find (fun r => str_eqb (g_path (snd r)) p) (loaded s) = None.
Proof.
  intros U. destruct (find _ (loaded s)) as [[uid g]|] eqn:E; [|reflexivity].
  apply find_some in E as (I & E). cbn in E. apply str_eqb_eq in E. exfalso. exact (U uid g I E).
Qed.

Lemma find_first s pre uid g post p : loaded s = pre ++ (uid, g) :: post -> g_path g = p ->
  (forall u h, In (u, h) pre -> g_path h <> p) ->
  find (fun r => str_eqb (g_path (snd r)) p) (loaded s) = Some (uid, g).
Proof.
  intros E P H. rewrite E. clear E. induction pre as [|[u h] pre IH]; cbn [app find snd].
  - rewrite P. now replace (str_eqb p p) with true by (symmetry; now apply str_eqb_eq).
  - destruct (str_eqb (g_path h) p) eqn:F.
    + apply str_eqb_eq in F. exfalso. apply (H u h); [now left|exact F].
    + apply IH. intros u' h' I. apply (H u' h'). now right.
Qed.

Lemma get_stage_finds s p f t pre uid g post : loaded s = pre ++ (uid, g) :: post ->
  g_path g = normcase p -> (forall u h, In (u, h) pre -> g_path h <> normcase p) ->
  get_stage normcase s p f t = (Graph uid, s).
Proof. intros E P H. unfold get_stage. now rewrite (find_first s pre uid g post _ E P H). Qed.

Lemma get_stage_loads s p f t : unfiled s (normcase p) ->
  get_stage normcase s p f t = load_file s f t.
Proof. intros U. unfold get_stage. now rewrite find_unfiled. Qed.

(** Which case a get_stage is. *)
Lemma filed_dec s p : unfiled s p \/
  exists pre uid g post, loaded s = pre ++ (uid, g) :: post /\ g_path g = p /\
    (forall u h, In (u, h) pre -> g_path h <> p).
Proof.
  unfold unfiled. induction (loaded s) as [|[u h] l IH].
  - left. intros ? ? [].
  - destruct (str_eqb (g_path h) p) eqn:E.
    + apply str_eqb_eq in E. right. exists [], u, h, l. repeat split; [exact E|]. intros ? ? [].
    + assert (g_path h <> p) as N by (intros F; apply str_eqb_eq in F; congruence).
      destruct IH as [U|(pre & uid & g & post & -> & P & H)].
      * left. intros u' h' [F|I]; [injection F as <- <-; exact N|exact (U _ _ I)].
      * right. exists ((u, h) :: pre), uid, g, post. repeat split; [exact P|].
        intros u' h' [F|I]; [injection F as <- <-; exact N|exact (H _ _ I)].
Qed.

(** *** What servers do to the loaded graphs: nothing. *)

Lemma start_loaded s l b : loaded (snd (start_rpc_server s l b)) = loaded s.
Proof.
  unfold start_rpc_server. destruct (standalone b), (running s), (port_free b); try reflexivity.
  cbn [negb]. destruct (wait_count _ _ _ =? _); reflexivity.
Qed.

Lemma needed_loaded s g b : loaded (snd (start_rpc_if_needed s g b)) = loaded s.
Proof. unfold start_rpc_if_needed. destruct (existsb _ _); [apply start_loaded|reflexivity]. Qed.

Lemma shutdown_loaded s b : loaded (shutdown_rpc_server s b) = loaded s.
Proof. unfold shutdown_rpc_server. destruct (owned s); reflexivity. Qed.

Definition execute (unbuilt remote fails : bool) (b : behaviour) (r : result * session) : result * session :=
  match r with
  | (Graph uid, s) =>
      match graph_at s uid with
      | None => (GraphFailed, s)
      | Some g =>
          match (if remote then start_rpc_server s false b else start_rpc_if_needed s g b) with
          | (Done, s) => if unbuilt then (GraphFailed, s)
                         else (if fails then GraphFailed else Done, shutdown_rpc_server s b)
          | (e, s) => (e, s)
          end
      end
  | (e, s) => (e, s)
  end.

Lemma execute_graph_eq s p f t r e b :
  execute_graph normcase s p f t r e b = execute false r e b (get_stage normcase s p f t).
Proof. reflexivity. Qed.
Lemma execute_nodes_eq s p f t u e b :
  execute_nodes normcase s p f t u e b = execute u false e b (get_stage normcase s p f t).
Proof. reflexivity. Qed.

Lemma execute_loaded u r e b x : loaded (snd (execute u r e b x)) = loaded (snd x).
Proof.
  destruct x as [[uid| | | | | | |] s]; try reflexivity. cbn [execute snd].
  destruct (graph_at s uid) as [g|]; [|reflexivity].
  assert (L : loaded (snd (if r then start_rpc_server s false b else start_rpc_if_needed s g b)) = loaded s).
  { destruct r; [apply start_loaded|apply needed_loaded]. }
  destruct (if r then start_rpc_server s false b else start_rpc_if_needed s g b) as [[| | | | | | |] s'];
    try exact L. cbn in L |- *. destruct u; [exact L|]. cbn. rewrite shutdown_loaded. exact L.
Qed.

(** The calls that open graphs. *)
Lemma step_loads s c f t : loads normcase s c f t ->
  loaded (snd (step normcase s c)) = put t (stage_of_file f) (loaded s).
Proof.
  intros [->|(p & U & [->|[(r & e & b & ->)|(u & e & b & ->)]])]; cbn [step].
  - reflexivity.
  - now rewrite get_stage_loads.
  - rewrite execute_graph_eq, execute_loaded. now rewrite get_stage_loads.
  - rewrite execute_nodes_eq, execute_loaded. now rewrite get_stage_loads.
Qed.

Lemma new_file_eq s fuel t : length (loaded s) + 1 < fuel ->
  new_file s fuel t = Some (Graph t, set_loaded (put t (stage_of_name UNTITLED) (loaded s)) s).
Proof.
  intros L. unfold new_file. destruct (unused_name s UNTITLED) as (r & H & _); [discriminate|].
  rewrite (H fuel L). reflexivity.
Qed.

Lemma step_new s t : step normcase s (NewFile t) =
  (Graph t, set_loaded (put t (stage_of_name UNTITLED) (loaded s)) s).
Proof. cbn [step]. rewrite new_file_eq by lia. reflexivity. Qed.

(** Calls that open a file but leave the loaded graphs alone. *)
Lemma get_stage_loaded s p f t : (forall x, f = Some x -> ~ unfiled s (normcase p)) ->
  loaded (snd (get_stage normcase s p f t)) = loaded s.
Proof.
  intros H. destruct (filed_dec s (normcase p)) as [U|(pre & uid & g & post & E & P & N)].
  - rewrite get_stage_loads by exact U. destruct f as [x|]; [|reflexivity].
    exfalso. exact (H x eq_refl U).
  - now rewrite (get_stage_finds s p f t pre uid g post E P N).
Qed.

(** *** Uids are unique *)

Lemma uids_map fn uid l : map fst (map (fun r : Z * graph => if Z.eqb (fst r) uid then (fst r, fn (snd r)) else r) l) = map fst l.
Proof. induction l as [|[k g] l IH]; cbn; [reflexivity|]. rewrite IH. now destruct (Z.eqb k uid). Qed.

Lemma uids_filter (P : Z * graph -> bool) l : NoDup (map fst l) -> NoDup (map fst (filter P l)).
Proof.
  induction l as [|r l IH]; cbn; intros D; [constructor|]. inversion D as [|? ? N D']; subst.
  destruct (P r); [|auto]. cbn. constructor; [|auto]. intros I. apply N.
  apply in_map_iff in I as (x & E & I). apply filter_In in I as (I & _). apply in_map_iff. eauto.
Qed.

Lemma get_stage_uids s p f t : NoDup (map fst (loaded s)) ->
  NoDup (map fst (loaded (snd (get_stage normcase s p f t)))).
Proof.
  intros D. destruct (filed_dec s (normcase p)) as [U|(pre & uid & g & post & E & P & N)].
  - rewrite get_stage_loads by exact U. destruct f as [x|]; [|exact D]. cbn. now apply put_uids.
  - now rewrite (get_stage_finds s p f t pre uid g post E P N).
Qed.

Lemma step_uids s c : NoDup (map fst (loaded s)) -> NoDup (map fst (loaded (snd (step normcase s c)))).
Proof.
  intros D. destruct c; cbn [step].
  - change (NoDup (map fst (loaded (snd (step normcase s (NewFile t)))))). rewrite step_new. cbn. now apply put_uids.
  - destruct f as [x|]; [cbn; now apply put_uids|exact D].
  - unfold unload_file. destruct (filter _ (loaded s)) eqn:E; [exact D|]. cbn. now apply uids_filter.
  - unfold save_file. destruct (loaded s) eqn:E; cbn; rewrite E; exact D.
  - now apply get_stage_uids.
  - rewrite execute_graph_eq, execute_loaded. now apply get_stage_uids.
  - rewrite execute_nodes_eq, execute_loaded. now apply get_stage_uids.
  - cbn. rewrite uids_map. exact D.
  - cbn. rewrite uids_map. exact D.
  - rewrite start_loaded. exact D.
  - cbn. rewrite shutdown_loaded. exact D.
Qed.

Lemma run_snoc s cs c : run normcase s (cs ++ [c]) = snd (step normcase (run normcase s cs) c).
Proof. unfold run. rewrite fold_left_app. reflexivity. Qed.

Lemma run_uids s cs : NoDup (map fst (loaded s)) -> NoDup (map fst (loaded (run normcase s cs))).
Proof.
  induction cs as [|c cs IH] using rev_ind; intros D; [exact D|].
  rewrite run_snoc. apply step_uids. auto.
Qed.

(** *** No loaded graph has a path of its own *)

Definition all_untitled (s : session) : Prop :=
  forall uid g, In (uid, g) (loaded s) -> g_path g = UNTITLED_PATH.

Lemma put_untitled t g s : g_path g = UNTITLED_PATH -> all_untitled s ->
  forall uid h, In (uid, h) (put t g (loaded s)) -> g_path h = UNTITLED_PATH.
Proof. intros E U uid h I. apply in_put in I as [(_ & ->)|I]; [exact E|exact (U _ _ I)]. Qed.

Lemma get_stage_untitled s p f t : (forall x, f = Some x -> f_own_path x = None) ->
  all_untitled s -> all_untitled (snd (get_stage normcase s p f t)).
Proof.
  intros F U. destruct (filed_dec s (normcase p)) as [N|(pre & uid & g & post & E & P & N)].
  - rewrite get_stage_loads by exact N. destruct f as [x|]; [|exact U].
    intros uid h. cbn [load_file snd set_loaded loaded]. apply put_untitled; [|exact U].
    cbn. now rewrite (F x eq_refl).
  - now rewrite (get_stage_finds s p f t pre uid g post E P N).
Qed.

Lemma untitled_loaded s s' : loaded s' = loaded s -> all_untitled s -> all_untitled s'.
Proof. intros E U uid g I. rewrite E in I. exact (U uid g I). Qed.

Lemma step_untitled s c : pathless c -> all_untitled s -> all_untitled (snd (step normcase s c)).
Proof.
  intros C U. destruct c; cbn [pathless] in C.
  - rewrite step_new. intros uid h. cbn [snd set_loaded loaded]. now apply put_untitled.
  - cbn [step]. destruct f as [x|]; [|exact U]. intros uid h. cbn [load_file snd set_loaded loaded].
    apply put_untitled; [|exact U]. cbn. now rewrite C.
  - cbn [step]. unfold unload_file. destruct (filter _ (loaded s)); [exact U|].
    intros u h I. cbn in I. apply filter_In in I as (I & _). exact (U u h I).
  - cbn [step]. unfold save_file. destruct (loaded s) eqn:E; exact U.
  - cbn [step]. apply get_stage_untitled; [|exact U]. intros x ->. exact C.
  - cbn [step]. rewrite execute_graph_eq. eapply untitled_loaded; [apply execute_loaded|].
    apply get_stage_untitled; [|exact U]. intros x ->. exact C.
  - cbn [step]. rewrite execute_nodes_eq. eapply untitled_loaded; [apply execute_loaded|].
    apply get_stage_untitled; [|exact U]. intros x ->. exact C.
  - cbn [step]. intros u h I. cbn in I. apply in_map_iff in I as ([k g] & E & I). cbn in E.
    destruct (Z.eqb k uid); [|exact (U u h ltac:(now rewrite <- E))].
    injection E as <- <-. cbn. exact (U k g I).
  - destruct C.
  - cbn [step]. eapply untitled_loaded; [apply start_loaded|exact U].
  - cbn [step snd]. eapply untitled_loaded; [apply shutdown_loaded|exact U].
Qed.

Lemma run_untitled s cs : Forall pathless cs -> all_untitled s -> all_untitled (run normcase s cs).
Proof.
  induction cs as [|c cs IH] using rev_ind; intros F U; [exact U|].
  rewrite run_snoc. apply Forall_app in F as (F & C). inversion C; subst. apply step_untitled; auto.
Qed.

(** *** The rpc server *)

Lemma wait_some k fuel : forall count, count < k ->
  wait_count (Some k) fuel count = Nat.min k (count + fuel).
Proof.
  induction fuel as [|f IH]; intros count H; cbn [wait_count]; [lia|].
  destruct (Nat.leb_spec k (S count)); [lia|]. rewrite IH by lia. lia.
Qed.
Lemma wait_none fuel : forall count, wait_count None fuel count = count + fuel.
Proof. induction fuel as [|f IH]; intros count; cbn [wait_count]; [lia|]. rewrite IH. lia. Qed.

Lemma wait_ends a : (wait_count a STARTUP_TIMEOUT 0 =? STARTUP_TIMEOUT) =
  match a with Some k => 5 <=? k | None => true end.
Proof.
  unfold STARTUP_TIMEOUT. destruct a as [k|]; [|now rewrite wait_none].
  destruct k as [|k]; [reflexivity|]. rewrite wait_some by lia.
  destruct (Nat.leb_spec 5 (S k)), (Nat.eqb_spec (Nat.min (S k) (0 + 5)) 5); lia || reflexivity.
Qed.

(** Nobody's server: running and not owned. *)
Definition foreign (s : session) : Prop := owned s = false /\ running s = true.

Lemma start_foreign s l b : foreign s -> foreign (snd (start_rpc_server s l b)).
Proof.
  intros (O & R). unfold start_rpc_server. rewrite R. destruct (standalone b); split; reflexivity.
Qed.
Lemma needed_foreign s g b : foreign s -> foreign (snd (start_rpc_if_needed s g b)).
Proof. unfold start_rpc_if_needed. destruct (existsb _ _); [apply start_foreign|auto]. Qed.
Lemma shutdown_foreign s b : foreign s -> foreign (shutdown_rpc_server s b).
Proof. intros (O & R). unfold shutdown_rpc_server. rewrite O. now split. Qed.
Lemma get_stage_foreign s p f t : foreign s -> foreign (snd (get_stage normcase s p f t)).
Proof.
  intros F. unfold get_stage. destruct (find _ (loaded s)) as [[uid g]|]; [exact F|].
  destruct f; exact F.
Qed.
Lemma execute_foreign u r e b x : foreign (snd x) -> foreign (snd (execute u r e b x)).
Proof.
  destruct x as [[uid| | | | | | |] s]; cbn [snd execute]; auto. intros F.
  destruct (graph_at s uid) as [g|]; [|exact F].
  assert (L : foreign (snd (if r then start_rpc_server s false b else start_rpc_if_needed s g b))).
  { destruct r; [now apply start_foreign|now apply needed_foreign]. }
  destruct (if r then start_rpc_server s false b else start_rpc_if_needed s g b) as [[| | | | | | |] s'];
    try exact L. cbn [snd] in L. destruct u; [exact L|]. cbn [snd]. now apply shutdown_foreign.
Qed.

Lemma step_foreign s c : foreign s -> foreign (snd (step normcase s c)).
Proof.
  intros F. destruct c.
  - rewrite step_new. exact F.
  - cbn [step]. destruct f; exact F.
  - cbn [step]. unfold unload_file. destruct (filter _ (loaded s)); exact F.
  - cbn [step]. unfold save_file. destruct (loaded s); exact F.
  - cbn [step]. now apply get_stage_foreign.
  - cbn [step]. rewrite execute_graph_eq. apply execute_foreign. now apply get_stage_foreign.
  - cbn [step]. rewrite execute_nodes_eq. apply execute_foreign. now apply get_stage_foreign.
  - exact F.
  - exact F.
  - cbn [step]. now apply start_foreign.
  - cbn [step snd]. now apply shutdown_foreign.
Qed.

Lemma run_foreign s cs : foreign s -> foreign (run normcase s cs).
Proof.
  induction cs as [|c cs IH] using rev_ind; intros F; [exact F|].
  rewrite run_snoc. apply step_foreign. auto.
Qed.

(** No server at all. *)
Definition quiet (s : session) : Prop := owned s = false /\ running s = false.

(** Starting in a quiet session either fails and stays quiet, or ends in a
    session that has a server of its own, or does nothing. *)
Lemma start_quiet s l b : prompt b -> quiet s ->
  let r := start_rpc_server s l b in
  (fst r = Done /\ (owned (snd r) = true \/ quiet (snd r))) \/ (fst r <> Done /\ quiet (snd r)).
Proof.
  intros (Ob & A) (O & R). unfold start_rpc_server. rewrite R.
  destruct (standalone b); cbn [negb]; [|left; split; [reflexivity|right; split; reflexivity]].
  destruct (port_free b); cbn [negb]; [|right; split; [discriminate|split; assumption]].
  rewrite wait_ends. destruct (answers b) as [k|] eqn:E.
  - specialize (A k eq_refl). destruct (Nat.leb_spec 5 k); [lia|]. left. split; [reflexivity|]. now left.
  - right. cbn. split; [discriminate|]. split; [exact O|reflexivity].
Qed.

Lemma shutdown_quiet s b : obeys b = true -> owned s = true \/ quiet s -> quiet (shutdown_rpc_server s b).
Proof.
  intros B [O|(O & R)]; unfold shutdown_rpc_server; rewrite O.
  - rewrite B. split; reflexivity.
  - now split.
Qed.

Lemma execute_quiet r e b x : prompt b -> quiet (snd x) -> quiet (snd (execute false r e b x)).
Proof.
  intros B. destruct x as [[uid| | | | | | |] s]; cbn [snd execute]; auto. intros F.
  destruct (graph_at s uid) as [g|]; [|exact F].
  assert (L : let y := (if r then start_rpc_server s false b else start_rpc_if_needed s g b) in
    (fst y = Done /\ (owned (snd y) = true \/ quiet (snd y))) \/ (fst y <> Done /\ quiet (snd y))).
  { destruct r; [now apply start_quiet|]. unfold start_rpc_if_needed.
    destruct (existsb _ _); [now apply start_quiet|]. left. split; [reflexivity|now right]. }
  destruct (if r then start_rpc_server s false b else start_rpc_if_needed s g b) as [y s'].
  cbn [fst snd] in L. destruct L as [(-> & L)|(N & L)].
  - cbn [snd]. apply shutdown_quiet; [apply B|exact L].
  - destruct y; try exact L. congruence.
Qed.

Lemma get_stage_quiet s p f t : quiet s -> quiet (snd (get_stage normcase s p f t)).
Proof.
  intros F. unfold get_stage. destruct (find _ (loaded s)) as [[uid g]|]; [exact F|].
  destruct f; exact F.
Qed.

Lemma step_quiet s c : tame c -> quiet s -> quiet (snd (step normcase s c)).
Proof.
  intros T F. destruct c; cbn [tame] in T.
  - rewrite step_new. exact F.
  - cbn [step]. destruct f; exact F.
  - cbn [step]. unfold unload_file. destruct (filter _ (loaded s)); exact F.
  - cbn [step]. unfold save_file. destruct (loaded s); exact F.
  - cbn [step]. now apply get_stage_quiet.
  - cbn [step]. rewrite execute_graph_eq. apply execute_quiet; [exact T|]. now apply get_stage_quiet.
  - destruct T as (-> & T). cbn [step]. rewrite execute_nodes_eq. apply execute_quiet; [exact T|].
    now apply get_stage_quiet.
  - exact F.
  - exact F.
  - destruct T.
  - cbn [step snd]. unfold shutdown_rpc_server. rewrite (proj1 F). exact F.
Qed.

Lemma run_quiet s cs : Forall tame cs -> quiet s -> quiet (run normcase s cs).
Proof.
  induction cs as [|c cs IH] using rev_ind; intros F U; [exact U|].
  rewrite run_snoc. apply Forall_app in F as (F & C). inversion C; subst. apply step_quiet; auto.
Qed.

(** Which graphs need a server. *)
Lemma needs_iff g : existsb (fun l => str_in REMOTE_PATH l || str_in SUB_GRAPH_PATH l) (g_layers g) = true
  <-> calls_graphs g.
Proof.
  unfold calls_graphs. rewrite existsb_exists. split.
  - intros (l & I & E). exists l. split; [exact I|]. apply orb_true_iff in E as [E|E]; apply str_in_In in E.
    + left. exact E.
    + right. exact E.
  - intros (l & I & E). exists l. split; [exact I|]. apply orb_true_iff.
    destruct E as [E|E]; [left|right]; apply str_in_In; exact E.
Qed.

Lemma graph_at_put s t g : graph_at (set_loaded (put t g (loaded s)) s) t = Some g.
Proof.
  unfold graph_at. cbn [set_loaded loaded]. induction (loaded s) as [|[k h] l IH]; cbn.
  - now rewrite Z.eqb_refl.
  - destruct (Z.eqb_spec k t) as [->|N]; cbn.
    + now rewrite Z.eqb_refl.
    + destruct (Z.eqb_spec k t); [congruence|exact IH].
Qed.

(** *** The verbosity variable *)

Lemma start_quietly s b : verbosity (snd (start_rpc_server s false b)) = verbosity s.
Proof.
  unfold start_rpc_server. destruct (standalone b), (running s), (port_free b); try reflexivity.
  cbn [negb]. destruct (wait_count _ _ _ =? _); cbn; [reflexivity|]. now destruct (verbosity s).
Qed.

Lemma execute_verbosity u r e b x : verbosity (snd (execute u r e b x)) = verbosity (snd x).
Proof.
  destruct x as [[uid| | | | | | |] s]; try reflexivity. cbn [execute snd].
  destruct (graph_at s uid) as [g|]; [|reflexivity].
  assert (L : verbosity (snd (if r then start_rpc_server s false b else start_rpc_if_needed s g b)) = verbosity s).
  { destruct r; [apply start_quietly|]. unfold start_rpc_if_needed.
    destruct (existsb _ _); [apply start_quietly|reflexivity]. }
  destruct (if r then start_rpc_server s false b else start_rpc_if_needed s g b) as [[| | | | | | |] s'];
    try exact L. cbn in L |- *. destruct u; [exact L|]. cbn. unfold shutdown_rpc_server.
  destruct (owned s'); exact L.
Qed.

Lemma get_stage_verbosity s p f t : verbosity (snd (get_stage normcase s p f t)) = verbosity s.
Proof.
  unfold get_stage. destruct (find _ (loaded s)) as [[uid g]|]; [reflexivity|]. now destruct f.
Qed.

Lemma step_verbosity s c : (forall b, c <> StartServer true b) ->
  verbosity (snd (step normcase s c)) = verbosity s.
Proof.
  intros N. destruct c.
  - now rewrite step_new.
  - cbn [step]. now destruct f.
  - cbn [step]. unfold unload_file. now destruct (filter _ (loaded s)).
  - cbn [step]. unfold save_file. now destruct (loaded s).
  - apply get_stage_verbosity.
  - cbn [step]. rewrite execute_graph_eq, execute_verbosity. apply get_stage_verbosity.
  - cbn [step]. rewrite execute_nodes_eq, execute_verbosity. apply get_stage_verbosity.
  - reflexivity.
  - reflexivity.
  - destruct socket_log; [exfalso; exact (N b eq_refl)|]. apply start_quietly.
  - cbn [step snd]. unfold shutdown_rpc_server. now destruct (owned s).
Qed.

End Paths.
