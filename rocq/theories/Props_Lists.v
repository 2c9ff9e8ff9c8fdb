(** Property theorems C13-C15 and C21: child-order merge, sorting by length,
    dirty map, run times. *)

From Coq Require Import String List NArith ZArith Bool Lia Permutation Sorted Relations.
From Verif Require Import PyStr PyStrFacts Dict ListMerger OrderSpec MergeProofs
  SortRows SortProofs DirtyMap DirtySpec DirtyProofs CacheTimes CacheSpec CacheProofs.
Import ListNotations.

(** *** C13 *)

(** Never raises; the result has the base names plus the overlay names that
    are new, nothing lost, invented or duplicated (for any input lists). *)
Theorem C13_merge_permutation :
  forall base overlay, exists m,
  list_merger base overlay = Some m /\
  Permutation m (base ++ filter (fun x => negb (str_in x base)) overlay).
Proof. exact list_merger_perm. Qed.
Print Assumptions C13_merge_permutation.

Theorem C13_merge_no_repeats :
  forall base overlay m, NoDup base -> NoDup overlay ->
  list_merger base overlay = Some m ->
  NoDup m /\ forall x, In x m <-> In x base \/ In x overlay.
Proof.
  intros base overlay m Hb Ho E.
  destruct (list_merger_perm base overlay) as (m' & E' & Hp).
  rewrite E in E'. injection E' as <-. split.
  - exact (NoDup_perm_merge _ _ _ Hb Ho Hp).
  - intros x. split.
    + intros H. apply (Permutation_in _ Hp) in H. apply in_app_or in H as [H|H]; auto.
      apply filter_In in H. tauto.
    + intros H. apply Permutation_sym in Hp. apply (Permutation_in _ Hp).
      apply in_or_app. destruct (in_dec pystr_eq_dec x base) as [Hi|Hi]; auto.
      destruct H as [H|H]; [contradiction|]. right. apply filter_In. split; auto.
      apply negb_true_iff. now apply str_in_false.
Qed.
Print Assumptions C13_merge_no_repeats.

(** The base keeps its order. *)
Theorem C13_base_order_kept :
  forall base overlay m, NoDup base -> NoDup overlay ->
  list_merger base overlay = Some m ->
  filter (fun y => str_in y base) m = base.
Proof. exact list_merger_base_order. Qed.
Print Assumptions C13_base_order_kept.
Example C13_ex :
  list_merger [lit "Node"; lit "Node1"] [lit "Node"; lit "Jack"]
  = Some [lit "Node"; lit "Jack"; lit "Node1"] /\
  list_merger [lit "a"; lit "b"; lit "c"] [lit "c"; lit "x"; lit "a"; lit "y"]
  = Some [lit "a"; lit "x"; lit "b"; lit "y"; lit "c"].
Proof. split; vm_compute; reflexivity. Qed.

Theorem C13_subset_unchanged :
  forall base overlay, (forall x, In x overlay -> In x base) ->
  list_merger base overlay = Some base.
Proof. exact list_merger_subset. Qed.
Print Assumptions C13_subset_unchanged.

Theorem C13_disjoint_appended :
  forall base overlay, NoDup base -> NoDup overlay ->
  (forall x, In x overlay -> ~ In x base) ->
  list_merger base overlay = Some (base ++ overlay).
Proof. exact list_merger_disjoint. Qed.
Print Assumptions C13_disjoint_appended.
Example C13_disjoint_ex :
  list_merger [lit "a"; lit "b"] [lit "x"; lit "y"; lit "z"]
  = Some [lit "a"; lit "b"; lit "x"; lit "y"; lit "z"].
Proof. vm_compute. reflexivity. Qed.

(** An overlay that only inserts names into the base wins as it is. *)
Theorem C13_extension_wins :
  forall base overlay, NoDup overlay -> subseq base overlay ->
  list_merger base overlay = Some overlay.
Proof. exact list_merger_extend. Qed.
Print Assumptions C13_extension_wins.
Example C13_extension_ex :
  subseq [lit "a"; lit "b"] [lit "x"; lit "a"; lit "y"; lit "z"; lit "b"] /\
  list_merger [lit "a"; lit "b"] [lit "x"; lit "a"; lit "y"; lit "z"; lit "b"]
  = Some [lit "x"; lit "a"; lit "y"; lit "z"; lit "b"].
Proof. split; [repeat constructor|vm_compute; reflexivity]. Qed.

(** One new name [x] at index |p| of the overlay: inserted into the base at
    that index, unless the neighbours before it differ and the neighbours
    after it agree, when the index is doubled plus one. *)
Theorem C13_single_new_name :
  forall base p x q, NoDup (p ++ x :: q) -> ~ In x base ->
  (forall y, In y (p ++ q) -> In y base) -> p ++ q <> [] ->
  let i := length p in
  let agree k := match nth_error base k, nth_error (p ++ x :: q) k with
                 | Some a, Some b => str_eqb a b
                 | _, _ => false
                 end in
  let at_ := if Nat.ltb i (length base) && negb (agree (i - 1)) && agree (i + 1)
             then i + (i + 1) else i in
  list_merger base (p ++ x :: q)
  = Some (firstn at_ base ++ x :: skipn at_ base).
Proof.
  intros base p x q Hn Hx Hin Hne i agree at_.
  destruct (list_merger_single base p x q Hn Hx Hin Hne) as (j & Hj & E).
  rewrite E. fold i in Hj. assert (H : j = at_); [|now subst].
  unfold insert_position in Hj. unfold at_.
  destruct (nth_error base i) eqn:En.
  - assert (Hl : Nat.ltb i (length base) = true)
      by (apply PeanoNat.Nat.ltb_lt, nth_error_Some; congruence).
    rewrite Hl. cbn [andb].
    destruct (same_at base (p ++ x :: q) (i - 1)) as [b|] eqn:E1; [|discriminate].
    assert (A1 : agree (i - 1) = b).
    { unfold agree. unfold same_at in E1. destruct (nth_error base (i - 1)); [|discriminate].
      destruct (nth_error (p ++ x :: q) (i - 1)); [|discriminate]. congruence. }
    rewrite A1.
    assert (A2 : agree (i + 1) = match same_at base (p ++ x :: q) (i + 1) with
                                 | Some true => true | _ => false end).
    { unfold agree, same_at. destruct (nth_error base (i + 1)); auto.
      destruct (nth_error (p ++ x :: q) (i + 1)); auto. now destruct (str_eqb p1 p2). }
    rewrite A2.
    destruct b; cbn [negb andb]; [injection Hj; lia|].
    destruct (same_at base (p ++ x :: q) (i + 1)) as [[|]|]; injection Hj; lia.
  - apply nth_error_None in En.
    assert (Hl : Nat.ltb i (length base) = false) by (apply PeanoNat.Nat.ltb_ge; lia).
    rewrite Hl. cbn. congruence.
Qed.
Print Assumptions C13_single_new_name.

(** The overlay's own order is not always kept. *)
Theorem C13_overlay_order_refuted :
  exists base overlay m, NoDup base /\ NoDup overlay /\
  list_merger base overlay = Some m /\
  filter (fun y => str_in y overlay) m <> overlay /\
  (exists x y, base = [x; y] /\ overlay = [y; lit "new"]).
Proof.
  exists [lit "a"; lit "b"], [lit "b"; lit "new"], [lit "a"; lit "new"; lit "b"].
  split; [repeat constructor; cbn; intuition discriminate|].
  split; [repeat constructor; cbn; intuition discriminate|].
  split; [vm_compute; reflexivity|].
  split; [vm_compute; discriminate|]. exists (lit "a"), (lit "b"). auto.
Qed.
Print Assumptions C13_overlay_order_refuted.

(** A new name placed directly before a name that both lists have at the same
    index can land after it. *)
Theorem C13_before_matching_neighbour_refuted :
  list_merger [lit "a"; lit "b"; lit "c"; lit "d"; lit "e"; lit "f"]
              [lit "b"; lit "a"; lit "new"; lit "d"]
  = Some [lit "a"; lit "b"; lit "c"; lit "d"; lit "e"; lit "new"; lit "f"].
Proof. vm_compute. reflexivity. Qed.
Print Assumptions C13_before_matching_neighbour_refuted.

(** *** C14 *)
Theorem C14_stable_sort :
  forall (A : Type) (len : A -> nat) (rows : list A),
  let out := sort_multidimensional_list len rows in
  Permutation out rows /\
  StronglySorted (fun x y => len x <= len y) out /\
  forall n, filter (fun x => Nat.eqb (len x) n) out
            = filter (fun x => Nat.eqb (len x) n) rows.
Proof. intros A len rows. exact (sort_rows_spec len rows). Qed.
Print Assumptions C14_stable_sort.
Example C14_ex :
  sort_multidimensional_list (fun r : nat * list nat => length (snd r))
    [(1, [7;8]); (2, [7]); (3, [5;6]); (4, []); (5, [9])]
  = [(4, []); (2, [7]); (5, [9]); (1, [7;8]); (3, [5;6])].
Proof. vm_compute. reflexivity. Qed.

(** *** C15 *)
Theorem C15_dirties_terminate :
  forall m p fuel, length (concat (map snd m)) < fuel ->
  exists l, get_node_dirties fuel m p = Some l.
Proof. exact dirties_terminate. Qed.
Print Assumptions C15_dirties_terminate.

Theorem C15_dirties_are_the_transitive_dependants :
  forall m p fuel l, get_node_dirties fuel m p = Some l ->
  forall x, In x l <-> clos_trans _ (depends m) p x.
Proof. exact dirties_exact. Qed.
Print Assumptions C15_dirties_are_the_transitive_dependants.

(** Direct dependants come first. *)
Theorem C15_direct_dependants_first :
  forall m p fuel l, get_node_dirties fuel m p = Some l ->
  exists r, l = dget_def p [] m ++ r.
Proof. intros m p fuel l. apply dirty_loop_prefix. Qed.
Print Assumptions C15_direct_dependants_first.

(** The map holds exactly the registered and not forgotten dependencies. *)
Theorem C15_history :
  forall is_world ops, Forall honest ops ->
  forall a b, depends (dirty_history is_world ops) a b <-> known is_world ops a b.
Proof. exact history_depends. Qed.
Print Assumptions C15_history.

Theorem C15_no_repeats :
  forall is_world ops p fuel l,
  get_node_dirties fuel (dirty_history is_world ops) p = Some l -> NoDup l.
Proof. exact dirties_nodup. Qed.
Print Assumptions C15_no_repeats.

Example C15_ex :
  let m := dirty_history (fun s => str_eqb s (lit "/"))
             [Concern false (lit "/c") (lit "/a"); Forget (lit "/d");
              Concern false (lit "/b") (lit "/d"); Concern false (lit "/b") (lit "/c");
              Concern false (lit "/a") (lit "/b"); Concern false (lit "/") (lit "/a")] in
  get_node_dirties 10 m (lit "/a") = Some [lit "/b"; lit "/c"; lit "/a"] /\
  get_node_dirties 10 m (lit "/d") = Some [].
Proof. split; vm_compute; reflexivity. Qed.

(** The docstring promises the queried path as first item; it is only
    reported when it lies on a cycle. *)
Theorem C15_self_first_refuted :
  exists m p l, get_node_dirties 10 m p = Some l /\ hd_error l <> Some p /\ ~ In p l.
Proof.
  exists [(lit "/a", [lit "/b"])], (lit "/a"), [lit "/b"].
  split; [vm_compute; reflexivity|]. split; [vm_compute; discriminate|].
  intros [H|[]]. discriminate H.
Qed.
Print Assumptions C15_self_first_refuted.

(** *** C21 *)

(** The recorded runs of a node pair its n-th enter with its n-th exit. *)
Theorem C21_recorded_runs :
  forall es p,
  map (load (heap (history es))) (dget_def p [] (node_time_map (history es)))
  = runs p es.
Proof. exact history_runs. Qed.
Print Assumptions C21_recorded_runs.

Theorem C21_was_during :
  forall es t, was_during_node_exec (history es) t = true <->
  exists p r, In r (runs p es) /\ in_run t r.
Proof. exact was_during_iff. Qed.
Print Assumptions C21_was_during.

Theorem C21_run_time :
  forall es p i, get_node_run_time (history es) p i =
  match py_index (runs p es) i with
  | None => NoTime
  | Some (_, None) => StillOpen
  | Some (en, Some x) => RunTime (x - en)
  end.
Proof. exact run_time_spec. Qed.
Print Assumptions C21_run_time.

(** An exit raises exactly when there is nothing to close. *)
Theorem C21_exit_key_error :
  forall es p t, set_node_exit_time (history es) p t = KeyErr <-> enters p es = [].
Proof. exact exit_key_error. Qed.
Print Assumptions C21_exit_key_error.

Theorem C21_exit_value_error :
  forall es p t, set_node_exit_time (history es) p t = ValueErr <->
  enters p es <> [] /\ length (exits p es) = length (enters p es).
Proof. exact exit_value_error. Qed.
Print Assumptions C21_exit_value_error.

Example C21_ex :
  let es := [Enter (lit "/a") 1; Enter (lit "/b") 2; Exit (lit "/b") 5;
             Exit (lit "/a") 9; Enter (lit "/b") 12; Exit (lit "/b") 20;
             Enter (lit "/c") 30]%Z in
  runs (lit "/b") es = [(2, Some 5); (12, Some 20)]%Z /\
  get_node_run_time (history es) (lit "/b") (-1) = RunTime 8 /\
  get_node_run_time (history es) (lit "/b") (-2) = RunTime 3 /\
  was_during_node_exec (history es) 10 = false /\
  was_during_node_exec (history es) 40 = true.
Proof. repeat split; vm_compute; reflexivity. Qed.

(** A node that runs inside itself: the exit of the inner run closes the outer
    one, and the finished inner run is reported as still open. *)
Theorem C21_reentrant_refuted :
  let es := [Enter (lit "/a") 1; Enter (lit "/a") 2; Exit (lit "/a") 3]%Z in
  runs (lit "/a") es = [(1, Some 3); (2, None)]%Z /\
  get_node_run_time (history es) (lit "/a") (-1) = StillOpen.
Proof. split; vm_compute; reflexivity. Qed.
Print Assumptions C21_reentrant_refuted.
