(** C88: adding references to a layer. *)

From Coq Require Import String List NArith ZArith Bool Arith Lia.
From Verif Require Import PyStr PyStrFacts Dict PyVal StageLoad StageLoadSpec StageLoadProofs AddRef.
Import ListNotations.

(** The place an index asks for among [len] references: after the last one when
    nothing is asked or too much, counted from the end when negative. *)
Definition place (idx : option Z) (len n : nat) : Prop :=
  match idx with
  | None => n = len
  | Some i => ((0 <= i <= Z.of_nat len)%Z -> Z.of_nat n = i) /\ ((Z.of_nat len < i)%Z -> n = len) /\
              ((- Z.of_nat len <= i < 0)%Z -> (Z.of_nat n = Z.of_nat len + i)%Z) /\ ((i < - Z.of_nat len)%Z -> n = 0)
  end.
(** What is referenced: the path that is given, or the layer's. *)
Definition meant (c : call) (p : ref) : Prop :=
  (exists q, c_path c = Some q /\ p = Some q) \/ (c_path c = None /\ exists l, c_layer c = Some (l, p)).

(** Layers as made from a file's data, then given references. *)
Inductive reach (saved : list ref) : refs -> Prop :=
| reach_new : reach saved (new_refs saved)
| reach_add r c r' : reach saved r -> add_reference r c = Ok r' -> reach saved r'.

Lemma insert_at {A} (i : Z) (x : A) l : exists n, place (Some i) (length l) n /\ n <= length l /\ insert i x l = firstn n l ++ x :: skipn n l.
Proof.
  unfold insert. destruct (i <? 0)%Z eqn:E; eexists; (split; [|split; [|reflexivity]]).
  - apply Z.ltb_lt in E. repeat split; intros; lia.
  - apply Z.ltb_lt in E. lia.
  - apply Z.ltb_ge in E. repeat split; intros; lia.
  - lia.
Qed.
Lemma insert_map {A B} (f : A -> B) i x l : map f (insert i x l) = insert i (f x) (map f l).
Proof. unfold insert. rewrite map_app, map_length. cbn [map]. now rewrite firstn_map, skipn_map. Qed.
Lemma place_unique idx len n m : place idx len n -> place idx len m -> n = m.
Proof. destruct idx as [i|]; cbn [place]; [|congruence]. intros (A & B & C & D) (A' & B' & C' & D'). destruct (Z_lt_le_dec i 0); [destruct (Z_lt_le_dec i (- Z.of_nat len))|destruct (Z_lt_le_dec (Z.of_nat len) i)]; try (specialize (D ltac:(lia)); specialize (D' ltac:(lia)); lia); try (specialize (C ltac:(lia)); specialize (C' ltac:(lia)); lia); try (specialize (B ltac:(lia)); specialize (B' ltac:(lia)); lia); specialize (A ltac:(lia)); specialize (A' ltac:(lia)); lia. Qed.

(** A call is refused exactly when neither a path nor a layer is given. *)
Theorem C88_refused : forall r c, (add_reference r c = Raise ValueError <-> (c_path c = None \/ c_path c = Some []) /\ c_layer c = None) /\
  (forall e, add_reference r c = Raise e -> e = ValueError).
Proof.
  intros r [p l i]. unfold add_reference. cbn [c_path c_layer c_idx]. destruct p as [[|x p]|], l as [[l real]|]; cbn [truthy]; (split; [split|]); intros; try discriminate; try tauto; try congruence;
  try (destruct H as [[Q|Q] R]; discriminate).
Qed.
Print Assumptions C88_refused.

(** The two lists a layer keeps of its references always agree. *)
Theorem C88_agree : forall saved r, reach saved r -> sub_layer_paths r = get_references r.
Proof.
  intros saved r H. induction H as [|r c r' _ IH E].
  - unfold get_references, new_refs. cbn [sub_layers sub_layer_paths]. rewrite map_map. cbn [fst]. now rewrite map_id.
  - unfold add_reference in E. unfold get_references in *.
    assert (G : exists i p l, r' = {| sub_layer_paths := insert i p (sub_layer_paths r); sub_layers := insert i (p, l) (sub_layers r) |}).
    { destruct (truthy (c_path c)), (c_layer c) as [[l real]|]; try discriminate; injection E as <-; eexists _, _, _; reflexivity. }
    destruct G as (i & p & l & ->). cbn [sub_layer_paths sub_layers]. now rewrite insert_map, IH.
Qed.
Print Assumptions C88_agree.

(** A reference that is added is saved at the place asked for, the others stay
    as they are, in order. *)
Theorem C88_place : forall saved r c r', reach saved r -> add_reference r c = Ok r' -> exists n p,
  place (c_idx c) (length (get_references r)) n /\ n <= length (get_references r) /\ meant c p /\ get_references r' = firstn n (get_references r) ++ p :: skipn n (get_references r).
Proof.
  intros saved r c r' H E. pose proof (C88_agree saved r H) as A. unfold add_reference in E.
  assert (G : exists p l, meant c p /\ r' = let i := match c_idx c with Some i => i | None => Z.of_nat (length (sub_layer_paths r)) end in {| sub_layer_paths := insert i p (sub_layer_paths r); sub_layers := insert i (p, l) (sub_layers r) |}).
  { unfold meant. destruct c as [[[|x q]|] [[l real]|] idx]; cbn [c_path c_layer c_idx truthy] in *; try discriminate; injection E as <-; eexists _, _; (split; [|reflexivity]); eauto. }
  destruct G as (p & l & M & ->). cbv zeta.
  assert (X : forall i, get_references {| sub_layer_paths := insert i p (sub_layer_paths r); sub_layers := insert i (p, l) (sub_layers r) |} = insert i p (get_references r)) by (intros i; unfold get_references; cbn [sub_layers]; apply insert_map).
  rewrite X, A.
  destruct (c_idx c) as [i|].
  - destruct (insert_at i p (get_references r)) as (n & P & L & ->). now exists n, p.
  - destruct (insert_at (Z.of_nat (length (get_references r))) p (get_references r)) as (n & P & L & ->). exists n, p. cbn [place] in *. destruct P as (P & _). specialize (P ltac:(lia)). split; [lia|]. now split.
Qed.
Print Assumptions C88_place.

(** Nothing is lost: what was saved is loaded again. *)
Theorem C88_saved : forall saved r, reach saved r -> Forall (fun p => truthy p = true) (get_references r) -> get_references (new_refs (get_references r)) = get_references r.
Proof.
  intros saved r _ F. unfold new_refs at 1. unfold get_references at 1. cbn [sub_layers]. rewrite map_map. cbn [fst]. rewrite map_id.
  induction F as [|p l T _ IH]; [reflexivity|]. cbn [filter]. rewrite T. now rewrite IH.
Qed.
Print Assumptions C88_saved.

Definition c1 : call := {| c_path := Some (lit "b.nxt"); c_layer := None; c_idx := Some (-1)%Z |}.
Definition c2 : call := {| c_path := None; c_layer := Some (7, Some (lit "/d/c.nxt")); c_idx := None |}.
Example C88_sample : exists r r', add_reference (new_refs [Some (lit "a.nxt"); None; Some (lit "z.nxt")]) c1 = Ok r /\ add_reference r c2 = Ok r' /\
  get_references r' = [Some (lit "a.nxt"); Some (lit "b.nxt"); Some (lit "z.nxt"); Some (lit "/d/c.nxt")] /\ meant c2 (Some (lit "/d/c.nxt")) /\ Forall (fun p => truthy p = true) (get_references r').
Proof. eexists _, _. split; [reflexivity|]. split; [reflexivity|]. split; [reflexivity|]. split; [right; split; [reflexivity|now exists 7]|]. repeat constructor. Qed.

(** ** Opening what was saved *)

Section Opening.
Variables (load : pystr -> pystr -> opened) (dirname : pystr -> pystr).

Definition files_of (x : found) : list fdata := match x with Opened _ t => files t | _ => [] end.

(** A layer that opens with the files [xs] for its references is given one more
    reference and saved in the same folder.  If the new reference leads to the
    files [t], opening gives all the layers as before and those of [t], after
    the layers of the references before the place asked for and before those of
    the others. *)
Theorem C88_opened : forall saved r c r' p d xs t d', reach saved r -> add_reference r c = Ok r' -> meant c (Some p) ->
  brings load dirname (File d xs) -> get_references r = map Some (f_refs d) ->
  arrives load dirname (dirname (f_real d)) (Opened p t) ->
  dirname (f_real d') = dirname (f_real d) -> map Some (f_refs d') = get_references r' ->
  exists n, place (c_idx c) (length xs) n /\ forall fuel st cwd parent, depth (File d xs) < fuel -> depth t < fuel ->
  exists ls, load_from_file load dirname fuel st cwd d' parent = Done ({| lays := lays st ++ ls; order := order st ++ seq (length (lays st)) (length ls) |}, cwd) /\
  map (fun l => (l_real l, l_file l)) ls = map (fun f => (f_real f, f_file f)) (d' :: concat (map files_of (firstn n xs)) ++ files t ++ concat (map files_of (skipn n xs))).
Proof.
  intros saved r c r' p d xs t d' H E M B G Ar Dir S.
  inversion B as [d0 xs0 Px Fx]; subst d0 xs0.
  destruct (C88_place saved r c r' H E) as (n & p' & P & L & M' & R).
  assert (p' = Some p).
  { destruct M as [(q & Mq & Q)|(Mq & l & Q)], M' as [(q' & Mq' & Q')|(Mq' & l' & Q')]; congruence. }
  subst p'. assert (Len : length (get_references r) = length xs) by (rewrite G, map_length, <- Px, map_length; reflexivity). rewrite Len in *.
  exists n. split; [exact P|]. intros fuel st cwd parent D1 D2.
  set (T := File d' (firstn n xs ++ Opened p t :: skipn n xs)).
  assert (BT : brings load dirname T).
  { constructor.
    - assert (Inj : forall a b : list pystr, map Some a = map Some b -> a = b) by (induction a as [|x a IH]; intros [|y b] Q; try discriminate; [reflexivity|injection Q as -> Q; f_equal; now apply IH]).
      apply Inj. rewrite S, R, G, map_app. cbn [map found_path]. rewrite map_app. cbn [map]. now rewrite <- Px, firstn_map, firstn_map, skipn_map, skipn_map.
    - rewrite Dir. rewrite <- (firstn_skipn n xs) in Fx. apply Forall_app in Fx. destruct Fx as [F1 F2]. apply Forall_app. split; [exact F1|]. constructor; [exact Ar|exact F2]. }
  exists (listing (length (lays st)) parent T).
  assert (Dp : depth T <= fuel).
  { cbn [depth] in D1. unfold T. cbn [depth].
    rewrite map_app, list_max_app. cbn [map]. change (list_max (?a :: ?l)) with (Nat.max a (list_max l)).
    rewrite <- (firstn_skipn n xs), map_app, list_max_app in D1. cbn [list_max fold_right] in *. unfold list_max in *. cbn [fold_right] in *. lia. }
  split.
  - pose proof (load_tree load dirname T BT fuel st cwd parent Dp) as Q. cbn [root_of T] in Q. rewrite listing_length. exact Q.
  - rewrite listing_files. unfold T. cbn [files]. rewrite map_app, concat_app. reflexivity.
Qed.

(** A layer that was never saved can be referenced, and the layer saved; but then
    opening fails, as the loader is asked for None (nxt_path.py 30, a TypeError). *)
Theorem C88_unsaved_refuted : forall saved r (l : nat) (path_of : ref -> pystr), (forall p, path_of (Some p) = p) ->
  (forall dir, load dir (path_of None) = Broken TypeError) -> reach saved r -> get_references r = [] ->
  exists r', add_reference r {| c_path := None; c_layer := Some (l, None); c_idx := None |} = Ok r' /\
  forall d fuel st cwd parent, f_refs d = map path_of (get_references r') -> load_from_file load dirname (S fuel) st cwd d parent = Crash TypeError.
Proof.
  intros saved r l path_of _ Br H G. eexists. split; [reflexivity|]. intros d fuel st cwd parent F.
  unfold get_references in *. cbn [sub_layers] in F. destruct (sub_layers r) as [|x t]; [|discriminate].
  assert (E : f_refs d = [path_of None]).
  { rewrite F. unfold insert. cbn [length]. destruct (_ <? 0)%Z; rewrite firstn_nil, skipn_nil; reflexivity. }
  cbn [load_from_file]. rewrite E, Br. reflexivity.
Qed.

(** With an empty path the layer that is given is not referenced: the layer saved
    opens as if nothing had been added. *)
Theorem C88_empty_path_refuted : forall saved r l real idx, reach saved r ->
  exists r', add_reference r {| c_path := Some []; c_layer := Some (l, Some real); c_idx := idx |} = Ok r' /\
  (forall p, In (Some p) (get_references r') -> In (Some p) (get_references r) \/ p = []) /\
  get_references (new_refs (get_references r')) = get_references (new_refs (get_references r)).
Proof.
  intros saved r l real idx H.
  destruct (add_reference r {| c_path := Some []; c_layer := Some (l, Some real); c_idx := idx |}) as [r'|e] eqn:E; [|discriminate]. exists r'. split; [reflexivity|].
  destruct (C88_place saved r _ r' H E) as (n & p & _ & _ & M & R).
  assert (p = Some []) as -> by (destruct M as [(q & Q & ->)|(Q & _)]; [cbn [c_path] in Q; congruence|discriminate]).
  rewrite R. split.
  - intros q I. apply in_app_or in I. rewrite <- (firstn_skipn n (get_references r)). destruct I as [I|[I|I]]; [left; apply in_or_app; now left|right; congruence|left; apply in_or_app; now right].
  - assert (X : forall s, get_references (new_refs s) = filter truthy s) by (intros s; unfold get_references, new_refs; cbn [sub_layers]; rewrite map_map; cbn [fst]; apply map_id).
    rewrite !X. transitivity (filter truthy (firstn n (get_references r) ++ skipn n (get_references r))); [now rewrite !filter_app|now rewrite firstn_skipn].
Qed.
End Opening.
Print Assumptions C88_opened.
Print Assumptions C88_unsaved_refuted.
Print Assumptions C88_empty_path_refuted.

(** A case of [C88_opened]: top.nxt references z.nxt and b.nxt is put before it. *)
Definition leaf (n : pystr) : fdata := {| f_real := lit "/d/" ++ n; f_file := n; f_refs := [] |}.
Definition disk (_ p : pystr) : opened := if str_eqb p (lit "z.nxt") || str_eqb p (lit "b.nxt") then Loaded (leaf p) else Missing.
Definition folder (_ : pystr) : pystr := lit "/d".
Definition top (names : list pystr) : fdata := {| f_real := lit "/d/top.nxt"; f_file := lit "top.nxt"; f_refs := names |}.
Example C88_opened_sample : exists r', let d := top [lit "z.nxt"] in let xs := [Opened (lit "z.nxt") (File (leaf (lit "z.nxt")) [])] in let t := File (leaf (lit "b.nxt")) [] in
  reach [Some (lit "z.nxt")] (new_refs [Some (lit "z.nxt")]) /\ add_reference (new_refs [Some (lit "z.nxt")]) c1 = Ok r' /\ meant c1 (Some (lit "b.nxt")) /\
  brings disk folder (File d xs) /\ arrives disk folder (lit "/d") (Opened (lit "b.nxt") t) /\
  get_references r' = map Some [lit "b.nxt"; lit "z.nxt"] /\
  (exists ls, load_from_file disk folder 3 {| lays := []; order := [] |} [] (top [lit "b.nxt"; lit "z.nxt"]) None = Done ({| lays := ls; order := [0; 1; 2] |}, []) /\ map l_file ls = [lit "top.nxt"; lit "b.nxt"; lit "z.nxt"]).
Proof.
  assert (L : forall n, brings disk folder (File (leaf n) [])) by (intros n; constructor; [reflexivity|constructor]).
  eexists. cbv zeta. split; [constructor|]. split; [reflexivity|]. split; [left; now exists (lit "b.nxt")|]. split.
  - constructor; [reflexivity|]. constructor; [|constructor]. constructor; [reflexivity|apply L].
  - split; [constructor; [reflexivity|apply L]|]. split; [reflexivity|]. eexists. split; reflexivity.
Qed.
