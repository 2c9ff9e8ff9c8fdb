(** Proofs about loading layers. *)

From Coq Require Import String List NArith Bool Arith Lia.
From Verif Require Import PyStr PyStrFacts Dict PyVal StageLoad StageLoadSpec.
Import ListNotations.

Definition on_tree (P : ftree -> Prop) (x : found) : Prop := match x with Opened _ t => P t | _ => True end.
Section Ind.
Variable P : ftree -> Prop.
Hypothesis H : forall d refs, Forall (on_tree P) refs -> P (File d refs).
Fixpoint ftree_ind' (t : ftree) : P t :=
  match t with
  | File d refs => H d refs
      ((fix go (refs : list found) : Forall (on_tree P) refs :=
          match refs with
          | [] => Forall_nil (on_tree P)
          | x :: rest => @Forall_cons found (on_tree P) x rest
              (match x return on_tree P x with
               | Opened _ t => ftree_ind' t | _ => I end) (go rest)
          end) refs)
  end.
End Ind.

Section Files.
Variables (load : pystr -> pystr -> opened) (dirname : pystr -> pystr).
Notation load_from_file := (load_from_file load dirname).
Notation brings := (brings load dirname).
Notation arrives := (arrives load dirname).

(** The inner loop by itself. *)
Section Loop.
Variables (rec : stg -> pystr -> fdata -> option nat -> outcome (stg * pystr)) (me : nat).
Fixpoint ref_loop (l : list pystr) (st : stg) (cwd : pystr) : outcome (stg * pystr) :=
  match l with
  | [] => Done (st, cwd)
  | p :: t =>
      match load cwd p with
      | Nothing => ref_loop t st cwd
      | Missing => ref_loop t (upd_lay st me (forget p)) cwd
      | Broken e => Crash e
      | Loaded d' =>
          match rec st cwd d' (Some me) with
          | Done (st', cwd') => ref_loop t st' cwd'
          | r => r
          end
      end
  end.
End Loop.

Lemma load_unfold f st cwd d parent :
  load_from_file (S f) st cwd d parent =
  match ref_loop (load_from_file f) (length (lays st)) (f_refs d) (push st (new_lay d parent)) (dirname (f_real d)) with
  | Done (st2, _) => Done (st2, cwd)
  | r => r
  end.
Proof. reflexivity. Qed.

Lemma set_lay_mid a x b y : set_lay (a ++ x :: b) (length a) y = a ++ y :: b.
Proof. induction a; cbn; congruence. Qed.
Lemma nth_mid {A} (a : list A) x b : nth_error (a ++ x :: b) (length a) = Some x.
Proof. rewrite nth_error_app2, Nat.sub_diag by lia. reflexivity. Qed.
Lemma upd_mid a x b o f : upd_lay {| lays := a ++ x :: b; order := o |} (length a) f = {| lays := a ++ f x :: b; order := o |}.
Proof. unfold upd_lay. cbn [lays order]. rewrite nth_mid, set_lay_mid. reflexivity. Qed.

(** *** Which references are kept *)

Lemma remove_path_absent p l : ~ In p l -> remove_path p l = l.
Proof.
  induction l as [|x l IH]; intros H; [reflexivity|]. cbn. destruct (str_eqb x p) eqn:E.
  - apply str_eqb_eq in E. subst. destruct H. now left.
  - f_equal. apply IH. intros F. apply H. now right.
Qed.

Lemma fold_remove_keep x : forall ms l, ~ In x ms ->
  fold_left (fun l p => remove_path p l) ms (x :: l) = x :: fold_left (fun l p => remove_path p l) ms l.
Proof.
  induction ms as [|m ms IH]; intros l H; [reflexivity|]. cbn [fold_left remove_path].
  replace (str_eqb x m) with false. 2:{ symmetry. apply str_eqb_neq. intros ->. apply H. now left. }
  apply IH. intros F. apply H. now right.
Qed.

Lemma fold_remove P Q l :
  fold_left (fun l p => remove_path p l) (filter P l) (filter Q l) = filter (fun p => Q p && negb (P p)) l.
Proof.
  induction l as [|x l IH]; [reflexivity|]. cbn [filter].
  destruct (P x) eqn:EP; destruct (Q x) eqn:EQ; cbn [fold_left remove_path negb andb].
  - rewrite str_eqb_refl. exact IH.
  - rewrite remove_path_absent; [exact IH|]. rewrite filter_In. intros (_ & F). congruence.
  - rewrite fold_remove_keep; [now f_equal|]. rewrite filter_In. intros (_ & F). congruence.
  - exact IH.
Qed.

Definition missing (dir p : pystr) : bool := match load dir p with Missing => true | _ => false end.

Lemma arrives_missing dir x : arrives dir x ->
  missing dir (found_path x) = match x with Unopenable _ => true | _ => false end.
Proof. unfold missing. intros H. destruct H as [? ? ? E|? ? E|? ? E]; cbn; rewrite E; reflexivity. Qed.

Lemma kept_paths dir refs : Forall (arrives dir) refs ->
  map found_path (filter kept refs) = filter (fun p => nonempty p && negb (missing dir p)) (map found_path refs).
Proof.
  induction 1 as [|x refs Hx _ IH]; [reflexivity|]. cbn [filter map].
  rewrite (arrives_missing _ _ Hx).
  assert (E : kept x = nonempty (found_path x) && negb match x with Unopenable _ => true | _ => false end).
  { destruct x as [[|]?|?|[|]]; cbn; try reflexivity. now rewrite andb_false_r. }
  rewrite E. destruct (nonempty (found_path x) && _); cbn [map]; now rewrite IH.
Qed.

(** *** The main lemma *)

(** Layers listed below a file, from a position on. *)
Section Below.
Variable me : nat.
Fixpoint below (pos : nat) (refs : list found) : list lay :=
  match refs with
  | [] => []
  | Opened _ t :: rest => listing pos (Some me) t ++ below (pos + size t) rest
  | _ :: rest => below pos rest
  end.
End Below.
Lemma listing_unfold start parent d refs :
  listing start parent (File d refs) =
  {| l_real := f_real d; l_file := f_file d; l_parent := parent;
     l_paths := map found_path (filter kept refs);
     l_subs := map (fun x => (found_path x, None)) (filter kept refs) |} :: below start (S start) refs.
Proof. reflexivity. Qed.

Lemma listing_length t : forall start parent, length (listing start parent t) = size t.
Proof.
  induction t as [d refs IH] using ftree_ind'. intros start parent. rewrite listing_unfold. cbn [length size]. f_equal.
  generalize (S start) as pos. induction IH as [|x refs Hx _ IHr]; intros pos; [reflexivity|].
  destruct x as [p t|p|p]; cbn [below map list_sum]; try apply IHr.
  rewrite app_length, Hx, IHr. reflexivity.
Qed.

Definition refs_size (refs : list found) : nat :=
  list_sum (map (fun x => match x with Opened _ t => size t | _ => 0 end) refs).

(** The layer of the file while its references are being loaded. *)
Definition midway (dir : pystr) (l : lay) (refs : list found) : lay :=
  fold_left (fun l x => if missing dir (found_path x) then forget (found_path x) l else l) refs l.

Lemma loop_spec f me dir : forall refs,
  Forall (arrives dir) refs ->
  Forall (fun x => match x with Opened _ t => forall st cwd parent,
      load_from_file f st cwd (root_of t) parent =
      Done ({| lays := lays st ++ listing (length (lays st)) parent t;
               order := order st ++ seq (length (lays st)) (size t) |}, cwd) | _ => True end) refs ->
  forall a l b o, length a = me ->
  ref_loop (load_from_file f) me (map found_path refs) {| lays := a ++ l :: b; order := o |} dir =
  Done ({| lays := a ++ midway dir l refs :: b ++ below me (S (me + length b)) refs;
           order := o ++ seq (S (me + length b)) (refs_size refs) |}, dir).
Proof.
  intros refs Ha Hr. revert Hr. induction Ha as [|x refs Hx Hrest IH]; intros Hr a l b o Ea.
  { cbn. now rewrite !app_nil_r. }
  inversion Hr as [|? ? Hx' Hr']; subst. specialize (IH Hr').
  assert (Emid : midway dir l (x :: refs) = midway dir (if missing dir (found_path x) then forget (found_path x) l else l) refs) by reflexivity.
  rewrite Emid, (arrives_missing _ _ Hx). clear Emid.
  destruct Hx as [dir p t El Hb|dir p El|dir p El]; cbn [map found_path ref_loop]; rewrite El.
  - rewrite Hx'. cbn [lays order]. 
    rewrite !app_length. cbn [length].
    replace (length a + S (length b)) with (S (length a + length b)) by lia.
    rewrite <- app_assoc. cbn [app]. rewrite (IH a l (b ++ _)) by reflexivity.
    rewrite app_length, listing_length. cbn [below].
    replace (refs_size (Opened p t :: refs)) with (size t + refs_size refs) by reflexivity.
    rewrite seq_app, <- !app_assoc.
    replace (S (length a + (length b + size t))) with (S (length a + length b) + size t) by lia. reflexivity.
  - rewrite upd_mid. apply IH. reflexivity.
  - apply IH. reflexivity.
Qed.

Lemma midway_fields dir : forall refs l, 
  l_real (midway dir l refs) = l_real l /\ l_file (midway dir l refs) = l_file l /\
  l_parent (midway dir l refs) = l_parent l /\
  l_paths (midway dir l refs) = fold_left (fun l p => remove_path p l) (filter (missing dir) (map found_path refs)) (l_paths l) /\
  l_subs (midway dir l refs) = filter (fun e => negb (existsb (fun x => missing dir (found_path x) && str_eqb (fst e) (found_path x)) refs)) (l_subs l).
Proof.
  induction refs as [|x refs IH]; intros l.
  { cbn. repeat split. induction (l_subs l) as [|e s IHs]; cbn; congruence. }
  assert (E : midway dir l (x :: refs) = midway dir (if missing dir (found_path x) then forget (found_path x) l else l) refs) by reflexivity.
  rewrite E. cbn [map filter existsb]. destruct (missing dir (found_path x)); cbn [andb orb].
  - destruct (IH (forget (found_path x) l)) as (-> & -> & -> & -> & ->). cbn [forget l_real l_file l_parent l_paths l_subs fold_left].
    repeat split. induction (l_subs l) as [|e s IHs]; [reflexivity|]. cbn [filter].
    destruct (str_eqb (fst e) (found_path x)); cbn [negb orb]; [exact IHs|]. cbn [filter]. 
    destruct (negb _); [f_equal|]; exact IHs.
  - apply IH.
Qed.

Lemma midway_final d parent refs : map found_path refs = f_refs d -> Forall (arrives (dirname (f_real d))) refs ->
  midway (dirname (f_real d)) (new_lay d parent) refs =
  {| l_real := f_real d; l_file := f_file d; l_parent := parent;
     l_paths := map found_path (filter kept refs);
     l_subs := map (fun x => (found_path x, None)) (filter kept refs) |}.
Proof.
  intros E Ha. destruct (midway_fields (dirname (f_real d)) refs (new_lay d parent)) as (F1 & F2 & F3 & F4 & F5).
  destruct (midway _ _ _) as [r fi pa ps sb]. cbn [l_real l_file l_parent l_paths l_subs new_lay] in *. subst.
  assert (Esub : forall (l : list found), map (fun x => (found_path x, @None nat)) l = map (fun p => (p, None)) (map found_path l)).
  { intros l. now rewrite map_map. }
  rewrite Esub, (kept_paths _ _ Ha), <- E, fold_remove. f_equal.
  set (dir := dirname (f_real d)) in *.
  assert (Hex : forall p, In p (map found_path refs) ->
     existsb (fun x => missing dir (found_path x) && str_eqb p (found_path x)) refs = missing dir p).
  { intros p Hp. destruct (missing dir p) eqn:Em.
    - apply existsb_exists. apply in_map_iff in Hp as (x & <- & Hx). exists x. split; [exact Hx|]. now rewrite Em, str_eqb_refl.
    - destruct (existsb _ refs) eqn:Ex; [|reflexivity]. apply existsb_exists in Ex as (x & Hx & F).
      apply andb_true_iff in F as (F & G). apply str_eqb_eq in G. subst. congruence. }
  clear E Esub. revert Hex. generalize (map found_path refs) as ps.
  induction ps as [|p ps IH]; intros Hg; [reflexivity|].
  assert (Hp := Hg p (or_introl eq_refl)).
  assert (IH' := IH (fun q Hq => Hg q (or_intror Hq))). clear IH.
  cbn [filter map]. rewrite <- Hp.
  destruct (nonempty p); cbn [filter map fst andb]; [|exact IH'].
  destruct (existsb _ refs); cbn [negb map]; [exact IH'|]. now rewrite IH'.
Qed.

Lemma load_tree t : brings t -> forall fuel st cwd parent, depth t <= fuel ->
  load_from_file fuel st cwd (root_of t) parent =
  Done ({| lays := lays st ++ listing (length (lays st)) parent t;
           order := order st ++ seq (length (lays st)) (size t) |}, cwd).
Proof.
  induction t as [d refs IH] using ftree_ind'. intros Hb fuel st cwd parent Hf.
  inversion Hb as [? ? E Ha]; subst. destruct fuel as [|fuel]; [cbn in Hf; lia|].
  cbn [root_of]. rewrite load_unfold. cbn [depth] in Hf. apply le_S_n in Hf.
  unfold push. rewrite <- E. rewrite (loop_spec fuel (length (lays st)) (dirname (f_real d)) refs Ha) with (b := []); [|
    |reflexivity].
  - rewrite midway_final by assumption. cbn [app length]. rewrite Nat.add_0_r, listing_unfold, <- app_assoc. reflexivity.
  - rewrite Forall_forall in *. intros x Hx. specialize (IH x Hx). specialize (Ha x Hx).
    destruct x as [p t|p|p]; try exact I. inversion Ha; subst. intros st' cwd' parent'. apply IH; [assumption|].
    eapply Nat.le_trans; [|exact Hf]. 
    pose proof (proj1 (list_max_le (map (fun x => match x with Opened _ t => depth t | _ => 0 end) refs) _) (le_n _)) as Hm.
    rewrite Forall_forall in Hm. apply Hm. apply in_map_iff. now exists (Opened p t).
Qed.

Lemma listing_files t : forall start parent,
  map (fun l => (l_real l, l_file l)) (listing start parent t) = map (fun d => (f_real d, f_file d)) (files t).
Proof.
  induction t as [d refs IH] using ftree_ind'. intros start parent. rewrite listing_unfold. cbn [map files l_real l_file]. f_equal.
  generalize (S start) as pos. induction IH as [|x refs Hx _ IHr]; intros pos; [reflexivity|].
  destruct x as [p t|p|p]; cbn [below map concat]; try apply IHr.
  rewrite !map_app, Hx, IHr. reflexivity.
Qed.

(** *** Acyclic references form a tree *)

Lemma acyclic_tree d : Acc (refers load dirname) d ->
  (forall d', sound load dirname d') -> exists t, root_of t = d /\ brings t.
Proof.
  intros Hacc Hs. induction Hacc as [d _ IH].
  assert (H : forall ps, incl ps (f_refs d) ->
    exists refs, map found_path refs = ps /\ Forall (arrives (dirname (f_real d))) refs).
  { induction ps as [|p ps IHp]; intros Hi; [exists []; split; [reflexivity|constructor]|].
    destruct IHp as (refs & E & Ha). { intros q Hq. apply Hi. now right. }
    assert (Hp : In p (f_refs d)) by (apply Hi; now left).
    destruct (load (dirname (f_real d)) p) as [d'| | |e] eqn:El.
    - destruct (IH d') as (t & Et & Hb). { exists p. split; [exact Hp|exact El]. }
      exists (Opened p t :: refs). cbn. split; [now rewrite E|]. constructor; [|exact Ha]. constructor; [now rewrite Et|exact Hb].
    - exists (Empty p :: refs). cbn. split; [now rewrite E|]. constructor; [|exact Ha]. now constructor.
    - exists (Unopenable p :: refs). cbn. split; [now rewrite E|]. constructor; [|exact Ha]. now constructor.
    - destruct (Hs d p e Hp El). }
  destruct (H (f_refs d) (incl_refl _)) as (refs & E & Ha). exists (File d refs). split; [reflexivity|]. now constructor.
Qed.

(** *** Cycles *)

Lemma no_crash : (forall dir p e, load dir p <> Broken e) ->
  forall fuel st cwd d parent e, load_from_file fuel st cwd d parent <> Crash e.
Proof.
  intros Hn. induction fuel as [|f IH]; intros st cwd d parent e; [discriminate|]. rewrite load_unfold.
  assert (Hl : forall l st cwd, ref_loop (load_from_file f) (length (lays st)) l st cwd <> Crash e /\
               forall me, ref_loop (load_from_file f) me l st cwd <> Crash e).
  { assert (Hl : forall l me st cwd, ref_loop (load_from_file f) me l st cwd <> Crash e).
    { induction l as [|p l IHl]; intros me st0 cwd0; cbn [ref_loop]; [discriminate|].
      destruct (load cwd0 p) eqn:El; [|apply IHl|apply IHl|destruct (Hn _ _ _ El)].
      destruct (load_from_file f st0 cwd0 d0 (Some me)) as [[st' cwd']|e'|] eqn:Er; [apply IHl| |discriminate].
      intros F. injection F as ->. exact (IH _ _ _ _ _ Er). }
    split; intros; apply Hl. }
  destruct (ref_loop _ _ _ _ _) as [[st2 c2]|e'|] eqn:E; try discriminate.
  intros F. injection F as ->. apply (proj2 (Hl _ _ _) _ E).
Qed.

Lemma cycle_endless (S : fdata -> Prop) :
  (forall dir p e, load dir p <> Broken e) ->
  (forall d, S d -> exists d', S d' /\ refers load dirname d' d) ->
  forall d, S d -> forall fuel st cwd parent, load_from_file fuel st cwd d parent = OutOfFuel.
Proof.
  intros Hn Hc d Hd fuel. revert d Hd. induction fuel as [|f IH]; intros d Hd st cwd parent; [reflexivity|].
  rewrite load_unfold. destruct (Hc d Hd) as (d' & Hd' & p & Hp & El).
  assert (Hl : forall l me st, In p l -> ref_loop (load_from_file f) me l st (dirname (f_real d)) = OutOfFuel).
  { induction l as [|q l IHl]; intros me st0 Hin; [destruct Hin|]. cbn [ref_loop].
    destruct Hin as [->|Hin].
    - rewrite El, (IH d' Hd'). reflexivity.
    - destruct (load (dirname (f_real d)) q) eqn:Eq; [|now apply IHl|now apply IHl|destruct (Hn _ _ _ Eq)].
      destruct (load_from_file f st0 (dirname (f_real d)) d0 (Some me)) as [[st' cwd']|e'|] eqn:Er; [| |reflexivity].
      + assert (cwd' = dirname (f_real d)) as ->.
        { destruct f as [|f']; [discriminate|]. rewrite load_unfold in Er.
          destruct (ref_loop _ _ _ _ _) as [[? ?]| |]; congruence. }
        now apply IHl.
      + destruct (no_crash Hn _ _ _ _ _ _ Er). }
  rewrite (Hl (f_refs d)) by exact Hp. reflexivity.
Qed.
End Files.

(** *** The cycle check *)

Lemma ref_cycle_spec st path : forall up layer, lineage st layer up ->
  forall fuel, length up <= fuel ->
  ref_cycle fuel st layer path = Some (existsb (fun l => str_eqb (l_real l) path) up).
Proof.
  induction up as [|l up IH]; intros layer H fuel Hf; inversion H; subst.
  - destruct fuel; reflexivity.
  - destruct fuel as [|f]; [cbn in Hf; lia|]. cbn [ref_cycle existsb].
    match goal with E : nth_error _ _ = Some _ |- _ => rewrite E end.
    destruct (str_eqb (l_real l) path); [reflexivity|]. cbn [orb]. apply IH; [assumption|cbn in Hf; lia].
Qed.

(** ** Removing a layer *)

Lemma set_lay_length : forall ls i l, length (set_lay ls i l) = length ls.
Proof. induction ls; intros [|i] l; cbn; congruence. Qed.
Lemma set_lay_same : forall ls i l0 l, nth_error ls i = Some l0 -> nth_error (set_lay ls i l) i = Some l.
Proof. induction ls; intros [|i] l0 l H; cbn in *; try discriminate; eauto. Qed.
Lemma set_lay_other : forall ls i l j, j <> i -> nth_error (set_lay ls i l) j = nth_error ls j.
Proof. induction ls; intros [|i] l [|j] H; cbn; try reflexivity; try congruence. apply IHls. congruence. Qed.

Lemma upd_order st i f : order (upd_lay st i f) = order st.
Proof. unfold upd_lay. now destruct (nth_error _ _). Qed.
Lemma upd_length st i f : length (lays (upd_lay st i f)) = length (lays st).
Proof. unfold upd_lay. destruct (nth_error _ _); [apply set_lay_length|reflexivity]. Qed.
Lemma upd_nth st i f j : nth_error (lays (upd_lay st i f)) j =
  if Nat.eqb j i then option_map f (nth_error (lays st) i) else nth_error (lays st) j.
Proof.
  unfold upd_lay. destruct (Nat.eqb_spec j i) as [->|Hn].
  - destruct (nth_error (lays st) i) eqn:E; cbn [lays option_map]; [eapply set_lay_same; eauto|exact E].
  - destruct (nth_error (lays st) i) eqn:E; [now apply set_lay_other|reflexivity].
Qed.

Lemma entry_eqb_eq a b : entry_eqb a b = true <-> a = b.
Proof.
  unfold entry_eqb. destruct a as [p [i|]], b as [q [j|]]; cbn; rewrite andb_true_iff, str_eqb_eq; try rewrite Nat.eqb_eq;
    split; try (intros (? & ?)); try (intros [= ]); subst; try discriminate; auto.
Qed.
Lemma remove_entry_incl e l : incl (remove_entry e l) l.
Proof.
  induction l as [|x l IH]; [apply incl_refl|]. cbn. destruct (entry_eqb x e); intros y Hy; [now right|].
  destruct Hy as [->|Hy]; [now left|right; now apply IH].
Qed.
Lemma remove_entry_length e l : In e l -> S (length (remove_entry e l)) = length l.
Proof.
  induction l as [|x l IH]; intros H; [destruct H|]. cbn. destruct (entry_eqb x e) eqn:E; [reflexivity|].
  cbn. f_equal. apply IH. destruct H as [->|H]; [|exact H].
  assert (entry_eqb e e = true) by (now apply entry_eqb_eq). congruence.
Qed.

(** The entries of one layer in another. *)
Lemma unlink_entries i file : forall l,
  Forall (fun e => snd e <> None) l ->
  fold_res (fun s e => match snd e with
                       | None => Raise KeyError
                       | Some k => Ok (if Nat.eqb k i then remove_entry e s else s)
                       end) (filter (fun e => str_eqb (fst e) file) l) l =
  Ok (filter (fun e => negb (str_eqb (fst e) file && match snd e with Some k => Nat.eqb k i | None => false end)) l).
Proof.
  set (step := fun (s : list (pystr * option nat)) (e : pystr * option nat) => _).
  assert (Hkeep : forall x, (str_eqb (fst x) file && match snd x with Some k => Nat.eqb k i | None => false end) = false ->
    forall m l r, Forall (fun e => snd e <> None) m -> Forall (fun e => str_eqb (fst e) file = true) m ->
    fold_res step m l = Ok r -> fold_res step m (x :: l) = Ok (x :: r)).
  { intros x Hx. induction m as [|e m IH]; intros l r Hs Hf H; cbn [fold_res] in *; [congruence|].
    inversion Hs as [|? ? He Hs']; inversion Hf as [|? ? Hfe Hf']; subst. unfold step in H |- * at 1. 
    destruct (snd e) as [k|] eqn:Ee; [|congruence]. cbn [bind] in H |- *.
    fold step in H |- *. destruct (Nat.eqb k i) eqn:Ek.
    - cbn [remove_entry]. replace (entry_eqb x e) with false; [now apply IH|].
      symmetry. apply not_true_is_false. intros F. apply entry_eqb_eq in F. subst x. rewrite Ee, Hfe, Ek in Hx. discriminate.
    - now apply IH. }
  induction l as [|x l IH]; intros H; [reflexivity|]. inversion H as [|? ? Hx Hl]; subst. specialize (IH Hl).
  cbn [filter]. destruct (str_eqb (fst x) file) eqn:Ef; cbn [andb].
  - cbn [fold_res]. unfold step at 1. destruct (snd x) as [k|] eqn:Ex; [|congruence]. cbn [bind].
    destruct (Nat.eqb k i) eqn:Ek; cbn [negb].
    + cbn [remove_entry]. replace (entry_eqb x x) with true by (symmetry; now apply entry_eqb_eq). exact IH.
    + apply Hkeep; [now rewrite Ef, Ex, Ek| | |exact IH].
      * apply Forall_forall. intros e He. apply filter_In in He as (He & _). rewrite Forall_forall in Hl. now apply Hl.
      * apply Forall_forall. intros e He. now apply filter_In in He as (_ & He).
  - cbn [negb]. apply Hkeep; [now rewrite Ef| | |exact IH].
    + apply Forall_forall. intros e He. apply filter_In in He as (He & _). rewrite Forall_forall in Hl. now apply Hl.
    + apply Forall_forall. intros e He. now apply filter_In in He as (_ & He).
Qed.

Definition pruned (i : nat) (file : pystr) (l : lay) : lay :=
  {| l_real := l_real l; l_file := l_file l; l_parent := l_parent l;
     l_paths := remove_path file (l_paths l);
     l_subs := filter (fun e => negb (str_eqb (fst e) file && match snd e with Some k => Nat.eqb k i | None => false end)) (l_subs l) |}.

Lemma linked_forall st x l : linked st -> nth_error (lays st) x = Some l -> Forall (fun e => snd e <> None) (l_subs l).
Proof. intros H E. apply Forall_forall. intros e He. destruct (H x l e E He) as (j & -> & _). discriminate. Qed.

Lemma unlink_ok st i file j : linked st ->
  unlink st i file j = Ok (if Nat.eqb j i then st else upd_lay st j (pruned i file)).
Proof.
  intros H. unfold unlink. destruct (Nat.eqb j i); [reflexivity|].
  unfold upd_lay at 2. destruct (nth_error (lays st) j) as [l|] eqn:E; [|reflexivity].
  rewrite unlink_entries by (eapply linked_forall; eauto). cbn [bind]. unfold upd_lay. now rewrite E.
Qed.

Lemma linked_pruned st i file j : linked st -> linked (upd_lay st j (pruned i file)).
Proof.
  intros H x l e E He. rewrite upd_length. rewrite upd_nth in E. destruct (Nat.eqb_spec x j) as [->|].
  - destruct (nth_error (lays st) j) as [l0|] eqn:E0; [|discriminate]. cbn in E. injection E as <-.
    cbn in He. apply filter_In in He as (He & _). eapply H; eauto.
  - eapply H; eauto.
Qed.

Lemma unlink_all i file : forall js st, linked st -> NoDup js ->
  exists st', fold_res (fun st j => unlink st i file j) js st = Ok st' /\
    order st' = order st /\ length (lays st') = length (lays st) /\
    forall x l, nth_error (lays st) x = Some l ->
      nth_error (lays st') x = Some (if existsb (Nat.eqb x) js && negb (Nat.eqb x i) then pruned i file l else l).
Proof.
  induction js as [|j js IH]; intros st Hl Hd; cbn [fold_res].
  { exists st. repeat split. intros x l E. cbn. exact E. }
  inversion Hd as [|? ? Hj Hd']; subst. rewrite (unlink_ok _ _ _ _ Hl). cbn [bind].
  destruct (Nat.eqb_spec j i) as [->|Hji].
  - destruct (IH st Hl Hd') as (st' & -> & Eo & El & Hx). exists st'. repeat split; auto.
    intros x l E. rewrite (Hx x l E). cbn [existsb]. destruct (Nat.eqb_spec x i) as [->|]; cbn [orb negb]; [now rewrite !andb_false_r|reflexivity].
  - destruct (IH (upd_lay st j (pruned i file)) (linked_pruned _ _ _ _ Hl) Hd') as (st' & -> & Eo & El & Hx).
    exists st'. rewrite upd_order in Eo. rewrite upd_length in El. repeat split; auto.
    intros x l E. cbn [existsb]. destruct (Nat.eqb_spec x j) as [->|Hxj]; cbn [orb].
    + specialize (Hx j (pruned i file l)). rewrite upd_nth, Nat.eqb_refl, E in Hx. specialize (Hx eq_refl). rewrite Hx.
      replace (existsb (Nat.eqb j) js) with false; cbn [andb].
      * destruct (Nat.eqb_spec j i); [contradiction|reflexivity].
      * symmetry. apply not_true_is_false. intros F. apply existsb_exists in F as (y & Hy & F). apply Nat.eqb_eq in F. now subst.
    + apply Hx. rewrite upd_nth. destruct (Nat.eqb_spec x j); [contradiction|exact E].
Qed.

Lemma filter_length_le' {A} (f : A -> bool) l : length (filter f l) <= length l.
Proof. induction l; cbn; [lia|]. destruct (f a); cbn; lia. Qed.

(** *** What has happened so far *)

Record after (X gone : list nat) (st st' : stg) : Prop := {
  a_order : order st' = filter (fun x => negb (existsb (Nat.eqb x) gone)) (order st);
  a_count : length (lays st') = length (lays st);
  a_same : forall x l, nth_error (lays st) x = Some l ->
    exists l', nth_error (lays st') x = Some l' /\
      l_real l' = l_real l /\ l_file l' = l_file l /\ l_parent l' = l_parent l /\
      incl (l_subs l') (l_subs l) /\ length (l_subs l') <= length (l_subs l) /\
      (In x (order st') -> ~ In x X ->
         l_subs l' = filter (fun e => negb (existsb (entry_of st e) gone)) (l_subs l) /\
         l_paths l' = fold_left (fun ps j => remove_path (file_of st j) ps) gone (l_paths l))
}.

Lemma filter_all {A} (f : A -> bool) l : (forall x, f x = true) -> filter f l = l.
Proof. intros H. induction l as [|x l IH]; cbn; [reflexivity|]. now rewrite H, IH. Qed.

Lemma after_refl X st : after X [] st st.
Proof.
  split; [|reflexivity|].
  - symmetry. now apply filter_all.
  - intros x l E. exists l. repeat split; auto using incl_refl. now rewrite filter_all.
Qed.

Lemma after_files X gone st st' j : after X gone st st' -> file_of st' j = file_of st j.
Proof.
  intros H. unfold file_of. destruct (nth_error (lays st) j) as [l|] eqn:E.
  - destruct (a_same _ _ _ _ H j l E) as (l' & -> & _ & Ef & _). exact Ef.
  - apply nth_error_None in E. rewrite <- (a_count _ _ _ _ H) in E. apply nth_error_None in E. now rewrite E.
Qed.
Lemma after_entry X gone st st' e j : after X gone st st' -> entry_of st' e j = entry_of st e j.
Proof.
  intros H. unfold entry_of. destruct (nth_error (lays st) j) as [l|] eqn:E.
  - destruct (a_same _ _ _ _ H j l E) as (l' & -> & _ & Ef & _). now rewrite Ef.
  - apply nth_error_None in E. rewrite <- (a_count _ _ _ _ H) in E. apply nth_error_None in E. now rewrite E.
Qed.

Lemma filter_filter {A} (f g : A -> bool) l : filter f (filter g l) = filter (fun x => g x && f x) l.
Proof.
  induction l as [|x l IH]; [reflexivity|]. cbn. destruct (g x); cbn; [|exact IH]. destruct (f x); now rewrite IH.
Qed.
Lemma existsb_app' {A} (f : A -> bool) a b : existsb f (a ++ b) = existsb f a || existsb f b.
Proof. induction a; cbn; [reflexivity|]. now rewrite IHa, orb_assoc. Qed.
Lemma existsb_ext' {A} (f g : A -> bool) l : (forall x, f x = g x) -> existsb f l = existsb g l.
Proof. intros H. induction l; cbn; [reflexivity|]. now rewrite H, IHl. Qed.
Lemma fold_left_ext' {A B} (f g : A -> B -> A) l : (forall a b, f a b = g a b) -> forall a, fold_left f l a = fold_left g l a.
Proof. intros H. induction l; intros x; cbn; [reflexivity|]. now rewrite H, IHl. Qed.

Lemma after_trans X Y R1 R2 st st1 st2 : after X R1 st st1 -> after Y R2 st1 st2 -> incl Y X ->
  after X (R1 ++ R2) st st2.
Proof.
  intros H1 H2 HY. split.
  - rewrite (a_order _ _ _ _ H2), (a_order _ _ _ _ H1), filter_filter. apply filter_ext. intros x.
    now rewrite existsb_app', negb_orb.
  - now rewrite (a_count _ _ _ _ H2), (a_count _ _ _ _ H1).
  - intros x l E. destruct (a_same _ _ _ _ H1 x l E) as (l1 & E1 & A1 & A2 & A3 & A4 & A5 & A6).
    destruct (a_same _ _ _ _ H2 x l1 E1) as (l2 & E2 & B1 & B2 & B3 & B4 & B5 & B6).
    exists l2. split; [exact E2|]. split; [congruence|]. split; [congruence|]. split; [congruence|].
    split; [eapply incl_tran; eauto|]. split; [lia|]. intros Hx HX.
    assert (Hx1 : In x (order st1)). { rewrite (a_order _ _ _ _ H2) in Hx. now apply filter_In in Hx. }
    destruct (B6 Hx) as (-> & ->). { intros F. now apply HX, HY. }
    destruct (A6 Hx1 HX) as (-> & ->).
    split.
    + rewrite filter_filter. apply filter_ext. intros e. rewrite existsb_app', negb_orb. f_equal. f_equal.
      apply existsb_ext'. intros j. eapply after_entry; eauto.
    + rewrite fold_left_app. apply fold_left_ext'. intros ps j. now rewrite (after_files _ _ _ _ j H1).
Qed.

Lemma after_linked X R st st' : after X R st st' -> linked st -> linked st'.
Proof.
  intros H Hl x l' e E He. destruct (nth_error (lays st) x) as [l|] eqn:E0.
  - destruct (a_same _ _ _ _ H x l E0) as (l1 & E1 & _ & _ & _ & Hi & _). rewrite E in E1. injection E1 as <-.
    rewrite (a_count _ _ _ _ H). eapply Hl; eauto.
  - apply nth_error_None in E0. rewrite <- (a_count _ _ _ _ H) in E0. apply nth_error_None in E0. congruence.
Qed.

Lemma after_holds X R st st' x j : after X R st st' -> holds st' x j -> holds st x j.
Proof.
  intros H (l' & p & E & He). destruct (nth_error (lays st) x) as [l|] eqn:E0.
  - destruct (a_same _ _ _ _ H x l E0) as (l1 & E1 & _ & _ & _ & Hi & _). rewrite E in E1. injection E1 as <-.
    exists l, p. split; [exact E0|now apply Hi].
  - apply nth_error_None in E0. rewrite <- (a_count _ _ _ _ H) in E0. apply nth_error_None in E0. congruence.
Qed.
Lemma after_under X R st st' x j : after X R st st' -> under st' x j -> under st x j.
Proof. intros H. induction 1; [constructor|]. econstructor; [eapply after_holds; eauto|assumption]. Qed.

Lemma total_le : forall a b, length a = length b ->
  (forall x l, nth_error a x = Some l -> exists l', nth_error b x = Some l' /\ length (l_subs l') <= length (l_subs l)) ->
  list_sum (map (fun l => length (l_subs l)) b) <= list_sum (map (fun l => length (l_subs l)) a).
Proof.
  induction a as [|x a IH]; intros [|y b] E H; cbn in *; try discriminate; [lia|].
  destruct (H 0 x eq_refl) as (l' & E' & Hl). cbn in E'. injection E' as <-.
  assert (list_sum (map (fun l => length (l_subs l)) b) <= list_sum (map (fun l => length (l_subs l)) a)); [|unfold list_sum in *; lia].
  apply IH; [congruence|]. intros z l Hz. exact (H (S z) l Hz).
Qed.
Lemma after_total X R st st' : after X R st st' -> total st' <= total st.
Proof.
  intros H. apply total_le; [symmetry; apply H|]. intros x l E.
  destruct (a_same _ _ _ _ H x l E) as (l' & E' & _ & _ & _ & _ & Hl & _). eauto.
Qed.

Lemma total_cut : forall ls i l l', nth_error ls i = Some l -> S (length (l_subs l')) = length (l_subs l) ->
  S (list_sum (map (fun l => length (l_subs l)) (set_lay ls i l'))) = list_sum (map (fun l => length (l_subs l)) ls).
Proof.
  induction ls as [|x ls IH]; intros [|i] l l' E H; cbn in *; try discriminate.
  - injection E as ->. unfold list_sum in *. lia.
  - specialize (IH i l l' E H). unfold list_sum in *. lia.
Qed.

(** Taking one entry out of the layer that is being removed. *)
Definition cut (st : stg) (i : nat) (e : pystr * option nat) : stg :=
  upd_lay st i (fun l => with_subs l (remove_entry e (l_subs l))).
Lemma cut_after st i e : after [i] [] st (cut st i e).
Proof.
  split.
  - unfold cut. rewrite upd_order. symmetry. now apply filter_all.
  - apply upd_length.
  - intros x l E. unfold cut. rewrite upd_nth. destruct (Nat.eqb_spec x i) as [->|Hn].
    + rewrite E. eexists. split; [reflexivity|]. cbn [with_subs l_real l_file l_parent l_subs l_paths].
      do 3 (split; [reflexivity|]). split; [apply remove_entry_incl|]. split.
      * clear. induction (l_subs l) as [|y s IH]; cbn; [lia|]. destruct (entry_eqb y e); cbn; lia.
      * intros _ F. destruct F. now left.
    + exists l. repeat split; auto using incl_refl. now rewrite filter_all.
Qed.
Lemma cut_total st i e l : nth_error (lays st) i = Some l -> In e (l_subs l) -> S (total (cut st i e)) = total st.
Proof.
  intros E He. unfold cut, upd_lay, total. rewrite E. cbn [lays]. apply total_cut with (l := l); [exact E|].
  cbn. now apply remove_entry_length.
Qed.

Section Inner.
Variables (rec : stg -> nat -> outcome stg) (i : nat).
Fixpoint sub_loop n k (st : stg) : outcome stg :=
  match n with
  | 0 => OutOfFuel
  | S n' =>
      match nth_error (lays st) i with
      | None => Crash IndexError
      | Some l =>
          match nth_error (l_subs l) k with
          | None => Done st
          | Some e =>
              let st1 := upd_lay st i (fun l => with_subs l (remove_entry e (l_subs l))) in
              match snd e with
              | None => sub_loop n' (S k) st1
              | Some j =>
                  match rec st1 j with
                  | Done st2 => sub_loop n' (S k) st2
                  | r => r
                  end
              end
          end
      end
  end.
End Inner.

Lemma remove_unfold f st i :
  remove_sublayer (S f) st i =
  match nth_error (lays st) i with
  | None => Crash IndexError
  | Some l0 =>
      match sub_loop (remove_sublayer f) i (S (length (l_subs l0))) 0 st with
      | Done st1 =>
          match fold_res (fun st j => unlink st i (l_file l0) j) (order st1) st1 with
          | Raise e => Crash e
          | Ok st2 => Done {| lays := lays st2; order := remove_id i (order st2) |}
          end
      | r => r
      end
  end.
Proof. reflexivity. Qed.

Lemma remove_id_filter i : forall l, NoDup l -> remove_id i l = filter (fun x => negb (Nat.eqb x i)) l.
Proof.
  induction 1 as [|x l Hx Hd IH]; [reflexivity|]. cbn. destruct (Nat.eqb_spec x i) as [->|]; cbn; [|now rewrite IH].
  clear IH Hd. induction l as [|y l IH]; [reflexivity|]. cbn. destruct (Nat.eqb_spec y i) as [->|].
  - destruct Hx. now left.
  - cbn. f_equal. apply IH. intros F. apply Hx. now right.
Qed.

Lemma after_drop_exempt i R st st1 st2 : after [i] R st st1 -> after [] [i] st1 st2 -> after [] (R ++ [i]) st st2.
Proof.
  intros H1 H2. pose proof (after_trans [i] [] R [i] st st1 st2 H1 H2 (incl_nil_l _)) as H. split; [apply H|apply H|].
  intros x l E. destruct (a_same _ _ _ _ H x l E) as (l' & E' & A1 & A2 & A3 & A4 & A5 & A6).
  exists l'. repeat (split; [assumption|]). intros Hx _. apply A6; [exact Hx|].
  intros [<-|[]]. rewrite (a_order _ _ _ _ H) in Hx. apply filter_In in Hx as (_ & Hx).
  rewrite existsb_app' in Hx. cbn in Hx. rewrite Nat.eqb_refl, orb_true_r in Hx. discriminate.
Qed.

Lemma remove_main : forall fuel st i, i < length (lays st) -> linked st -> NoDup (order st) -> total st < fuel ->
  exists st' gone, remove_sublayer fuel st i = Done st' /\ after [] gone st st' /\ In i gone /\
    forall j, In j gone -> under st i j.
Proof.
  induction fuel as [|f IH]; intros st i Hi Hl Hd Hf; [lia|].
  rewrite remove_unfold. destruct (nth_error (lays st) i) as [l0|] eqn:E0; [|apply nth_error_None in E0; lia].
  assert (Hloop : forall n k st1 R, after [i] R st st1 -> (forall j, In j R -> under st i j) ->
     (forall l1, nth_error (lays st1) i = Some l1 -> length (l_subs l1) - k < n) ->
     exists st2 R', sub_loop (remove_sublayer f) i n k st1 = Done st2 /\ after [i] R' st st2 /\ forall j, In j R' -> under st i j).
  { induction n as [|n IHn]; intros k st1 R Ha HR Hn;
      destruct (a_same _ _ _ _ Ha i l0 E0) as (l1 & E1 & _ & _ & _ & Hinc & _); specialize (Hn l1 E1); [lia|].
    cbn [sub_loop]. rewrite E1.
    destruct (nth_error (l_subs l1) k) as [e|] eqn:Ek.
    2:{ exists st1, R. auto. }
    assert (Hin : In e (l_subs l1)) by (eapply nth_error_In; eauto).
    assert (Hk : k < length (l_subs l1)) by (apply nth_error_Some; congruence).
    pose proof (after_linked _ _ _ _ Ha Hl) as Hl1.
    destruct (Hl1 i l1 e E1 Hin) as (j & Ej & Hj). rewrite Ej. fold (cut st1 i e).
    pose proof (cut_after st1 i e) as Hc. pose proof (cut_total st1 i e l1 E1 Hin) as Ht.
    pose proof (after_total _ _ _ _ Ha) as Ht1.
    pose proof (after_trans _ _ _ _ _ _ _ Ha Hc (incl_refl _)) as Hac.
    destruct (IH (cut st1 i e) j) as (st2 & R2 & Er & Ha2 & _ & HR2).
    { rewrite (a_count _ _ _ _ Hc). exact Hj. }
    { eapply after_linked; eauto. }
    { rewrite (a_order _ _ _ _ Hac). now apply NoDup_filter. }
    { lia. }
    rewrite Er. apply (IHn (S k) st2 ((R ++ []) ++ R2)).
    - eapply after_trans; [exact Hac|exact Ha2|apply incl_nil_l].
    - intros j' Hj'. rewrite app_nil_r in Hj'. apply in_app_or in Hj' as [Hj'|Hj']; [now apply HR|].
      eapply UStep.
      + exists l0, (fst e). split; [exact E0|]. replace (fst e, Some j) with e by (rewrite <- Ej; now destruct e). now apply Hinc.
      + eapply after_under; [exact Hac|]. now apply HR2.
    - intros l2 E2. assert (Ec : nth_error (lays (cut st1 i e)) i = Some (with_subs l1 (remove_entry e (l_subs l1)))).
      { unfold cut. now rewrite upd_nth, Nat.eqb_refl, E1. }
      destruct (a_same _ _ _ _ Ha2 i _ Ec) as (l2' & E2' & _ & _ & _ & _ & Hlen & _). rewrite E2 in E2'. injection E2' as <-.
      cbn [with_subs l_subs] in Hlen. pose proof (remove_entry_length e (l_subs l1) Hin). lia. }
  destruct (Hloop (S (length (l_subs l0))) 0 st []) as (st1 & R & Er & Ha & HR).
  { apply after_refl. } { intros j []. } { intros l1 E1. rewrite E0 in E1. injection E1 as <-. lia. }
  rewrite Er.
  assert (Hd1 : NoDup (order st1)). { rewrite (a_order _ _ _ _ Ha). now apply NoDup_filter. }
  pose proof (after_linked _ _ _ _ Ha Hl) as Hl1.
  destruct (unlink_all i (l_file l0) (order st1) st1 Hl1 Hd1) as (st2 & E2 & Eo & Ec & Hx). rewrite E2.
  eexists. exists (R ++ [i]). split; [reflexivity|]. split; [|split].
  - eapply after_drop_exempt; [exact Ha|]. split; cbn [lays order].
    + rewrite Eo, remove_id_filter by assumption. apply filter_ext. intros x. cbn. now rewrite orb_false_r.
    + exact Ec.
    + intros x l E. rewrite (Hx x l E). eexists. split; [reflexivity|].
      assert (Ei : file_of st1 i = l_file l0).
      { rewrite (after_files _ _ _ _ i Ha). unfold file_of. now rewrite E0. }
      destruct (existsb (Nat.eqb x) (order st1) && negb (Nat.eqb x i)) eqn:Ex.
      * cbn [pruned l_real l_file l_parent l_subs l_paths]. repeat (split; [reflexivity|]).
        split; [intros y Hy; now apply filter_In in Hy|]. split; [apply filter_length_le'|].
        intros _ _. cbn [fold_left existsb]. rewrite Ei. split; [|reflexivity]. apply filter_ext. intros e. rewrite orb_false_r.
        f_equal. unfold entry_of. unfold file_of in Ei. destruct (nth_error (lays st1) i) as [li|] eqn:Eli; [now rewrite Ei|].
        apply nth_error_None in Eli. rewrite (a_count _ _ _ _ Ha) in Eli. lia.
      * repeat (split; [reflexivity|]). split; [apply incl_refl|]. split; [lia|]. intros Hxo _. exfalso.
        rewrite Eo, remove_id_filter in Hxo by assumption. apply filter_In in Hxo as (Hxo & Hxi). rewrite Hxi, andb_true_r in Ex.
        assert (existsb (Nat.eqb x) (order st1) = true); [|congruence]. apply existsb_exists. exists x. now rewrite Nat.eqb_refl.
  - apply in_or_app. right. now left.
  - intros j Hj. apply in_app_or in Hj as [Hj|[<-|[]]]; [now apply HR|constructor].
Qed.

Lemma after_without gone st st' : after [] gone st st' -> without gone st st'.
Proof.
  intros H. split; [apply H|apply H|]. intros x l E.
  destruct (a_same _ _ _ _ H x l E) as (l' & E' & A1 & A2 & A3 & A4 & A5 & A6).
  exists l'. repeat (split; [assumption|]). intros Hx. apply A6; auto.
Qed.

Lemma remove_general st i fuel : i < length (lays st) -> linked st -> NoDup (order st) -> total st < fuel ->
  exists st' gone, remove_sublayer fuel st i = Done st' /\ without gone st st' /\ In i gone /\ 
    forall j, In j gone -> under st i j.
Proof.
  intros Hi Hl Hd Hf. destruct (remove_main fuel st i Hi Hl Hd Hf) as (st' & gone & H1 & H2 & H3 & H4).
  exists st', gone. auto using after_without.
Qed.

(** *** Layers with at most one reference each *)

Lemma gone_order gone st st' x : after [] gone st st' -> In x gone -> ~ In x (order st').
Proof.
  intros H Hx F. rewrite (a_order _ _ _ _ H) in F. apply filter_In in F as (_ & F).
  assert (existsb (Nat.eqb x) gone = true); [|now rewrite H0 in F]. apply existsb_exists. exists x. now rewrite Nat.eqb_refl.
Qed.

Lemma under_cut st i e k l : nth_error (lays st) i = Some l -> l_subs l = [e] -> snd e = Some k ->
  forall a x, under st a x -> under (cut st i e) a x \/ x = i \/ under (cut st i e) k x.
Proof.
  intros E El Ek a x. induction 1 as [a|a b x (la & p & Ea & Hp) _ IH]; [left; constructor|].
  destruct IH as [IH|IH]; [|now right]. destruct (Nat.eq_dec a i) as [->|Hn].
  - right. right. rewrite E in Ea. injection Ea as <-. rewrite El in Hp. destruct Hp as [->|[]]. cbn in Ek. injection Ek as ->. exact IH.
  - left. eapply UStep; [|exact IH]. exists la, p. split; [|exact Hp]. unfold cut. rewrite upd_nth.
    destruct (Nat.eqb_spec a i); [contradiction|exact Ea].
Qed.

Lemma remove_single : forall fuel st i, i < length (lays st) -> linked st -> NoDup (order st) -> total st < fuel ->
  (forall x l, under st i x -> nth_error (lays st) x = Some l -> length (l_subs l) <= 1) ->
  forall st', remove_sublayer fuel st i = Done st' -> forall j, under st i j -> ~ In j (order st').
Proof.
  induction fuel as [|f IH]; intros st i Hi Hl Hd Hf Hs st' Hst j Hj; [lia|].
  destruct (remove_main _ _ _ Hi Hl Hd Hf) as (st'' & gone & Er & Ha & Hgi & _). rewrite Hst in Er. injection Er as <-.
  destruct (Nat.eq_dec j i) as [->|Hji]; [eapply gone_order; eauto|].
  rewrite remove_unfold in Hst. destruct (nth_error (lays st) i) as [l0|] eqn:E0; [|discriminate].
  assert (Hlen : length (l_subs l0) <= 1) by (eapply Hs; [constructor|exact E0]).
  destruct (l_subs l0) as [|e [|]] eqn:Esub; [| |cbn in Hlen; lia].
  { exfalso. apply Hji. inversion Hj as [|? k ? (l & p & El & Hp)]; subst; [reflexivity|].
    rewrite E0 in El. injection El as <-. rewrite Esub in Hp. destruct Hp. }
  assert (Hin : In e (l_subs l0)) by (rewrite Esub; now left).
  destruct (Hl i l0 e E0 Hin) as (k & Ek & Hk).
  cbn [sub_loop length] in Hst. rewrite E0 in Hst. rewrite Esub in Hst. cbn [nth_error] in Hst. rewrite Ek in Hst. fold (cut st i e) in Hst.
  pose proof (cut_after st i e) as Hc. pose proof (cut_total st i e l0 E0 Hin) as Ht.
  assert (Hk' : k < length (lays (cut st i e))) by (rewrite (a_count _ _ _ _ Hc); exact Hk).
  assert (Hlc : linked (cut st i e)) by (eapply after_linked; eauto).
  assert (Hdc : NoDup (order (cut st i e))) by (rewrite (a_order _ _ _ _ Hc); now apply NoDup_filter).
  assert (Hfc : total (cut st i e) < f) by lia.
  destruct (remove_main f _ k Hk' Hlc Hdc Hfc) as (st2 & R & E2 & Ha2 & _ & _). rewrite E2 in Hst.
  assert (Hik : holds st i k).
  { exists l0, (fst e). split; [exact E0|]. replace (fst e, Some k) with e by (rewrite <- Ek; now destruct e). exact Hin. }
  assert (Hno : ~ In j (order st2)).
  { apply (IH _ k Hk' Hlc Hdc Hfc) with (st' := st2); [|exact E2|].
    - intros x l Hx El. destruct (nth_error (lays st) x) as [l1|] eqn:E1.
      + destruct (a_same _ _ _ _ Hc x l1 E1) as (l2 & El2 & _ & _ & _ & _ & Hle & _). rewrite El in El2. injection El2 as <-.
        assert (length (l_subs l1) <= 1); [|lia]. apply (Hs x); [|exact E1]. eapply UStep; [exact Hik|]. eapply after_under; eauto.
      + apply nth_error_None in E1. rewrite <- (a_count _ _ _ _ Hc) in E1. apply nth_error_None in E1. congruence.
    - destruct (under_cut _ _ _ _ _ E0 Esub Ek _ _ Hj) as [F|[F|F]]; [|contradiction|exact F].
      inversion F as [|? k' ? (l & p & El & Hp) F']; subst; [contradiction|].
      unfold cut in El. rewrite upd_nth, Nat.eqb_refl, E0 in El. cbn in El. injection El as <-. cbn in Hp.
      rewrite Esub in Hp. cbn in Hp. replace (entry_eqb e e) with true in Hp by (symmetry; now apply entry_eqb_eq). destruct Hp. }
  assert (Ec : nth_error (lays (cut st i e)) i = Some (with_subs l0 [])).
  { unfold cut. rewrite upd_nth, Nat.eqb_refl, E0. cbn. rewrite Esub. cbn. replace (entry_eqb e e) with true by (symmetry; now apply entry_eqb_eq). reflexivity. }
  destruct (a_same _ _ _ _ Ha2 i _ Ec) as (l2 & El2 & _ & _ & _ & Hinc & _). rewrite El2 in Hst.
  assert (l_subs l2 = []) as E3. { cbn in Hinc. destruct (l_subs l2) as [|y ?]; [reflexivity|]. destruct (Hinc y). now left. }
  rewrite E3 in Hst. cbn [nth_error] in Hst.
  pose proof (after_linked _ _ _ _ Ha2 Hlc) as Hl2.
  assert (Hd2 : NoDup (order st2)) by (rewrite (a_order _ _ _ _ Ha2); now apply NoDup_filter).
  destruct (unlink_all i (l_file l0) (order st2) st2 Hl2 Hd2) as (st3 & E4 & Eo & _ & _). rewrite E4 in Hst. injection Hst as <-.
  cbn [order]. rewrite Eo, remove_id_filter by assumption. intros F. apply filter_In in F as (F & _). contradiction.
Qed.

(** *** Several references without references of their own *)

Lemma remove_entry_mid e : forall a b, ~ In e a -> remove_entry e (a ++ e :: b) = a ++ b.
Proof.
  induction a as [|x a IH]; intros b H; cbn.
  - now rewrite (proj2 (entry_eqb_eq e e) eq_refl).
  - replace (entry_eqb x e) with false.
    + f_equal. apply IH. intros F. apply H. now right.
    + symmetry. apply not_true_is_false. intros F. apply entry_eqb_eq in F. apply H. now left.
Qed.

Lemma under_leaf st j l x : nth_error (lays st) j = Some l -> l_subs l = [] -> under st j x -> x = j.
Proof.
  intros E El H. inversion H as [|? k ? (l' & p & E' & Hp)]; subst; [reflexivity|]. rewrite E in E'. injection E' as <-.
  rewrite El in Hp. destruct Hp.
Qed.

Lemma leaf_after X R st st' i e : after X R st st' -> leaf_entry st i e -> leaf_entry st' i e.
Proof.
  intros H (j & l & Ej & Hn & El & Es). destruct (a_same _ _ _ _ H j l El) as (l' & E' & _ & _ & _ & Hi & _).
  exists j, l'. repeat split; auto. rewrite Es in Hi. destruct (l_subs l') as [|y ?]; [reflexivity|]. destruct (Hi y). now left.
Qed.

Lemma leaf_loop f i : forall n rest kept st l1, linked st -> NoDup (order st) -> total st <= f ->
  In i (order st) -> nth_error (lays st) i = Some l1 -> l_subs l1 = kept ++ rest ->
  NoDup (map snd (kept ++ rest)) -> Forall (leaf_entry st i) rest -> length rest < n ->
  exists st2, sub_loop (remove_sublayer f) i n (length kept) st = Done st2 /\ linked st2 /\
    order st2 = filter (fun x => negb (existsb (Nat.eqb x) (ids_of (every_other rest)))) (order st).
Proof.
  induction n as [n IHn] using lt_wf_ind. intros rest kept st l1 Hl Hd Hf Hi E1 Es Hnd Hleaf Hn.
  destruct n as [|n]; [lia|]. cbn [sub_loop]. rewrite E1, Es.
  destruct rest as [|e rest].
  { rewrite app_nil_r. replace (nth_error kept (length kept)) with (@None (pystr * option nat)) by (symmetry; now apply nth_error_None).
    exists st. repeat split; auto. symmetry. now apply filter_all. }
  rewrite nth_error_app2, Nat.sub_diag by lia. cbn [nth_error].
  inversion Hleaf as [|? ? He Hrest]; subst. destruct He as (j & lj & Ej & Hji & Elj & Esj). rewrite Ej. fold (cut st i e).
  assert (Hin : In e (l_subs l1)) by (rewrite Es; apply in_or_app; right; now left).
  pose proof (cut_after st i e) as Hc. pose proof (cut_total st i e l1 E1 Hin) as Ht.
  assert (Elc : nth_error (lays (cut st i e)) j = Some lj).
  { unfold cut. rewrite upd_nth. destruct (Nat.eqb_spec j i); [contradiction|exact Elj]. }
  assert (Hjc : j < length (lays (cut st i e))) by (apply nth_error_Some; congruence).
  assert (Hlc : linked (cut st i e)) by (eapply after_linked; eauto).
  assert (Hoc : order (cut st i e) = order st) by (unfold cut; apply upd_order).
  assert (Hdc : NoDup (order (cut st i e))) by (now rewrite Hoc).
  destruct (remove_main f (cut st i e) j Hjc Hlc Hdc ltac:(lia)) as (st2 & gone & Er & Ha2 & Hgj & Hgone). rewrite Er.
  assert (Hg : forall x, In x gone -> x = j). { intros x Hx. eapply under_leaf; [exact Elc|exact Esj|]. now apply Hgone. }
  assert (Hex : forall x, existsb (Nat.eqb x) gone = Nat.eqb x j).
  { intros x. destruct (Nat.eqb_spec x j) as [->|Hx].
    - apply existsb_exists. exists j. now rewrite Nat.eqb_refl.
    - apply not_true_is_false. intros F. apply existsb_exists in F as (y & Hy & F). apply Nat.eqb_eq in F. subst. now apply Hx, Hg. }
  assert (Ho2 : order st2 = filter (fun x => negb (Nat.eqb x j)) (order st)).
  { rewrite (a_order _ _ _ _ Ha2), Hoc. apply filter_ext. intros x. now rewrite Hex. }
  assert (Hi2 : In i (order st2)).
  { rewrite Ho2. apply filter_In. split; [exact Hi|]. destruct (Nat.eqb_spec i j); [congruence|reflexivity]. }
  assert (Hek : ~ In e kept).
  { intros F. rewrite map_app in Hnd. cbn in Hnd. apply NoDup_remove_2 in Hnd. apply Hnd. apply in_or_app. left. now apply in_map. }
  assert (Ec : nth_error (lays (cut st i e)) i = Some (with_subs l1 (kept ++ rest))).
  { unfold cut. rewrite upd_nth, Nat.eqb_refl, E1. cbn. now rewrite Es, remove_entry_mid. }
  destruct (a_same _ _ _ _ Ha2 i _ Ec) as (l2 & E2 & _ & _ & _ & _ & _ & Hsub).
  destruct (Hsub Hi2 ltac:(now intros [])) as (Es2 & _). cbn [with_subs l_subs] in Es2.
  assert (Es2' : l_subs l2 = kept ++ rest).
  { rewrite Es2. clear - Hnd Hg Ej. rewrite map_app in Hnd. cbn in Hnd. apply NoDup_remove_2 in Hnd. rewrite <- map_app in Hnd.
    revert Hnd. generalize (kept ++ rest) as es. induction es as [|x es IH]; intros Hnd; [reflexivity|]. cbn [filter].
    replace (existsb _ gone) with false.
    - cbn [negb]. f_equal. apply IH. intros F. apply Hnd. now right.
    - symmetry. apply not_true_is_false. intros F. apply existsb_exists in F as (y & Hy & F). apply Hg in Hy. subst y.
      apply Hnd. left. unfold entry_of in F. destruct (nth_error _ j); [|discriminate]. apply andb_true_iff in F as (_ & F).
      destruct (snd x) as [k|]; [|discriminate]. apply Nat.eqb_eq in F. congruence. }
  assert (Hl2 : linked st2) by (eapply after_linked; eauto).
  assert (Hd2 : NoDup (order st2)) by (rewrite Ho2; now apply NoDup_filter).
  pose proof (after_total _ _ _ _ Ha2) as Ht2.
  assert (Hids : ids_of [e] = [j]) by (unfold ids_of; cbn; now rewrite Ej).
  assert (Hnd' : NoDup (map snd (kept ++ rest))).
  { rewrite map_app in Hnd |- *. cbn in Hnd. now apply NoDup_remove_1 in Hnd. }
  destruct rest as [|x rest].
  - exists st2. split.
    + destruct n as [|n]; [cbn in Hn; lia|]. cbn [sub_loop]. rewrite E2, Es2', app_nil_r.
      replace (nth_error kept (S (length kept))) with (@None (pystr * option nat)) by (symmetry; apply nth_error_None; lia). reflexivity.
    + split; [exact Hl2|]. cbn [every_other]. rewrite Hids, Ho2. apply filter_ext. intros y. cbn. now rewrite orb_false_r.
  - inversion Hrest as [|? ? Hx Hrest']; subst.
    assert (Hleaf2 : Forall (leaf_entry st2 i) rest).
    { apply Forall_forall. intros y Hy. rewrite Forall_forall in Hrest'. eapply leaf_after; [exact Ha2|]. eapply leaf_after; [exact Hc|]. now apply Hrest'. }
    destruct (IHn n ltac:(lia) rest (kept ++ [x]) st2 l2) as (st3 & E3 & Hl3 & Ho3); auto.
    + lia.
    + now rewrite <- app_assoc.
    + now rewrite <- app_assoc.
    + cbn in Hn. lia.
    + rewrite app_length in E3. cbn [length] in E3. rewrite Nat.add_1_r in E3. exists st3. split; [exact E3|]. split; [exact Hl3|].
      rewrite Ho3, Ho2, filter_filter. apply filter_ext. intros y. cbn [every_other].
      replace (ids_of (e :: every_other rest)) with (j :: ids_of (every_other rest)).
      * cbn [existsb]. now rewrite negb_orb.
      * unfold ids_of. cbn. now rewrite Ej.
Qed.

Lemma remove_leaves fuel st i l0 : linked st -> NoDup (order st) -> total st < fuel -> In i (order st) ->
  nth_error (lays st) i = Some l0 -> NoDup (map snd (l_subs l0)) -> Forall (leaf_entry st i) (l_subs l0) ->
  exists st', remove_sublayer fuel st i = Done st' /\
    order st' = filter (fun x => negb (existsb (Nat.eqb x) (i :: ids_of (every_other (l_subs l0))))) (order st).
Proof.
  intros Hl Hd Hf Hi E0 Hnd Hleaf. destruct fuel as [|f]; [lia|]. rewrite remove_unfold, E0.
  destruct (leaf_loop f i (S (length (l_subs l0))) (l_subs l0) [] st l0) as (st1 & E1 & Hl1 & Ho1); auto; try lia.
  change (length (@nil (pystr * option nat))) with 0 in E1. rewrite E1.
  assert (Hd1 : NoDup (order st1)) by (rewrite Ho1; now apply NoDup_filter).
  destruct (unlink_all i (l_file l0) (order st1) st1 Hl1 Hd1) as (st2 & E2 & Eo & _ & _). rewrite E2.
  eexists. split; [reflexivity|]. cbn [order]. rewrite Eo, remove_id_filter, Ho1, filter_filter by assumption.
  apply filter_ext. intros x. cbn [existsb]. rewrite negb_orb. apply andb_comm.
Qed.
