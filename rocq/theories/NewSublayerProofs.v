(** Proofs about adding a layer to a stage. *)

From Coq Require Import String List NArith Bool Arith Lia.
From Verif Require Import PyStr PyStrFacts Dict DictFacts PyVal StageLoad StageLoadSpec StageLoadProofs NewSublayer NewSublayerSpec.
From Verif Require MergeProofs.
Import ListNotations.

(** *** The loops of the specification by themselves *)
Section Dgo.
Variable me : nat.
Fixpoint dgo (pos : nat) (refs : list found) : list lay :=
  match refs with
  | [] => []
  | Opened _ t :: rest => described pos (Some me) t ++ dgo (pos + size t) rest
  | _ :: rest => dgo pos rest
  end.
End Dgo.
Fixpoint sgo (pos : nat) (refs : list found) : list nat :=
  match refs with
  | [] => []
  | Opened _ t :: rest => sgo (pos + size t) rest ++ stacked pos t
  | _ :: rest => sgo pos rest
  end.
Fixpoint bgo (pos : nat) (refs : list found) : list nat :=
  match refs with
  | [] => []
  | Opened _ t :: rest => bottom_up pos t ++ bgo (pos + size t) rest
  | _ :: rest => bgo pos rest
  end.
Definition head_lay (d : fdata) (parent : option nat) (refs : list found) (es : list (pystr * option nat)) : lay :=
  {| l_real := f_real d; l_file := f_file d; l_parent := parent; l_paths := map found_path refs; l_subs := es |}.
Lemma described_unfold start parent d refs : described start parent (File d refs) = head_lay d parent refs (numbered (S start) refs) :: dgo start (S start) refs.
Proof. reflexivity. Qed.
Lemma stacked_unfold start d refs : stacked start (File d refs) = start :: sgo (S start) refs.
Proof. reflexivity. Qed.
Lemma bottom_unfold start d refs : bottom_up start (File d refs) = bgo (S start) refs ++ [start].
Proof. reflexivity. Qed.
Fixpoint plain_refs (refs : list found) : Prop :=
  match refs with [] => True | Opened p t :: rest => p <> [] /\ plain t /\ plain_refs rest | _ :: _ => False end.
Lemma plain_unfold d refs : plain (File d refs) = (NoDup (map found_path refs) /\ plain_refs refs).
Proof. reflexivity. Qed.

Lemma described_length t : forall start parent, length (described start parent t) = size t.
Proof.
  induction t as [d refs IH] using ftree_ind'. intros start parent. rewrite described_unfold. cbn [length size]. f_equal. generalize (S start) at 1. clear parent. revert IH.
  induction refs as [|x refs IHr]; intros IH pos; [reflexivity|]. inversion IH as [|? ? Hx Hr]; subst. destruct x as [p t|p|p]; cbn [dgo map]; rewrite ?app_length.
  - rewrite (Hx pos (Some start)), IHr by exact Hr. reflexivity.
  - rewrite IHr by exact Hr. reflexivity.
  - rewrite IHr by exact Hr. reflexivity.
Qed.

Lemma set_lay_app a b p v : p < length a -> set_lay (a ++ b) p v = set_lay a p v ++ b.
Proof. revert p. induction a as [|x a IH]; intros p L; [cbn in L; lia|]. destruct p; [reflexivity|]. cbn. f_equal. apply IH. cbn in L. lia. Qed.
Lemma set_lay_length a p v : length (set_lay a p v) = length a.
Proof. revert p. induction a as [|x a IH]; intros p; [reflexivity|]. destruct p; [reflexivity|]. cbn. now rewrite IH. Qed.
Lemma fill_mid p i E R : ~ In p (map fst E) -> fill_entry p i (E ++ (p, None) :: R) = E ++ (p, Some i) :: R.
Proof.
  induction E as [|e E IH]; intros N; cbn [app fill_entry fst]; [now rewrite str_eqb_refl|]. destruct (str_eqb (fst e) p) eqn:Q; [apply str_eqb_eq in Q; destruct N; now left|].
  f_equal. apply IH. intros I. apply N. now right.
Qed.
Lemma set_lay_same a p x : nth_error a p = Some x -> set_lay a p x = a.
Proof. revert p. induction a as [|y a IH]; intros p E; [reflexivity|]. destruct p; cbn in *; [congruence|]. f_equal. now apply IH. Qed.

Section Files.
Variables (expand : pystr -> pystr -> pystr) (read : pystr -> opened) (dirname : pystr -> pystr).
Notation new_sublayer := (new_sublayer expand read dirname).
Notation open_ref := (open_ref expand read).
Notation brings := (brings open_ref dirname).
Notation arrives := (arrives open_ref dirname).

Section Loop.
Variables (rec : stg -> fdata -> option nat -> nat -> outcome (stg * list nat)) (me idx : nat) (dir : pystr).
Fixpoint ref_loop (ks : list nat) (st : stg) (saved : list nat) : outcome (stg * list nat) :=
  match ks with
  | [] => Done (st, saved)
  | k :: ks' =>
      match nth_error (lays st) me with
      | None => Crash IndexError
      | Some l =>
          match nth_error (l_subs l) k with
          | Some (p, None) =>
              match open_ref dir p with
              | Loaded d' =>
                  match rec st d' (Some me) (S idx) with
                  | Done (st', more) => ref_loop ks' st' (saved ++ more)
                  | r => r
                  end
              | Nothing => Crash TypeError
              | Missing => Crash IOError
              | Broken e => Crash e
              end
          | _ => ref_loop ks' st saved
          end
      end
  end.
End Loop.

Lemma new_unfold f st d parent idx :
  new_sublayer (S f) st d parent idx =
  let me := length (lays st) in
  let st1 := {| lays := lays st ++ [new_lay d parent]; order := insert_at idx me (order st) |} in
  let st2 := match parent with
             | Some p => upd_lay st1 p (link_child (f_file d) me)
             | None => fold_left (adopt me (above idx (order st1))) (skipn (S idx) (order st1)) st1
             end in
  let n := match nth_error (lays st2) me with Some l => length (l_subs l) | None => 0 end in
  match ref_loop (new_sublayer f) me idx (dirname (f_real d)) (seq 0 n) st2 [] with
  | Done (st3, saved) => Done (st3, saved ++ [me])
  | r => r
  end.
Proof. reflexivity. Qed.

Lemma arrives_file dir p t : arrives dir (Opened p t) -> open_ref dir p = Loaded (root_of t) /\ f_file (root_of t) = p /\ brings t.
Proof.
  intros A. inversion A as [? ? ? E B| |]; subst. split; [exact E|]. split; [|exact B]. unfold NewSublayer.open_ref in E. destruct (read (expand p dir)); try discriminate. injection E as E. rewrite <- E. reflexivity.
Qed.

(** What adding the files of a tree below a layer does. *)
Definition adds (fuel : nat) (t : ftree) : Prop :=
  forall st p pl idx, nth_error (lays st) p = Some pl -> idx <= length (order st) ->
  new_sublayer fuel st (root_of t) (Some p) idx =
  Done ({| lays := set_lay (lays st) p (link_child (f_file (root_of t)) (length (lays st)) pl) ++ described (length (lays st)) (Some p) t;
           order := firstn idx (order st) ++ stacked (length (lays st)) t ++ skipn idx (order st) |}, bottom_up (length (lays st)) t).

Lemma loop_adds f d parent refs0 dir L A Z : forall refs E D O saved,
  Forall (arrives dir) refs -> plain_refs refs -> Forall (on_tree (adds f)) refs -> (forall x, In x refs -> In (found_path x) (map found_path refs0)) ->
  NoDup (map fst E ++ map found_path refs) ->
  ref_loop (new_sublayer f) (length L) (length A) dir (seq (length E) (length refs))
    {| lays := L ++ head_lay d parent refs0 (E ++ map (fun x => (found_path x, None)) refs) :: D; order := A ++ length L :: O ++ Z |} saved =
  Done ({| lays := L ++ head_lay d parent refs0 (E ++ numbered (S (length L + length D)) refs) :: D ++ dgo (length L) (S (length L + length D)) refs;
           order := A ++ length L :: (sgo (S (length L + length D)) refs ++ O) ++ Z |}, saved ++ bgo (S (length L + length D)) refs).
Proof.
  induction refs as [|x refs IH]; intros E D O saved Ha Hp Hi Hin Nd.
  - cbn [length seq ref_loop map numbered dgo sgo bgo app]. now rewrite !app_nil_r.
  - inversion Ha as [|? ? A1 A2]; subst. inversion Hi as [|? ? I1 I2]; subst. destruct x as [p t|p|p]; [|contradiction|contradiction]. destruct Hp as (Hp0 & Hp1 & Hp2). cbn [on_tree] in I1.
    cbn [length seq ref_loop lays]. rewrite nth_mid. cbn [head_lay l_subs map found_path].
    replace (nth_error (E ++ (p, None) :: map (fun x => (found_path x, None)) refs) (length E)) with (Some (p, @None nat)) by (symmetry; apply nth_mid).
    destruct (arrives_file _ _ _ A1) as (Eo & Ef & _). rewrite Eo. erewrite I1; cbn [lays order]; [|apply nth_mid|rewrite app_length; cbn; lia].
    rewrite Ef. assert (Np : ~ In p (map fst E)). { intros I. cbn [map found_path] in Nd. apply NoDup_remove_2 in Nd. apply Nd. apply in_or_app. now left. }
    assert (Lk : forall i, link_child p i (head_lay d parent refs0 (E ++ (p, None) :: map (fun x => (found_path x, None)) refs)) = head_lay d parent refs0 (E ++ (p, Some i) :: map (fun x => (found_path x, None)) refs)).
    { intros i. unfold link_child, head_lay. cbn [l_real l_file l_parent l_paths l_subs]. assert (S1 : str_in p (map found_path refs0) = true) by (apply str_in_In; apply (Hin (Opened p t)); now left). rewrite S1.
      assert (S2 : existsb (fun e : pystr * option nat => str_eqb (fst e) p) (E ++ (p, None) :: map (fun x => (found_path x, None)) refs) = true). { apply existsb_exists. exists (p, None). split; [apply in_or_app; right; now left|apply str_eqb_refl]. }
      rewrite S2. now rewrite fill_mid. }
    rewrite Lk, set_lay_mid. rewrite <- app_assoc. cbn [app].
    assert (Ln : length (L ++ head_lay d parent refs0 (E ++ (p, None) :: map (fun x => (found_path x, None)) refs) :: D) = S (length L + length D)) by (rewrite app_length; cbn [length]; lia).
    rewrite Ln. set (pos := S (length L + length D)) in *.
    assert (Fo : forall a : nat, firstn (S (length A)) (A ++ a :: O ++ Z) = A ++ [a] /\ skipn (S (length A)) (A ++ a :: O ++ Z) = O ++ Z).
    { intros a. clear. induction A as [|y A IH]; [split; reflexivity|]. cbn [length app]. split; [rewrite firstn_cons|rewrite skipn_cons]; [f_equal|]; apply IH. }
    rewrite (proj1 (Fo _)), (proj2 (Fo _)).
    specialize (IH (E ++ [(p, Some pos)]) (D ++ described pos (Some (length L)) t) (stacked pos t ++ O) (saved ++ bottom_up pos t) A2 Hp2 I2 (fun x Hx => Hin x (or_intror Hx))).
    assert (Nd' : NoDup (map fst (E ++ [(p, Some pos)]) ++ map found_path refs)) by (rewrite map_app; cbn [map fst]; rewrite <- app_assoc; exact Nd).
    specialize (IH Nd'). rewrite !app_length, described_length in IH. cbn [length] in IH. rewrite Nat.add_1_r in IH.
    replace (S (length L + (length D + size t))) with (pos + size t) in IH by (unfold pos; lia).
    rewrite <- !app_assoc in IH. cbn [app] in IH. rewrite <- !app_assoc. cbn [app]. rewrite IH. cbn [numbered dgo sgo bgo]. fold pos.
    rewrite <- !app_assoc. reflexivity.
Qed.

Lemma found_entries d refs : map found_path refs = f_refs d -> plain_refs refs -> filter nonempty (f_refs d) = map found_path refs.
Proof.
  intros <- Hp. induction refs as [|x refs IH]; [reflexivity|]. destruct x as [p t|p|p]; [|contradiction|contradiction]. destruct Hp as (Hp0 & _ & Hp2). cbn [map found_path filter]. destruct p; [congruence|]. cbn [nonempty]. f_equal. now apply IH.
Qed.
Lemma subs_add f d refs : brings (File d refs) -> plain (File d refs) -> depth (File d refs) <= S f -> (forall t, brings t -> plain t -> depth t <= f -> adds f t) -> Forall (on_tree (adds f)) refs.
Proof.
  intros B P Hf All. inversion B as [d' refs' Er Ha]; subst d' refs'. rewrite plain_unfold in P. destruct P as (Nd & Hp). apply Forall_forall. intros x Hx. destruct x as [p t|p|p]; cbn; auto. apply All.
  - apply (arrives_file (dirname (f_real d)) p t). exact (proj1 (Forall_forall _ _) Ha _ Hx).
  - clear -Hp Hx. induction refs as [|y refs IHr]; [destruct Hx|]. destruct y as [q u|q|q]; [|contradiction|contradiction]. destruct Hp as (_ & P1 & P2). destruct Hx as [Q|Hx]; [injection Q as <- <-; exact P1|now apply IHr].
  - cbn [depth] in Hf. assert (M : depth t <= list_max (map (fun x => match x with Opened _ t => depth t | _ => 0 end) refs)). { pose proof (proj1 (list_max_le (map (fun x => match x with Opened _ t => depth t | _ => 0 end) refs) _) (le_n _)) as M. rewrite Forall_forall in M. apply M. apply in_map_iff. exists (Opened p t). split; [reflexivity|exact Hx]. }
    lia.
Qed.
Lemma adds_tree t : brings t -> plain t -> forall fuel, depth t <= fuel -> adds fuel t.
Proof.
  induction t as [d refs IH] using ftree_ind'. intros B P fuel Hf. inversion B as [d' refs' Er Ha]; subst d' refs'. rewrite plain_unfold in P. destruct P as (Nd & Hp).
  destruct fuel as [|f]; [cbn in Hf; lia|]. cbn [depth] in Hf. assert (I : Forall (on_tree (adds f)) refs).
  { apply Forall_forall. intros x Hx. destruct x as [p t|p|p]; cbn; auto. pose proof (proj1 (Forall_forall _ _) IH _ Hx) as IHx. cbn in IHx. apply IHx.
    - apply (arrives_file (dirname (f_real d)) p t). exact (proj1 (Forall_forall _ _) Ha _ Hx).
    - clear -Hp Hx. induction refs as [|y refs IHr]; [destruct Hx|]. destruct y as [q u|q|q]; [|contradiction|contradiction]. destruct Hp as (_ & P1 & P2). destruct Hx as [Q|Hx]; [injection Q as <- <-; exact P1|now apply IHr].
    - assert (M : depth t <= list_max (map (fun x => match x with Opened _ t => depth t | _ => 0 end) refs)). { pose proof (proj1 (list_max_le (map (fun x => match x with Opened _ t => depth t | _ => 0 end) refs) _) (le_n _)) as M. rewrite Forall_forall in M. apply M. apply in_map_iff. exists (Opened p t). split; [reflexivity|exact Hx]. }
      lia. }
  intros st p pl idx Ep Li. cbn [root_of]. rewrite new_unfold. cbv zeta. cbv iota. assert (Lp : p < length (lays st)) by (apply nth_error_Some; congruence).
  set (L := set_lay (lays st) p (link_child (f_file d) (length (lays st)) pl)). assert (LL : length L = length (lays st)) by apply set_lay_length.
  assert (U : upd_lay {| lays := lays st ++ [new_lay d (Some p)]; order := insert_at idx (length (lays st)) (order st) |} p (link_child (f_file d) (length (lays st))) =
    {| lays := L ++ [head_lay d (Some p) refs ([] ++ map (fun x => (found_path x, None)) refs)]; order := firstn idx (order st) ++ length L :: [] ++ skipn idx (order st) |}).
  { unfold upd_lay. cbn [lays order]. rewrite nth_error_app1 by exact Lp. rewrite Ep. rewrite set_lay_app by exact Lp. fold L. unfold insert_at, new_lay, head_lay. rewrite (found_entries d refs Er Hp), map_map. rewrite LL. reflexivity. }
  rewrite U. cbn [lays]. rewrite <- LL. rewrite (nth_mid L _ []). cbn [head_lay l_subs]. cbn [app]. rewrite map_length.
  pose proof (loop_adds f d (Some p) refs (dirname (f_real d)) L (firstn idx (order st)) (skipn idx (order st)) refs [] [] [] [] Ha Hp I (fun x Hx => in_map found_path _ _ Hx) Nd) as G.
  rewrite firstn_length_le in G by exact Li. cbn [length app] in G. rewrite Nat.add_0_r in G. rewrite G. rewrite described_unfold, stacked_unfold, bottom_unfold. rewrite !app_nil_r. reflexivity.
Qed.
(** The same without a parent, after all other layers. *)
Lemma adds_last t : brings t -> plain t -> forall fuel, depth t <= fuel -> forall st,
  new_sublayer fuel st (root_of t) None (length (order st)) =
  Done ({| lays := lays st ++ described (length (lays st)) None t; order := order st ++ stacked (length (lays st)) t |}, bottom_up (length (lays st)) t).
Proof.
  destruct t as [d refs]. intros B P fuel Hf st. destruct fuel as [|f]; [cbn in Hf; lia|]. pose proof (subs_add f d refs B P Hf (fun t B P => adds_tree t B P f)) as I.
  inversion B as [d' refs' Er Ha]; subst d' refs'. rewrite plain_unfold in P. destruct P as (Nd & Hp). cbn [root_of]. rewrite new_unfold. cbv zeta. cbv iota. cbn [order].
  assert (Io : insert_at (length (order st)) (length (lays st)) (order st) = order st ++ [length (lays st)]) by (unfold insert_at; now rewrite firstn_all, skipn_all). rewrite Io.
  assert (Sk : skipn (S (length (order st))) (order st ++ [length (lays st)]) = []) by (apply skipn_all2; rewrite app_length; cbn; lia). rewrite Sk. cbn [fold_left lays].
  assert (Nl : new_lay d None = head_lay d None refs ([] ++ map (fun x => (found_path x, None)) refs)) by (unfold new_lay, head_lay; rewrite (found_entries d refs Er Hp), map_map; reflexivity). rewrite Nl.
  rewrite (nth_mid (lays st) _ []). cbn [head_lay l_subs]. cbn [app]. rewrite map_length.
  pose proof (loop_adds f d None refs (dirname (f_real d)) (lays st) (order st) [] refs [] [] [] [] Ha Hp I (fun x Hx => in_map found_path _ _ Hx) Nd) as G.
  cbn [length app] in G. rewrite Nat.add_0_r in G. rewrite G. rewrite described_unfold, stacked_unfold, bottom_unfold. rewrite !app_nil_r. reflexivity.
Qed.
End Files.

(** *** The files in the order of the stage *)
Fixpoint fgo (refs : list found) : list fdata :=
  match refs with [] => [] | Opened _ t :: rest => fgo rest ++ files_back t | _ :: rest => fgo rest end.
Lemma back_unfold d refs : files_back (File d refs) = d :: fgo refs. Proof. reflexivity. Qed.
Definition shown (ls : list lay) (i : nat) : option (pystr * pystr) := option_map (fun l => (l_real l, l_file l)) (nth_error ls i).
Definition named (d : fdata) : option (pystr * pystr) := Some (f_real d, f_file d).
Lemma stacked_files t : forall A B start parent, length A = start -> map (shown (A ++ described start parent t ++ B)) (stacked start t) = map named (files_back t).
Proof.
  induction t as [d refs IH] using ftree_ind'. intros A B start parent EA. rewrite described_unfold, stacked_unfold, back_unfold. cbn [map]. f_equal.
  - unfold shown. subst start. cbn [app]. now rewrite nth_mid.
  - set (h := head_lay d parent refs (numbered (S start) refs)). clearbody h.
    change (A ++ (h :: dgo start (S start) refs) ++ B) with (A ++ h :: dgo start (S start) refs ++ B).
    replace (A ++ h :: dgo start (S start) refs ++ B) with ((A ++ [h]) ++ dgo start (S start) refs ++ B) by now rewrite <- app_assoc.
    assert (EA' : length (A ++ [h]) = S start) by (rewrite app_length; cbn; lia). revert EA'. generalize (A ++ [h]) as C. generalize (S start) as pos. clear EA h A. revert B IH.
    induction refs as [|x refs IHr]; intros B IH pos C EC; [reflexivity|]. inversion IH as [|? ? Hx Hr]; subst. destruct x as [p t|p|p]; cbn [dgo sgo fgo]; [|now apply IHr|now apply IHr].
    rewrite !map_app. f_equal.
    + rewrite <- app_assoc. rewrite app_assoc. apply IHr; [exact Hr|]. rewrite app_length, described_length. reflexivity.
    + rewrite <- app_assoc. now apply Hx.
Qed.
Lemma single_files t : single t -> files_back t = files t.
Proof.
  induction t as [d refs IH] using ftree_ind'. intros (Hl & Hs). rewrite back_unfold. cbn [files]. f_equal. destruct refs as [|x [|y refs]]; [reflexivity| |cbn in Hl; lia].
  inversion IH as [|? ? Hx _]; subst. destruct x as [p t|p|p]; cbn [fgo map concat app]; try reflexivity. rewrite app_nil_r. apply Hx, Hs.
Qed.

(** *** A new layer above the others *)
Lemma mentioned_spec st higher file : mentioned st higher file = true <-> exists h l, In h higher /\ nth_error (lays st) h = Some l /\ In file (l_paths l).
Proof.
  unfold mentioned. rewrite existsb_exists. split.
  - intros (h & Hh & E). destruct (nth_error (lays st) h) as [l|] eqn:El; [|discriminate]. apply str_in_In in E. eauto.
  - intros (h & l & Hh & El & I). exists h. split; [exact Hh|]. rewrite El. now apply str_in_In.
Qed.
Lemma upd_nth st i f j : nth_error (lays (upd_lay st i f)) j = if Nat.eqb j i then option_map f (nth_error (lays st) i) else nth_error (lays st) j.
Proof.
  unfold upd_lay. destruct (nth_error (lays st) i) as [l|] eqn:E; cbn [lays option_map].
  - revert i j E. generalize (lays st). induction l0 as [|x t IH]; intros i j E; [now destruct i|]. destruct i, j; cbn in *; auto.
  - destruct (Nat.eqb j i) eqn:Q; [apply Nat.eqb_eq in Q as ->; exact E|reflexivity].
Qed.
Lemma upd_order st i f : order (upd_lay st i f) = order st.
Proof. unfold upd_lay. now destruct (nth_error (lays st) i). Qed.
Lemma upd_length st i f : length (lays (upd_lay st i f)) = length (lays st).
Proof. unfold upd_lay. destruct (nth_error (lays st) i); [cbn [lays]; apply set_lay_length|reflexivity]. Qed.

Lemma adopt_skipped me higher : forall lows st, (forall j l, In j lows -> nth_error (lays st) j = Some l -> mentioned st higher (l_file l) = true) -> fold_left (adopt me higher) lows st = st.
Proof.
  induction lows as [|j lows IH]; intros st Hm; [reflexivity|]. cbn [fold_left]. assert (E : adopt me higher st j = st).
  { unfold adopt. destruct (nth_error (lays st) j) as [l|] eqn:El; [|reflexivity]. now rewrite (Hm j l (or_introl eq_refl) El). }
  rewrite E. apply IH. intros i l Hi. apply Hm. now right.
Qed.

Lemma on_top expand read dirname st d first l1 rest fuel :
  f_refs d = [] -> order st = first :: rest -> nth_error (lays st) first = Some l1 -> ~ In first rest -> (forall j, In j (order st) -> j < length (lays st)) ->
  (forall j l, In j rest -> nth_error (lays st) j = Some l -> exists h l', In h (removelast (order st)) /\ nth_error (lays st) h = Some l' /\ In (l_file l) (l_paths l')) ->
  (forall h l, In h (removelast (order st)) -> nth_error (lays st) h = Some l -> ~ In (l_file l1) (l_paths l)) ->
  exists st', new_sublayer expand read dirname (S fuel) st d None 0 = Done (st', [length (lays st)]) /\
    order st' = length (lays st) :: order st /\ length (lays st') = S (length (lays st)) /\
    nth_error (lays st') (length (lays st)) = Some {| l_real := f_real d; l_file := f_file d; l_parent := None; l_paths := [l_file l1]; l_subs := [(l_real l1, Some first)] |} /\
    nth_error (lays st') first = Some {| l_real := l_real l1; l_file := l_file l1; l_parent := Some (length (lays st)); l_paths := l_paths l1; l_subs := l_subs l1 |} /\
    forall j, j < length (lays st) -> j <> first -> nth_error (lays st') j = nth_error (lays st) j.
Proof.
  intros Er Eo E1 Nf V Hm Hn. rewrite new_unfold. cbv zeta. cbv iota. cbn [order lays insert_at firstn skipn app]. set (me := length (lays st)).
  assert (Lf : first < me) by (apply nth_error_Some; congruence).
  set (st1 := {| lays := lays st ++ [new_lay d None]; order := me :: order st |}).
  assert (Ab : above 0 (me :: order st) = me :: removelast (order st)) by (cbn [above]; rewrite Eo; reflexivity). unfold insert_at. cbn [firstn skipn app]. fold st1. rewrite Ab.
  assert (N1 : nth_error (lays st1) first = Some l1) by (cbn [st1 lays]; rewrite nth_error_app1; [exact E1|exact Lf]).
  assert (Nme : nth_error (lays st1) me = Some (new_lay d None)) by (cbn [st1 lays]; apply (nth_mid (lays st) _ [])).
  assert (Nj : forall j, j < me -> nth_error (lays st1) j = nth_error (lays st) j) by (intros j Hj; cbn [st1 lays]; now apply nth_error_app1).
  assert (Vr : forall h, In h (removelast (order st)) -> h < me). { intros h Hh. apply V. rewrite (app_removelast_last 0 (l := order st)) by (rewrite Eo; discriminate). apply in_or_app. now left. }
  assert (M1 : mentioned st1 (me :: removelast (order st)) (l_file l1) = false).
  { apply not_true_iff_false. rewrite mentioned_spec. intros (h & l & [<-|Hh] & El & I).
    - rewrite Nme in El. injection El as <-. cbn [new_lay l_paths] in I. rewrite Er in I. destruct I.
    - rewrite Nj in El by now apply Vr. exact (Hn h l Hh El I). }
  assert (Fl : forall m h s, fold_left (adopt m h) (order st) s = fold_left (adopt m h) rest (adopt m h s first)) by (intros; now rewrite Eo). rewrite Fl.
  set (st2 := adopt me (me :: removelast (order st)) st1 first).
  assert (A2 : st2 = upd_lay (upd_lay (upd_lay st1 me (fun n => if str_in (l_file l1) (l_paths n) then n else with_paths n (l_paths n ++ [l_file l1]))) first (fun l => with_parent l (Some me))) me (fun n => with_subs n (l_subs n ++ [(l_real l1, Some first)]))).
  { unfold st2, adopt. rewrite N1, M1. cbv zeta. rewrite upd_nth, Nat.eqb_refl, Nme. cbn [option_map new_lay l_paths]. rewrite Er. cbn [filter str_in existsb app]. unfold with_paths, new_lay. cbn [l_subs]. rewrite Er. reflexivity. }
  clearbody st2.
  assert (Nef : Nat.eqb first me = false) by (apply Nat.eqb_neq; lia). assert (Nef' : Nat.eqb me first = false) by (apply Nat.eqb_neq; lia).
  assert (B_me : nth_error (lays st2) me = Some {| l_real := f_real d; l_file := f_file d; l_parent := None; l_paths := [l_file l1]; l_subs := [(l_real l1, Some first)] |}).
  { rewrite A2, upd_nth, Nat.eqb_refl, upd_nth, Nef', upd_nth, Nat.eqb_refl, Nme. unfold new_lay. rewrite Er. reflexivity. }
  assert (B_first : nth_error (lays st2) first = Some {| l_real := l_real l1; l_file := l_file l1; l_parent := Some me; l_paths := l_paths l1; l_subs := l_subs l1 |}).
  { rewrite A2, upd_nth, Nef, upd_nth, Nat.eqb_refl, upd_nth, Nef, N1. reflexivity. }
  assert (B_else : forall j, j < me -> j <> first -> nth_error (lays st2) j = nth_error (lays st) j).
  { intros j Hj Hf. rewrite <- (Nj j Hj). assert (Q1 : Nat.eqb j me = false) by (apply Nat.eqb_neq; lia). assert (Q2 : Nat.eqb j first = false) by (apply Nat.eqb_neq; lia). rewrite A2, upd_nth, Q1, upd_nth, Q2, upd_nth, Q1. reflexivity. }
  rewrite adopt_skipped.
  - exists st2. rewrite B_me. cbn [l_subs length seq]. split; [cbn [ref_loop]; rewrite B_me; reflexivity|]. split; [rewrite A2, !upd_order; reflexivity|].
    split; [rewrite A2, !upd_length; cbn [st1 lays]; rewrite app_length; cbn; lia|]. split; [reflexivity|]. split; [exact B_first|exact B_else].
  - intros j l Hj El. assert (Hj' : j < me) by (apply V; rewrite Eo; now right). assert (Hjf : j <> first) by (intros ->; contradiction). rewrite (B_else j Hj' Hjf) in El. destruct (Hm j l Hj El) as (h & l' & Hh & El' & I).
    apply mentioned_spec. destruct (Nat.eq_dec h first) as [->|Hhf].
    + rewrite E1 in El'. injection El' as <-. exists first. eexists. split; [now right|]. split; [exact B_first|exact I].
    + exists h, l'. split; [now right|]. split; [|exact I]. rewrite B_else; [exact El'|now apply Vr|exact Hhf].
Qed.

(** *** Every layer but the first of a loaded file is referenced by one above it *)
Lemma listing_mentions t : filed t -> forall start parent j l, 0 < j -> nth_error (listing start parent t) j = Some l ->
  exists h l', h < j /\ nth_error (listing start parent t) h = Some l' /\ In (l_file l) (l_paths l').
Proof.
  induction t as [d refs IH] using ftree_ind'. intros Hf start parent j l Hj El. cbn [filed] in Hf. destruct j as [|j]; [lia|]. clear Hj. cbn [listing] in *. cbn [nth_error] in El.
  set (ks := map found_path (filter kept refs)) in *. set (hd := {| l_real := f_real d; l_file := f_file d; l_parent := parent; l_paths := ks; l_subs := map (fun x => (found_path x, None)) (filter kept refs) |}).
  assert (Sub : forall x, In x refs -> kept x = true -> In (found_path x) ks). { intros x Hx Kx. unfold ks. apply in_map, filter_In. now split. }
  assert (Hhd : l_paths hd = ks) by reflexivity. clearbody ks hd. 
  assert (G : (exists h l', h < S j /\ nth_error (hd :: (fix go (pos : nat) (refs : list found) {struct refs} : list lay := match refs with [] => [] | Opened _ t :: rest => listing pos (Some start) t ++ go (pos + size t) rest | _ :: rest => go pos rest end) (S start) refs) h = Some l' /\ In (l_file l) (l_paths l'))); [|exact G].
  revert El. generalize (S start) at 1 2 as pos. intros pos El.
  assert (G : In (l_file l) ks \/ exists h l', h < j /\ nth_error ((fix go (pos : nat) (refs : list found) {struct refs} : list lay := match refs with [] => [] | Opened _ t :: rest => listing pos (Some start) t ++ go (pos + size t) rest | _ :: rest => go pos rest end) pos refs) h = Some l' /\ In (l_file l) (l_paths l')).
  { clear Hhd. revert pos j El Sub. induction refs as [|x refs IHr]; intros pos j El Sub; [now destruct j|]. inversion IH as [|? ? Hx Hr]; subst.
    destruct x as [p t|p|p]; cbn [found_path] in *.
    - destruct Hf as (P1 & P2 & P3 & P4). destruct (Nat.lt_ge_cases j (length (listing pos (Some start) t))) as [Lt|Ge].
      + rewrite nth_error_app1 in El by exact Lt. destruct j as [|j].
        * left. assert (Q : l_file l = p). { rewrite <- P2. destruct t. cbn in El. now injection El as <-. } rewrite Q. apply (Sub (Opened p t)); [now left|]. cbn. now destruct p.
        * right. destruct (Hx P3 pos (Some start) (S j) l (Nat.lt_0_succ _) El) as (h & l' & Lh & Eh & I). exists h, l'. split; [exact Lh|]. split; [|exact I]. rewrite nth_error_app1; [exact Eh|lia].
      + rewrite nth_error_app2 in El by exact Ge. destruct (IHr Hr P4 (pos + size t) (j - length (listing pos (Some start) t)) El) as [I|(h & l' & Lh & Eh & I)].
        * intros y Hy. apply Sub. now right.
        * now left.
        * right. exists (length (listing pos (Some start) t) + h), l'. split; [lia|]. split; [|exact I]. rewrite nth_error_app2 by lia. now replace (length (listing pos (Some start) t) + h - length (listing pos (Some start) t)) with h by lia.
    - apply (IHr Hr Hf pos j El). intros y Hy. apply Sub. now right.
    - apply (IHr Hr Hf pos j El). intros y Hy. apply Sub. now right. }
  destruct G as [I|(h & l' & Lh & Eh & I)].
  - exists 0, hd. split; [lia|]. split; [reflexivity|]. now rewrite Hhd.
  - exists (S h), l'. split; [lia|]. split; [exact Eh|exact I].
Qed.

(** *** Adding a layer without references and removing it *)
Lemma remove_path_absent q l : ~ In q l -> remove_path q l = l.
Proof.
  induction l as [|x l IH]; intros N; [reflexivity|]. cbn [remove_path]. destruct (str_eqb x q) eqn:E.
  - apply str_eqb_eq in E. exfalso. apply N. now left.
  - rewrite IH; [reflexivity|]. intros I. apply N. now right.
Qed.
Lemma fold_remove_absent st q gone : (forall j, In j gone -> file_of st j = q) -> forall l, ~ In q l -> fold_left (fun ps j => remove_path (file_of st j) ps) gone l = l.
Proof.
  induction gone as [|j gone IH]; intros H l N; [reflexivity|]. cbn [fold_left]. rewrite (H j (or_introl eq_refl)), remove_path_absent by exact N. apply IH; [|exact N]. intros i Hi. apply H. now right.
Qed.
Lemma lay_eta (l l' : lay) : l_real l' = l_real l -> l_file l' = l_file l -> l_parent l' = l_parent l -> l_paths l' = l_paths l -> l_subs l' = l_subs l -> l' = l.
Proof. destruct l, l'; cbn; intros; subst; reflexivity. Qed.

Lemma added_removed expand read dirname st d p pl idx fuel fuel' :
  f_refs d = [] -> nth_error (lays st) p = Some pl -> idx <= length (order st) -> linked st -> NoDup (order st) -> (forall j, In j (order st) -> j < length (lays st)) ->
  (forall x l, In x (order st) -> nth_error (lays st) x = Some l -> ~ In (f_file d) (l_paths l)) -> ~ In (f_file d) (map fst (l_subs pl)) -> S (total st) < fuel' ->
  exists st1 st2, new_sublayer expand read dirname (S fuel) st d (Some p) idx = Done (st1, [length (lays st)]) /\ remove_sublayer fuel' st1 (length (lays st)) = Done st2 /\
    order st2 = order st /\ forall x, In x (order st) -> nth_error (lays st2) x = nth_error (lays st) x.
Proof.
  intros Er Ep Li Hl Nd V Np Ns Hf. set (me := length (lays st)). assert (Lp : p < me) by (apply nth_error_Some; congruence).
  assert (Ea : new_sublayer expand read dirname (S fuel) st d (Some p) idx = Done ({| lays := set_lay (lays st) p (link_child (f_file d) me pl) ++ described me (Some p) (File d []); order := firstn idx (order st) ++ stacked me (File d []) ++ skipn idx (order st) |}, [me])).
  { apply (adds_tree expand read dirname (File d [])); [constructor; [now rewrite Er|constructor]| |cbn; lia|exact Ep|exact Li]. split; [constructor|exact I]. }
  set (st1 := {| lays := set_lay (lays st) p (link_child (f_file d) me pl) ++ described me (Some p) (File d []); order := firstn idx (order st) ++ stacked me (File d []) ++ skipn idx (order st) |}) in *.
  set (nl := {| l_real := f_real d; l_file := f_file d; l_parent := Some p; l_paths := []; l_subs := [] |}).
  assert (Els : lays st1 = set_lay (lays st) p (link_child (f_file d) me pl) ++ [nl]) by reflexivity.
  assert (Eo : order st1 = firstn idx (order st) ++ me :: skipn idx (order st)) by reflexivity. clearbody st1.
  assert (Ln : length (lays st1) = S me) by (rewrite Els, app_length, set_lay_length; cbn; fold me; lia).
  assert (Nme : nth_error (lays st1) me = Some nl). { rewrite Els, nth_error_app2; rewrite set_lay_length; fold me; [|lia]. now rewrite Nat.sub_diag. }
  assert (Np' : nth_error (lays st1) p = Some (link_child (f_file d) me pl)). { rewrite Els, nth_error_app1 by (rewrite set_lay_length; exact Lp). exact (StageLoadProofs.set_lay_same _ _ _ _ Ep). }
  assert (Nx : forall x, x < me -> x <> p -> nth_error (lays st1) x = nth_error (lays st) x).
  { intros x Hx Hxp. rewrite Els, nth_error_app1 by (rewrite set_lay_length; exact Hx). now apply set_lay_other. }
  assert (Ex : existsb (fun e => str_eqb (fst e) (f_file d)) (l_subs pl) = false).
  { apply not_true_iff_false. intros E. apply existsb_exists in E as (e & He & E). apply str_eqb_eq in E. apply Ns. rewrite <- E. now apply in_map. }
  assert (Sl : l_subs (link_child (f_file d) me pl) = (f_file d, Some me) :: l_subs pl) by (cbn [link_child l_subs]; now rewrite Ex).
  assert (Nmo : ~ In me (order st)) by (intros I; apply V in I; unfold me in I; lia).
  assert (Hl1 : linked st1).
  { intros x l e El He. rewrite Ln. destruct (Nat.eq_dec x me) as [->|Hx]; [rewrite Nme in El; injection El as <-; destruct He|]. assert (Lx : x < me) by (assert (x < length (lays st1)) by (apply nth_error_Some; congruence); lia).
    destruct (Nat.eq_dec x p) as [->|Hxp].
    - rewrite Np' in El. injection El as <-. rewrite Sl in He. destruct He as [<-|He]; [exists me; split; [reflexivity|lia]|]. destruct (Hl p pl e Ep He) as (j & E & L). exists j. split; [exact E|fold me in L; lia].
    - rewrite Nx in El by assumption. destruct (Hl x l e El He) as (j & E & L). exists j. split; [exact E|fold me in L; lia]. }
  assert (Nd1 : NoDup (order st1)).
  { rewrite Eo. apply (NoDup_Add (a := me) (l := order st)); [|now split]. pose proof (Add_app me (firstn idx (order st)) (skipn idx (order st))) as A. now rewrite firstn_skipn in A. }
  assert (Tt : total st1 = S (total st)).
  { unfold total. rewrite Els, map_app, list_sum_app. cbn [map list_sum fold_right nl l_subs length]. rewrite !Nat.add_0_r. clear -Ep Sl. revert p Ep. generalize (lays st). induction l as [|y l IH]; intros p Ep; [now destruct p|]. destruct p as [|p]; cbn [nth_error set_lay map] in *.
    - injection Ep as ->. rewrite Sl. reflexivity.
    - cbn [list_sum fold_right]. change (fold_right plus 0) with list_sum. rewrite (IH p Ep). lia. }
  destruct (remove_general st1 me fuel') as (st2 & gone & E2 & W & Ig & Ug); [lia|exact Hl1|exact Nd1|lia|].
  exists st1, st2. split; [exact Ea|]. split; [exact E2|].
  assert (Gm : forall j, In j gone -> j = me).
  { intros j Hj. specialize (Ug j Hj). inversion Ug as [|? k ? Hk _]; [reflexivity|]; subst. destruct Hk as (l & q & El & Hq). rewrite Nme in El. injection El as <-. destruct Hq. }
  assert (Mem : forall x, existsb (Nat.eqb x) gone = Nat.eqb x me).
  { intros x. destruct (Nat.eqb x me) eqn:Q.
    - apply Nat.eqb_eq in Q as ->. apply existsb_exists. exists me. split; [exact Ig|apply Nat.eqb_refl].
    - apply not_true_iff_false. intros E. apply existsb_exists in E as (j & Hj & E). apply Nat.eqb_eq in E as ->. rewrite (Gm j Hj), Nat.eqb_refl in Q. discriminate. }
  assert (Fo : forall l, ~ In me l -> filter (fun x => negb (existsb (Nat.eqb x) gone)) l = l).
  { intros l N. induction l as [|x l IH]; [reflexivity|]. cbn [filter]. rewrite Mem. assert (Q : Nat.eqb x me = false) by (apply Nat.eqb_neq; intros ->; apply N; now left). rewrite Q. cbn [negb]. rewrite IH; [reflexivity|]. intros I. apply N. now right. }
  assert (O2 : order st2 = order st).
  { rewrite (w_order _ _ _ W), Eo, filter_app. cbn [filter]. rewrite Mem, Nat.eqb_refl. cbn [negb]. rewrite !Fo; [apply firstn_skipn| |]; intros I; apply Nmo; rewrite <- (firstn_skipn idx (order st)); apply in_or_app; auto. }
  split; [exact O2|]. intros x Hx. assert (Lx : x < me) by now apply V.
  assert (Fm : forall j, In j gone -> file_of st1 j = f_file d) by (intros j Hj; rewrite (Gm j Hj); unfold file_of; now rewrite Nme).
  assert (En : forall e, existsb (entry_of st1 e) gone = true -> snd e = Some me).
  { intros e E. apply existsb_exists in E as (j & Hj & E). rewrite (Gm j Hj) in E. unfold entry_of in E. rewrite Nme in E. apply andb_true_iff in E as (_ & E). destruct (snd e) as [k|]; [|discriminate]. now apply Nat.eqb_eq in E as ->. }
  assert (Fe : forall l, (forall e, In e l -> snd e <> Some me) -> filter (fun e => negb (existsb (entry_of st1 e) gone)) l = l).
  { intros l N. induction l as [|e l IH]; [reflexivity|]. cbn [filter]. destruct (existsb (entry_of st1 e) gone) eqn:Q; [exfalso; apply (N e); [now left|now apply En]|]. cbn [negb]. rewrite IH; [reflexivity|]. intros e' He'. apply N. now right. }
  assert (Old : forall y ly e, nth_error (lays st) y = Some ly -> In e (l_subs ly) -> snd e <> Some me). { intros y ly e Ey He Q. destruct (Hl y ly e Ey He) as (j & Ej & Lj). rewrite Q in Ej. injection Ej as <-. unfold me in Lj. lia. }
  destruct (nth_error (lays st) x) as [lx|] eqn:Elx; [|apply nth_error_None in Elx; unfold me in Lx; lia].
  destruct (Nat.eq_dec x p) as [->|Hxp].
  - rewrite Ep in Elx. injection Elx as <-. destruct (w_same _ _ _ W p _ Np') as (l' & El' & A1 & A2 & A3 & _ & A4). destruct A4 as (A4 & A5); [now rewrite O2|]. rewrite El'. f_equal. apply lay_eta; [exact A1|exact A2|exact A3| |].
    + rewrite A5. cbn [link_child l_paths]. rewrite (proj2 (MergeProofs.str_in_false _ _) (Np p pl Hx Ep)). destruct gone as [|g gone]; [destruct Ig|]. cbn [fold_left]. rewrite (Fm g (or_introl eq_refl)). cbn [remove_path]. rewrite str_eqb_refl. apply (fold_remove_absent st1 (f_file d)); [intros j Hj; apply Fm; now right|exact (Np p pl Hx Ep)].
    + rewrite A4, Sl. cbn [filter]. assert (Q : existsb (entry_of st1 (f_file d, Some me)) gone = true). { apply existsb_exists. exists me. split; [exact Ig|]. unfold entry_of. rewrite Nme. cbn [fst snd nl l_file]. now rewrite str_eqb_refl, Nat.eqb_refl. } rewrite Q. cbn [negb]. apply Fe. intros e He. exact (Old p pl e Ep He).
  - assert (E1 : nth_error (lays st1) x = Some lx) by (rewrite Nx by assumption; exact Elx). destruct (w_same _ _ _ W x _ E1) as (l' & El' & A1 & A2 & A3 & _ & A4). destruct A4 as (A4 & A5); [now rewrite O2|]. rewrite El'. f_equal. apply lay_eta; [exact A1|exact A2|exact A3| |].
    + rewrite A5. apply (fold_remove_absent st1 (f_file d)); [exact Fm|]. exact (Np x lx Hx Elx).
    + rewrite A4. apply Fe. intros e He. exact (Old x lx e Elx He).
Qed.
