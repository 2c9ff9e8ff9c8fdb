(** C24 and C25: opening graph files and converting old ones. *)

From Coq Require Import String List NArith ZArith Bool Lia.
From Verif Require Import PyStr PyStrFacts Dict DictFacts PyVal PyValFacts Legacy FileIO LegacySpec LegacyProofs.
From Verif Require Import LegacyProofs2 LegacyProofs3 LegacyProofs4 FileIOProofs.
Import ListNotations.

(** *** C24 *)

(** The file read is the first one an expander finds, in the order they were
    registered, or else the usual expansion of the path. *)
Theorem C24_which_file :
  forall full_expand expanders isfile fp,
  (forall ps e qs, expanders = ps ++ e :: qs -> isfile (e fp) = true -> (forall e', In e' ps -> isfile (e' fp) = false) ->
     find_real_path full_expand expanders isfile fp = e fp) /\
  ((forall e, In e expanders -> isfile (e fp) = false) ->
     find_real_path full_expand expanders isfile fp = full_expand fp).
Proof. exact real_path_ok. Qed.
Print Assumptions C24_which_file.

(** A file that is not called something.nxt or something.nxtb is refused,
    whatever it contains. *)
Theorem C24_unknown_extension_refused :
  forall full_expand expanders isfile read fuel fp,
  let rp := find_real_path full_expand expanders isfile fp in
  ~ has_ext rp ".nxt" -> ~ has_ext rp ".nxtb" ->
  load_file_data full_expand expanders isfile read fuel fp = Some (Raise IOError).
Proof. intros *. exact (load_unknown _ _ _ _ _ _). Qed.
Print Assumptions C24_unknown_extension_refused.

(** A file that says a newer version is refused. *)
Theorem C24_newer_refused :
  forall full_expand expanders isfile read fuel fp data s x y,
  let rp := find_real_path full_expand expanders isfile fp in
  has_ext rp ".nxt" \/ has_ext rp ".nxtb" -> read rp = Ok data ->
  said data s -> two_numbers py_int s x y -> newer x y ->
  load_file_data full_expand expanders isfile read fuel fp = Some (Raise IOError).
Proof.
  intros full_expand expanders isfile read fuel fp data s x y rp He Hr Hs Ht Hn.
  rewrite (load_eq _ _ _ _ _ _ _ He Hr). destruct (gate_ok data) as (G & _). now rewrite (G _ _ _ Hs Ht Hn).
Qed.
Print Assumptions C24_newer_refused.

(** So is one whose version is not two numbers. *)
Theorem C24_malformed_refused :
  forall full_expand expanders isfile read fuel fp data,
  let rp := find_real_path full_expand expanders isfile fp in
  has_ext rp ".nxt" \/ has_ext rp ".nxtb" -> read rp = Ok data ->
  (~ exists s x y, said data s /\ two_numbers py_int s x y) ->
  exists e, load_file_data full_expand expanders isfile read fuel fp = Some (Raise e).
Proof.
  intros full_expand expanders isfile read fuel fp data rp He Hr Hx.
  rewrite (load_eq _ _ _ _ _ _ _ He Hr). destruct (gate_ok data) as (_ & _ & _ & G). destruct (G Hx) as [e ->]. eauto.
Qed.
Print Assumptions C24_malformed_refused.

(** A file of the current version is not touched: its data only gains where it
    came from and, if it has none, a name. *)
Theorem C24_current_untouched :
  forall full_expand expanders isfile read fuel fp data s,
  let rp := find_real_path full_expand expanders isfile fp in
  has_ext rp ".nxt" \/ has_ext rp ".nxtb" -> read rp = Ok data ->
  said data s -> two_numbers py_int s 1 17 ->
  exists d, load_file_data full_expand expanders isfile read fuel fp = Some (Ok d) /\ stamped fp rp data d.
Proof.
  intros full_expand expanders isfile read fuel fp data s rp He Hr Hs Ht.
  exists (stamp fp rp data). split; [|apply stamp_ok].
  rewrite (load_eq _ _ _ _ _ _ _ He Hr). destruct (gate_ok data) as (_ & _ & G & _).
  rewrite (G _ _ _ Hs Ht); auto; unfold newer; lia.
Qed.
Print Assumptions C24_current_untouched.

(** An older one is what the converter makes of it. *)
Theorem C24_older_converted :
  forall full_expand expanders isfile read fuel fp data s x y,
  let rp := find_real_path full_expand expanders isfile fp in
  has_ext rp ".nxt" \/ has_ext rp ".nxtb" -> read rp = Ok data ->
  said data s -> two_numbers py_int s x y -> (x = 0 \/ x = 1 /\ y < 17)%Z ->
  match convert_file fuel data with
  | None => load_file_data full_expand expanders isfile read fuel fp = None
  | Some (Raise e) => load_file_data full_expand expanders isfile read fuel fp = Some (Raise e)
  | Some (Ok c) => exists d, load_file_data full_expand expanders isfile read fuel fp = Some (Ok d) /\ stamped fp rp c d
  end.
Proof.
  intros full_expand expanders isfile read fuel fp data s x y rp He Hr Hs Ht Ho.
  rewrite (load_eq _ _ _ _ _ _ _ He Hr). destruct (gate_ok data) as (_ & G & _).
  rewrite (G _ _ _ Hs Ht); [|unfold newer; lia|lia].
  destruct (convert_file fuel data) as [[c|e]|]; auto. exists (stamp fp rp c). split; auto. apply stamp_ok.
Qed.
Print Assumptions C24_older_converted.

(** Version numbers are read as decimal numbers. *)
Theorem C24_numbers_are_decimal :
  forall ds, ds <> [] -> Forall (fun d => (0 <= d <= 9)%Z) ds ->
  py_int (map (fun d => Z.to_N (48 + d)) ds) = Some (fold_left (fun a d => (a * 10 + d)%Z) ds 0%Z).
Proof. exact py_int_decimal. Qed.
Print Assumptions C24_numbers_are_decimal.

(** A graph is saved to exactly the path given, if that has a known extension. *)
Theorem C24_save_path :
  forall p, (has_ext p ".nxt" \/ has_ext p ".nxtb" -> save_path p = Ok p) /\
  (~ has_ext p ".nxt" -> ~ has_ext p ".nxtb" -> save_path p = Raise TypeError).
Proof. exact save_path_ok. Qed.
Print Assumptions C24_save_path.

Example C24_ex_hyps :
  has_ext (lit "/d.x/a.b.nxt") ".nxt" /\ two_numbers py_int (lit "1.17") 1 17 /\
  two_numbers py_int (lit "1.9.4") 1 9 /\ two_numbers py_int (lit "2.0") 2 0 /\ newer 2 0 /\
  said [(lit "version", VStr (lit "1.9.4"))] (lit "1.9.4") /\ said [] (lit "1.17") /\
  ~ (exists s x y, said [(lit "version", VStr (lit "one.two"))] s /\ two_numbers py_int s x y) /\
  ~ has_ext (lit "/d.nxt/.nxt") ".nxt".
Proof.
  split. { exists (lit "/d.x/"), (lit "a.b"). split; auto. split; [right; exists (lit "/d.x"); auto|].
           split; [cbn; intuition discriminate|]. exists 97%N. cbn. split; auto. discriminate. }
  split; [apply two_ints_ok; reflexivity|]. split; [apply two_ints_ok; reflexivity|].
  split; [apply two_ints_ok; reflexivity|]. split; [unfold newer; lia|].
  split; [left; eexists; split; [reflexivity|]; auto|]. split; [right; auto|].
  split.
  - intros (s & x & y & [(v & E & _ & ->)|[[E|(v & E & T)] _]] & Ht).
    + injection E as <-. apply two_ints_ok in Ht. discriminate.
    + discriminate.
    + injection E as <-. discriminate.
  - intros H. assert (K : known_ext (snd (splitext (lit "/d.nxt/.nxt"))) = true) by (apply known_ext_ok; auto). discriminate.
Qed.

(** A negative major version is not refused however large the minor version
    is; such a file is neither refused nor converted. *)
Theorem C24_negative_major_refuted :
  exists data s, said data s /\ two_numbers py_int s (-1) 30 /\
  forall full_expand expanders isfile read fuel fp,
  let rp := find_real_path full_expand expanders isfile fp in
  has_ext rp ".nxt" -> read rp = Ok data ->
  exists d, load_file_data full_expand expanders isfile read fuel fp = Some (Ok d) /\ stamped fp rp data d.
Proof.
  exists [(lit "version", VStr (lit "-1.30"))], (lit "-1.30").
  split; [left; eexists; split; [reflexivity|]; auto|]. split; [apply two_ints_ok; reflexivity|].
  intros full_expand expanders isfile read fuel fp rp He Hr.
  exists (stamp fp rp [(lit "version", VStr (lit "-1.30"))]). split; [|apply stamp_ok].
  rewrite (load_eq full_expand expanders isfile read fuel fp _ (or_introl He) Hr). reflexivity.
Qed.
Print Assumptions C24_negative_major_refuted.

(** *** C25 *)

(** Conversion ends for every content of a file whose version is 0.x, 1.x up
    to the current one, or missing, or not a version at all. *)
Theorem C25_terminates :
  forall d, match dget (lit "version") d with
    | Some (VStr s) => forall x y, two_numbers py_int s x y -> x = 0%Z \/ (y <= 17)%Z
    | _ => True end ->
  exists r fuel, forall more, convert_file (fuel + more) d = Some r.
Proof. exact convert_ends. Qed.
Print Assumptions C25_terminates.

(** Each step is applied once, in order, and only the ones that are needed. *)
Theorem C25_each_step_once :
  forall d s x y fuel, dget (lit "version") d = Some (VStr s) -> two_numbers py_int s x y -> x <> 0%Z ->
  Z.to_nat (17 - y) < fuel ->
  ((y <= 9)%Z -> convert_file fuel d = Some (bind (v109 d) (fun d => bind (v114 d) v115))) /\
  ((9 < y <= 14)%Z -> convert_file fuel d = Some (bind (v114 d) v115)) /\
  (y = 15%Z -> convert_file fuel d = Some (v115 d)) /\
  ((15 < y <= 17)%Z -> convert_file fuel d = Some (Ok d)).
Proof.
  intros d s x y fuel Hv Ht Hx Hf.
  assert (C : (y <= 17)%Z -> convert_file fuel d = Some (chain y d)) by (intros Hy; eapply convert_chain; eauto).
  split; [|split; [|split]]; intros Hy; rewrite C by lia; unfold chain.
  - rewrite !(proj2 (Z.leb_le y _)) by lia. reflexivity.
  - rewrite (proj2 (Z.leb_gt y 9)), !(proj2 (Z.leb_le y _)) by lia. reflexivity.
  - subst y. reflexivity.
  - rewrite !(proj2 (Z.leb_gt y _)) by lia. reflexivity.
Qed.
Print Assumptions C25_each_step_once.

(** What a file of version 1.y becomes. *)
Theorem C25_converted :
  forall d s x y fuel d', proper (VDict d) -> rooted_file d ->
  dget (lit "version") d = Some (VStr s) -> two_numbers py_int s x y -> x <> 0%Z ->
  convert_file fuel d = Some (Ok d') -> upgraded y d d'.
Proof.
  intros d s x y fuel d' Hp Hr Hv Ht Hx H.
  destruct (convert_some d s x y fuel d' Hv Ht Hx H) as [_ E]. now apply chain_ok.
Qed.
Print Assumptions C25_converted.

(** A file with the shape the program writes is converted without an error. *)
Theorem C25_converts :
  forall d s x y, proper (VDict d) -> rooted_file d -> file_shape y d ->
  dget (lit "version") d = Some (VStr s) -> two_numbers py_int s x y -> x <> 0%Z -> (y <= 17)%Z ->
  exists d' fuel, forall more, convert_file (fuel + more) d = Some (Ok d').
Proof.
  intros d s x y Hp Hr Hs Hv Ht Hx Hy. destruct (chain_total y d Hp Hr Hs) as [d' E].
  exists d', (S (Z.to_nat (17 - y))). intros more. rewrite (convert_chain d s x y) by (auto; lia). now rewrite E.
Qed.
Print Assumptions C25_converts.

(** In particular it keeps its nodes, sorted, each with its data. *)
Theorem C25_nodes_kept :
  forall d s x y fuel d' n, proper (VDict d) -> rooted_file d ->
  dget (lit "version") d = Some (VStr s) -> two_numbers py_int s x y -> x <> 0%Z ->
  convert_file fuel d = Some (Ok d') -> (y <= 15)%Z -> dget (lit "nodes") d = Some (VDict n) ->
  exists n', dget (lit "nodes") d' = Some (VDict n') /\
  (forall p, In p (map fst n) <-> In p (map fst n')) /\
  forall p v, dget p n = Some v -> exists w, dget p n' = Some w /\ node_kept v w.
Proof.
  intros d s x y fuel d' n Hp Hr Hv Ht Hx H Hy Hn.
  assert (R : forall b e, reordered b e d' -> proper (VDict e) -> osame (dget (lit "nodes") d) (dget (lit "nodes") e) ->
     exists n', dget (lit "nodes") d' = Some (VDict n') /\
     (forall p, In p (map fst n) <-> In p (map fst n')) /\
     forall p v, dget p n = Some v -> exists w, dget p n' = Some w /\ node_kept v w).
  { intros b e (_ & _ & _ & R & _) Pe S. rewrite Hn in S. apply osame_inv in S as (w & Ew & Sw).
    destruct (same_dict_inv _ _ Sw) as [m ->]. destruct (R m Ew) as (n' & En & _ & K1 & K2).
    pose proof (proper_get _ _ _ Hp Hn) as Pn. pose proof (proper_get _ _ _ Pe Ew) as Pm.
    exists n'. split; auto. split.
    - intros p. rewrite <- K1. apply same_keys; auto; now apply proper_nodup.
    - intros p v Hpv. pose proof (same_get_p _ _ p Pn Pm Sw) as Q. rewrite Hpv in Q.
      apply osame_inv in Q as (v1 & Hv1 & Sv). destruct (K2 p v1 Hv1) as (w & Hw' & Kw). exists w. split; auto.
      exact (node_kept_same _ _ _ (proper_get _ _ _ Pn Hpv) (proper_get _ _ _ Pm Hv1) Sv Kw). }
  destruct (C25_converted d s x y fuel d' Hp Hr Hv Ht Hx H) as [[H9 _]|[[_ G]|[[_ G]|[G _]]]].
  - destruct (convert_some d s x y fuel d' Hv Ht Hx H) as [_ E].
    unfold chain in E. rewrite !(proj2 (Z.leb_le y _)) in E by lia.
    destruct (v109 d) as [d1|] eqn:E1; [|discriminate]. cbn [bind] in E.
    destruct (v109_ok _ _ Hp Hr E1) as (P1 & R1 & U1).
    destruct (v114 d1) as [d2|] eqn:E2; [|discriminate]. cbn [bind] in E.
    apply (R true d1); auto; [eapply reordered_true; eauto|]. apply U1. cbn [map In].
    intros [K|[K|[K|[]]]]; discriminate.
  - apply (R true d); auto. reflexivity.
  - apply (R false d); auto. reflexivity.
  - lia.
Qed.
Print Assumptions C25_nodes_kept.

(** Files of 0.39 to 0.45 first have their nested nodes unpacked, and then go
    through every later step. *)
Theorem C25_pre_release :
  forall d s y fuel d', proper (VDict d) -> rooted_file d ->
  dget (lit "version") d = Some (VStr s) -> two_numbers py_int s 0 y -> (39 <= y)%Z -> 17 < fuel ->
  convert_file fuel d = Some (Ok d') ->
  exists d1, upgraded_pre d d1 /\ upgraded 0 d1 d'.
Proof.
  intros d s y fuel d' Hp Hr Hv Ht Hy Hf H. rewrite (convert_pre_any d s y) in H by auto. injection H as H.
  destruct (v1 d) as [d1|] eqn:E; [|discriminate]. cbn [bind] in H.
  destruct (v1_ok _ _ Hp Hr E) as (P1 & R1 & U). exists d1. split; auto. now apply chain_ok.
Qed.
Print Assumptions C25_pre_release.

(** Anything before 0.39 is refused. *)
Theorem C25_too_old_refused :
  forall d s y fuel, dget (lit "version") d = Some (VStr s) -> two_numbers py_int s 0 y ->
  (y < 39)%Z -> convert_file fuel d = Some (Raise IOError).
Proof. exact convert_too_old. Qed.
Print Assumptions C25_too_old_refused.

(** Examples. *)
Definition ex_19 : dict pyval :=
  [(lit "version", VStr (lit "1.9.2"));
   (lit "mute", VBool false);
   (lit "references", VList [VDict [(lit "path", VStr (lit "b.nxt")); (lit "mute", VBool true); (lit "alias", VStr (lit "B"))];
                             VDict [(lit "path", VStr (lit "a.nxt"))]]);
   (lit "meta_data", VDict [(lit "position_data", VDict [(lit "/n", VList [VInt 1; VInt 2])]); (lit "other", VInt 5)]);
   (lit "nodes", VDict [(lit "/n/m", VDict [(lit "code", VList [VStr (lit "x")])]);
                        (lit "/n", VDict [(lit "widget_type", VStr (lit "w")); (lit "comment", VStr (lit "c"))])])].
Example C25_ex_19 :
  proper (VDict ex_19) /\ rooted_file ex_19 /\ file_shape 9 ex_19 /\ two_numbers py_int (lit "1.9.2") 1 9 /\
  convert_file 20 ex_19 = Some (Ok
    [(lit "version", VStr (lit "1.16"));
     (lit "references", VList [VStr (lit "b.nxt"); VStr (lit "a.nxt")]);
     (lit "comp_overrides", VDict [(lit "b.nxt", VDict [(lit "mute", VBool true)])]);
     (lit "meta_data", VDict [(lit "aliases", VDict [(lit "b.nxt", VStr (lit "B"))]);
                              (lit "positions", VDict [(lit "/n", VList [VInt 1; VInt 2])]);
                              (lit "other", VInt 5)]);
     (lit "nodes", VDict [(lit "/n", VDict [(lit "comment", VStr (lit "c"))]);
                          (lit "/n/m", VDict [(lit "code", VList [VStr (lit "x")])])])]).
Proof.
  split. { cbn [proper ex_19]. repeat split; apply distinct_nodup; vm_compute; reflexivity. }
  split. { intros n H. injection H as <-. intros p [<-|[<-|[]]]; cbn; auto. }
  split. { split; [|split; [|split]].
    - intros v H. injection H as <-. eexists. split; [reflexivity|]. intros p x Hx. apply dget_In in Hx.
      destruct Hx as [E|[E|[]]]; injection E as _ <-; eexists; (split; [reflexivity|]); intros a Ha; discriminate.
    - intros v H. injection H as <-. eexists. split; [reflexivity|]. intros k x Hk Hx. apply dget_In in Hx.
      destruct Hx as [E|[E|[]]]; injection E as <- <-; [now eexists|]. exfalso. cbn [map In] in Hk.
      repeat (destruct Hk as [Hk|Hk]; [discriminate|]). exact Hk.
    - intros v H. discriminate.
    - intros _ v H. injection H as <-. eexists. split; [reflexivity|].
      intros r [<-|[<-|[]]]; eexists; (split; [reflexivity|]); intros x Hx; injection Hx as <-; eauto. }
  split; [apply two_ints_ok; reflexivity|]. vm_compute. reflexivity.
Qed.

Definition old_n (name : string) (order : list string) (code : string) (kids : list pyval) : pyval :=
  VDict [(lit "name", VStr (lit name)); (lit "data", VDict [(lit "compute", VList [VStr (lit code)])]);
         (lit "execute_order", VList (map (fun s => VStr (lit s)) order)); (lit "children", VList kids)].
Definition ex_pre : dict pyval :=
  [(lit "version", VStr (lit "0.45.0")); (lit "data", VDict [(lit "start_nodes", VList [VStr (lit "/a")])]);
   (lit "children", VList [old_n "a" ["b"%string] "1" [old_n "b" [] "2" []; old_n "c" [] "3" [old_n "d" [] "4" []]]])].
Example C25_ex_pre :
  proper (VDict ex_pre) /\ rooted_file ex_pre /\ two_numbers py_int (lit "0.45.0") 0 45 /\
  convert_file 20 ex_pre = Some (Ok
    [(lit "version", VStr (lit "1.16"));
     (lit "meta_data", VDict [(lit "start_nodes", VList [VStr (lit "/a")])]);
     (lit "nodes", VDict [(lit "/a", VDict [(lit "start_point", VBool true); (lit "child_order", VList [VStr (lit "b")]);
                                            (lit "code", VList [VStr (lit "1")])]);
                          (lit "/a/b", VDict [(lit "code", VList [VStr (lit "2")])])])]).
Proof.
  split. { cbn [proper ex_pre old_n map]. repeat split; apply distinct_nodup; vm_compute; reflexivity. }
  split; [intros n H; discriminate|]. split; [apply two_ints_ok; reflexivity|]. vm_compute. reflexivity.
Qed.

(** In a file before 1.0 a node its parent does not list is lost, with its
    data: here '/a/c' and below. *)
Theorem C25_unlisted_nodes_lost_refuted :
  exists d d' o, convert_file 20 d = Some (Ok d') /\
  old_node [slash] (match dget (lit "children") d with Some (VList l) => l | _ => [] end) (lit "/a/c") o /\
  ~ In (lit "/a/c") (map fst (dict_at (lit "nodes") d')).
Proof.
  destruct C25_ex_pre as (_ & _ & _ & E). exists ex_pre. eexists. eexists. split; [exact E|]. split.
  - eapply (on_below [slash] _ _ (lit "a")).
    + left. reflexivity.
    + reflexivity.
    + reflexivity.
    + change (lit "/a/c") with (([slash] ++ lit "a" ++ [slash]) ++ lit "c"). eapply on_here.
      * right. left. reflexivity.
      * reflexivity.
  - cbn. intros [H|[H|[]]]; discriminate.
Qed.
Print Assumptions C25_unlisted_nodes_lost_refuted.

(** A node whose path has no '/' is lost by conversion from 1.14 or before. *)
Theorem C25_unrooted_node_lost_refuted :
  exists d d', dget (lit "version") d = Some (VStr (lit "1.14")) /\
  In (lit "n") (map fst (dict_at (lit "nodes") d)) /\
  convert_file 20 d = Some (Ok d') /\ dict_at (lit "nodes") d' = [].
Proof.
  exists [(lit "version", VStr (lit "1.14")); (lit "nodes", VDict [(lit "n", VDict [])])]. eexists.
  split; [reflexivity|]. split; [now left|]. split; [vm_compute; reflexivity|]. reflexivity.
Qed.
Print Assumptions C25_unrooted_node_lost_refuted.

(** Converting a file that is newer than the program never ends (the command
    line's convert does not check the version first). *)
Theorem C25_newer_never_ends_refuted :
  forall d s x y fuel, dget (lit "version") d = Some (VStr s) -> two_numbers py_int s x y ->
  x <> 0%Z -> (y > 17)%Z -> convert_file fuel d = None.
Proof. exact convert_endless. Qed.
Print Assumptions C25_newer_never_ends_refuted.

(** The converted data says 1.16, not the current version. *)
Theorem C25_stops_at_1_16_refuted :
  exists d d', dget (lit "version") d = Some (VStr (lit "1.15")) /\ convert_file 20 d = Some (Ok d') /\
  dget (lit "version") d' = Some (VStr (lit "1.16")).
Proof.
  exists [(lit "version", VStr (lit "1.15"))]. eexists. split; [reflexivity|]. split; [vm_compute; reflexivity|]. reflexivity.
Qed.
Print Assumptions C25_stops_at_1_16_refuted.
