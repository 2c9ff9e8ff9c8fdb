(** C74: keeping track of log files. *)

From Coq Require Import String List NArith ZArith Bool Lia.
From Verif Require Import PyStr PyStrFacts Dict PyVal LogTrack LogTrackSpec LogTrackProofs.
Import ListNotations.

Section Props.
Variables (space : N -> bool) (can_remove : pystr -> bool).
Let track := LogTrack.track space can_remove.
Let sane := LogTrackSpec.sane space.
Let list_after := LogTrackSpec.list_after space can_remove.

Lemma track_list w p d ls : Forall sane ls ->
  track w p d (Some (listing ls)) =
  (fst (fold_left (check can_remove) ls (d, ls)),
   if w then Some (listing (snd (fold_left (check can_remove) ls (d, ls)) ++ [p])) else Some (listing ls)).
Proof.
  intros H. unfold track, LogTrack.track. rewrite read_listing by exact H. destruct (fold_left _ _ _) as (d', ls'). cbn [fst snd]. now rewrite listing_concat.
Qed.
Lemma track_none w p d : track w p d None = (d, if w then Some (listing [p]) else None).
Proof. unfold track, LogTrack.track. reflexivity. Qed.

(** After a history of calls the list is made of paths that were tracked. *)
Lemma list_after_some h : Forall (fun c => sane (snd c)) h -> h <> [] ->
  exists ls, list_after h = Some (listing ls) /\ Forall sane ls /\ (forall p, In p ls -> In p (map snd h)).
Proof.
  induction h as [|(d, p) h IH]; intros Hs Hn; [congruence|]. inversion Hs as [|? ? Hp Hh]; subst. cbn [snd] in Hp.
  cbn [list_after LogTrackSpec.list_after]. change (LogTrack.track space can_remove) with track. change (LogTrackSpec.list_after space can_remove h) with (list_after h).
  destruct h as [|c h].
  - cbn [list_after LogTrackSpec.list_after]. rewrite track_none. exists [p]. repeat split; [repeat constructor; apply Hp|]. intros q [<-|[]]. now left.
  - destruct IH as (ls & E & S & I); [exact Hh|discriminate|]. rewrite E, track_list by exact S. cbn [snd]. eexists. split; [reflexivity|].
    assert (In' : forall q, In q (snd (fold_left (check can_remove) ls (d, ls))) -> In q ls) by (intros q; apply fold_incl).
    split.
    + apply Forall_app. split; [|repeat constructor; apply Hp]. apply Forall_forall. intros q Hq. apply In' in Hq. rewrite Forall_forall in S. now apply S.
    + intros q Hq. apply in_app_or in Hq as [Hq|[<-|[]]]; [right; apply I; now apply In'|now left].
Qed.

(** Whatever happened before, a call removes only files that were tracked and
    are older than two days; it changes nothing else on the disk. *)
Theorem C74_removes_only_old :
  forall h w p d d' meta, Forall (fun c => sane (snd c)) h ->
  track w p d (list_after h) = (d', meta) ->
  forall q, d' q = d q \/ In q (map snd h) /\ stale d q /\ d' q = Missing.
Proof.
  intros h w p d d' meta Hs H q. destruct h as [|c h].
  { cbn [list_after LogTrackSpec.list_after] in H. rewrite track_none in H. injection H as <- _. now left. }
  destruct (list_after_some (c :: h) Hs) as (ls & E & S & I); [discriminate|]. rewrite E, track_list in H by exact S. injection H as <- _.
  destruct (fold_disk can_remove ls d ls q) as [F|(A & B & C)]; [now left|right]. split; [now apply I|]. now split.
Qed.

(** A tracked log is not forgotten while it is there: the first call that finds
    it older than two days, and can remove it, does. *)
Theorem C74_removes_old :
  forall later d0 p earlier w p' d d' meta,
  Forall (fun c => sane (snd c)) (later ++ (d0, p) :: earlier) ->
  Forall (fun c => stays can_remove (fst c) p) later ->
  stale d p -> can_remove p = true ->
  track w p' d (list_after (later ++ (d0, p) :: earlier)) = (d', meta) -> d' p = Missing.
Proof.
  intros later d0 p earlier w p' d d' meta Hs Hst Hold Hr H.
  assert (L : exists ls, list_after (later ++ (d0, p) :: earlier) = Some (listing ls) /\ Forall sane ls /\ In p ls).
  { clear H. induction later as [|(d1, p1) later IH]; cbn [app] in *.
    - inversion Hs as [|? ? Hp Hh]; subst. cbn [snd] in Hp. cbn [list_after LogTrackSpec.list_after].
      change (LogTrack.track space can_remove) with track. change (LogTrackSpec.list_after space can_remove earlier) with (list_after earlier).
      destruct earlier as [|c h].
      + cbn [list_after LogTrackSpec.list_after]. rewrite track_none. exists [p]. split; [reflexivity|]. split; [repeat constructor; apply Hp|now left].
      + destruct (list_after_some (c :: h) Hh) as (ls & E & S & I); [discriminate|]. rewrite E, track_list by exact S. cbn [snd]. eexists. split; [reflexivity|].
        split; [|apply in_or_app; right; now left]. apply Forall_app. split; [|repeat constructor; apply Hp].
        apply Forall_forall. intros q Hq. apply fold_incl in Hq. rewrite Forall_forall in S. now apply S.
    - inversion Hs as [|? ? Hp Hh]; subst. inversion Hst as [|? ? Hs1 Hs2]; subst. cbn [fst snd] in *. destruct (IH Hh Hs2) as (ls & E & S & I).
      cbn [list_after LogTrackSpec.list_after]. change (LogTrack.track space can_remove) with track.
      change (LogTrackSpec.list_after space can_remove (later ++ (d0, p) :: earlier)) with (list_after (later ++ (d0, p) :: earlier)).
      rewrite E, track_list by exact S. cbn [snd]. eexists. split; [reflexivity|]. split.
      + apply Forall_app. split; [|repeat constructor; apply Hp]. apply Forall_forall. intros q Hq. apply fold_incl in Hq. rewrite Forall_forall in S. now apply S.
      + apply in_or_app. left. now apply fold_stays. }
  destruct L as (ls & E & S & I). rewrite E, track_list in H by exact S. injection H as <- _. now apply fold_gone.
Qed.

(** The list after a call: the paths listed before that were files, in the same
    order, and the new path.  A file the call removes is still listed, until the
    next call.  A list that cannot be written stays as it is. *)
Theorem C74_list :
  forall w p d ls, Forall sane ls -> NoDup ls ->
  snd (track w p d (Some (listing ls))) =
  Some (listing (if w then filter (fun q => match d q with File _ | Unreadable => true | _ => false end) ls ++ [p] else ls)).
Proof.
  intros w p d ls Hs Hn. rewrite track_list by exact Hs. cbn [snd]. destruct w; [|reflexivity].
  f_equal. f_equal. f_equal. apply (fold_list can_remove ls d d []); [exact Hn|intros x _ []|reflexivity].
Qed.
(** A last line that does not end counts like one that does. *)
Theorem C74_unended :
  forall p d ls q, Forall sane ls -> sane q -> q <> [] ->
  track true p d (Some (listing ls ++ q)) = track true p d (Some (listing (ls ++ [q]))).
Proof.
  intros p d ls q Hs Hq N. unfold track, LogTrack.track. rewrite read_open by assumption. now rewrite read_listing by (apply Forall_app; split; auto).
Qed.
Theorem C74_first :
  forall w p d, track w p d None = (d, if w then Some (listing [p]) else None).
Proof. intros. apply track_none. Qed.
End Props.

(** ** Samples *)

Definition blank (c : N) : bool := N.eqb c 32 || N.eqb c 10.
Definition s_disk (p : pystr) : entry :=
  if str_eqb p (lit "/old") then File 172801
  else if str_eqb p (lit "/new") then File 172800
  else if str_eqb p (lit "/old ") then File 999999
  else Missing.
Definition s_young (p : pystr) : entry := match s_disk p with File _ => File 5 | e => e end.
Definition yes (p : pystr) := true.

Example C74_sample :
  let h := [(s_young, lit "/new"); (s_young, lit "/gone"); (s_young, lit "/old")] in
  Forall (fun c => sane blank (snd c)) h /\ stale s_disk (lit "/old") /\
  Forall (fun c => stays yes (fst c) (lit "/old")) [(s_young, lit "/new"); (s_young, lit "/gone")] /\
  let r := track blank yes true (lit "/x") s_disk (list_after blank yes h) in
  fst r (lit "/old") = Missing /\ fst r (lit "/new") = File 172800 /\
  snd r = Some (listing [lit "/old"; lit "/new"; lit "/x"]).
Proof.
  cbn zeta. split; [|split; [|split; [|vm_compute; repeat split]]].
  - assert (G : forall p l, p = rev l -> ~ In 10%N p -> match l with c :: _ => blank c = false | [] => True end -> sane blank p).
    { intros p l -> Hn Hl. split; [exact Hn|]. intros q c E. apply (f_equal (@rev N)) in E. rewrite rev_involutive, rev_app_distr in E. cbn in E. subst l. exact Hl. }
    repeat constructor; cbn [snd].
    + cbn. intuition discriminate.
    + apply (G (lit "/new") (rev (lit "/new"))); [now rewrite rev_involutive|cbn; intuition discriminate|reflexivity].
    + cbn. intuition discriminate.
    + apply (G (lit "/gone") (rev (lit "/gone"))); [now rewrite rev_involutive|cbn; intuition discriminate|reflexivity].
    + cbn. intuition discriminate.
    + apply (G (lit "/old") (rev (lit "/old"))); [now rewrite rev_involutive|cbn; intuition discriminate|reflexivity].
  - exists 172801%Z. split; [reflexivity|lia].
  - apply Forall_forall; intros c [<-|[<-|[]]]; left; exists 5%Z; (split; [reflexivity|left; lia]).
Qed.

(** ** What a user may expect but does not hold *)

(** A log whose path ends in white space is never removed. *)
Theorem C74_any_path_refuted :
  ~ (forall space can_remove d0 p d, stale d p -> can_remove p = true ->
     fst (track space can_remove true (lit "/x") d (list_after space can_remove [(d0, p)])) p = Missing).
Proof.
  intros H. specialize (H blank yes s_young (lit "/old ") s_disk). assert (F : stale s_disk (lit "/old ")) by (exists 999999%Z; split; [reflexivity|lia]).
  specialize (H F eq_refl). vm_compute in H. discriminate H.
Qed.

Print Assumptions C74_removes_only_old.
Print Assumptions C74_removes_old.
Print Assumptions C74_list.
Print Assumptions C74_first.
Print Assumptions C74_unended.
Print Assumptions C74_any_path_refuted.
