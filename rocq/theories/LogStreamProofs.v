(** Proofs about the log receiver. *)

From Coq Require Import String List NArith ZArith Bool Arith Lia.
From Verif Require Import PyStr PyStrFacts Dict DictFacts PyVal LogStream LogStreamSpec.
Import ListNotations.

Lemma header_length m : length (header m) = 4.
Proof. reflexivity. Qed.

Lemma unpack_header m : fits m -> N.to_nat (unpack (header m)) = length m.
Proof.
  unfold fits. intros H. unfold unpack, header. cbn [fold_left].
  set (n := N.of_nat (length m)) in *.
  assert (E : ((((0 * 256 + n / 16777216) * 256 + (n / 65536) mod 256) * 256 + (n / 256) mod 256) * 256 + n mod 256 = n)%N).
  { replace (n / 16777216)%N with (n / 256 / 256 / 256)%N by (now rewrite !N.div_div by discriminate).
    replace (n / 65536)%N with (n / 256 / 256)%N by (now rewrite !N.div_div by discriminate).
    pose proof (N.div_mod n 256 ltac:(discriminate)).
    pose proof (N.div_mod (n / 256) 256 ltac:(discriminate)).
    pose proof (N.div_mod (n / 256 / 256) 256 ltac:(discriminate)). lia. }
  rewrite E. apply Nat2N.id.
Qed.

Lemma app_inv_length {A} (a b c d : list A) : a ++ b = c ++ d -> length a = length c -> a = c /\ b = d.
Proof.
  revert c. induction a as [|x a IH]; intros [|y c] E L; cbn in L; try discriminate; [now split|].
  injection E as -> E. destruct (IH c E) as (-> & ->); [lia|]. now split.
Qed.

Definition solid (c : list (list N)) := Forall (fun s : list N => s <> []) c.

(** Segment ends of c' other than its beginning are segment ends of c. *)
Definition ends_in (c' c : list (list N)) : Prop :=
  forall e l, c' = e ++ l -> e <> [] -> exists e', e' <> [] /\ c = e' ++ l.

(** And those of c that lie in c' are segment ends of c'. *)
Definition ends_of (c' c : list (list N)) : Prop :=
  length (concat c') <= length (concat c) /\
  forall e l, c = e ++ l -> length (concat l) < length (concat c') -> exists e', c' = e' ++ l.
Definition tail_of (c' c : list (list N)) : Prop := ends_in c' c /\ ends_of c' c.

Lemma tail_of_refl c : tail_of c c.
Proof. split; [intros e l -> H; now exists e|]. split; [lia|]. intros e l -> _. now exists e. Qed.
Lemma tail_of_trans a b c : tail_of a b -> tail_of b c -> tail_of a c.
Proof.
  intros (H1 & L1 & G1) (H2 & L2 & G2). split; [|split; [lia|]].
  - intros e l E He. destruct (H1 e l E He) as (e' & He' & ->). now apply (H2 e' l).
  - intros e l E Hl. destruct (G2 e l E) as (e' & ->); [lia|]. now apply (G1 e' l).
Qed.

Lemma recv_facts n c : solid c ->
  fst (recv n c) ++ concat (snd (recv n c)) = concat c /\
  length (fst (recv n c)) <= n /\ solid (snd (recv n c)) /\ tail_of (snd (recv n c)) c /\
  (0 < n -> concat c <> [] -> fst (recv n c) <> []).
Proof.
  intros H. destruct c as [|s rest]; cbn [recv fst snd].
  { split; [reflexivity|]. split; [cbn; lia|]. split; [constructor|]. split; [apply tail_of_refl|cbn; congruence]. }
  inversion H as [|? ? Hs Hr]; subst. split; [|split; [|split; [|split]]].
  - destruct (skipn n s) as [|b r] eqn:E.
    + cbn [concat]. f_equal. rewrite <- (firstn_skipn n s) at 2. now rewrite E, app_nil_r.
    + cbn [concat]. rewrite app_assoc. f_equal. rewrite <- E. apply firstn_skipn.
  - rewrite firstn_length. lia.
  - destruct (skipn n s); [exact Hr|]. constructor; [discriminate|exact Hr].
  - split; [|split].
    + intros e l E He. destruct (skipn n s) as [|b r].
      * subst rest. exists (s :: e). split; [discriminate|reflexivity].
      * destruct e as [|x e]; [congruence|]. injection E as <- ->. exists (s :: e). split; [discriminate|reflexivity].
    + pose proof (f_equal (@length N) (firstn_skipn n s)) as L. rewrite app_length in L.
      destruct (skipn n s) as [|b r]; cbn [concat length] in *; rewrite ?app_length; cbn [length] in *; lia.
    + intros e l E Hl. destruct e as [|x e].
      * exfalso. cbn in E. subst l. pose proof (f_equal (@length N) (firstn_skipn n s)) as L. rewrite app_length in L.
        destruct (skipn n s) as [|b r]; cbn [concat length] in *; rewrite ?app_length in *; cbn [length] in *; lia.
      * injection E as <- ->. destruct (skipn n s) as [|b r]; [now exists e|]. now exists ((b :: r) :: e).
  - intros Hn _. destruct s; [congruence|]. destruct n; [lia|discriminate].
Qed.

Lemma fill_spec slen : forall d chunk c rest body, solid c -> slen - length chunk <= d ->
  chunk ++ concat c = body ++ rest -> length body = slen -> length chunk <= slen ->
  forall fuel, d <= fuel ->
  exists c', fill fuel slen chunk c = Some (body, c') /\ concat c' = rest /\ solid c' /\ tail_of c' c.
Proof.
  induction d as [|d IH]; intros chunk c rest body Hs Hd E Hb Hl fuel Hf.
  - assert (El : length chunk = slen) by lia.
    exists c. assert (Ec : chunk = body /\ concat c = rest).
    { apply app_inv_length in E; [exact E|lia]. }
    destruct Ec as (-> & <-). split; [|auto using tail_of_refl].
    destruct fuel; cbn [fill]; rewrite (proj2 (Nat.ltb_ge _ _)) by lia; reflexivity.
  - destruct (Nat.lt_ge_cases (length chunk) slen) as [Hlt|Hge].
    + destruct fuel as [|fuel]; [lia|]. cbn [fill]. rewrite (proj2 (Nat.ltb_lt _ _)) by lia.
      destruct (recv_facts (slen - length chunk) c Hs) as (E1 & E2 & E3 & E4 & E5).
      destruct (recv _ c) as [more c1] eqn:Er. cbn [fst snd] in *.
      assert (Hc : concat c <> []).
      { intros F. rewrite F, app_nil_r in E. apply (f_equal (@length N)) in E. rewrite app_length in E. lia. }
      assert (Hm : 0 < length more) by (destruct more; [exfalso; apply E5; [lia|exact Hc|reflexivity]|cbn; lia]).
      destruct (IH (chunk ++ more) c1 rest body E3) with (fuel := fuel) as (c' & F1 & F2 & F3 & F4).
      * rewrite app_length. lia.
      * rewrite <- app_assoc, E1. exact E.
      * exact Hb.
      * rewrite app_length. lia.
      * lia.
      * exists c'. split; [exact F1|]. split; [exact F2|]. split; [exact F3|]. eapply tail_of_trans; eauto.
    + destruct (IH chunk c rest body Hs) with (fuel := fuel) as (c' & F); auto; try lia. now exists c'.
Qed.

(** Not enough bytes will ever come. *)
Lemma fill_starved slen : forall fuel chunk c, solid c -> length chunk + length (concat c) < slen ->
  fill fuel slen chunk c = None.
Proof.
  induction fuel as [|fuel IH]; intros chunk c Hs H; cbn [fill]; rewrite (proj2 (Nat.ltb_lt _ _)) by lia; [reflexivity|].
  destruct (recv_facts (slen - length chunk) c Hs) as (E1 & E2 & E3 & _).
  destruct (recv _ c) as [more c1]. cbn [fst snd] in *. apply IH; [exact E3|].
  apply (f_equal (@length N)) in E1. rewrite app_length in *. lia.
Qed.

Section Receiver.
Variables (un_pickle : list N -> res (dict pyval)) (logname : option pystr).
Notation handle := (handle un_pickle logname).

Lemma relabel_logged m : readable un_pickle m ->
  exists obj, bind (un_pickle m) relabel = Ok obj /\ logged un_pickle logname m (log_record logname obj).
Proof.
  intros (obj & E & H). rewrite E. cbn [bind]. unfold relabel.
  assert (Hsame : logged un_pickle logname m (log_record logname obj) \/
                  exists c s, dget (lit "levelname") obj = Some (VStr (c :: s))).
  { destruct (dget (lit "levelname") obj) as [[| | |[|c s]| | | |]|] eqn:El; try contradiction;
      try (right; eauto; fail); left; exists obj; rewrite El;
      (split; [exact E|]; split; [reflexivity|]; split; [exact El|]; unfold log_record; cbn [fst];
       destruct logname; [reflexivity|]; destruct (dget (lit "name") obj); reflexivity). }
  destruct (dget (lit "levelname") obj) as [v|] eqn:El.
  - destruct v as [| | |s| | | |]; try contradiction.
    + cbn [truthy]. exists obj. split; [reflexivity|]. destruct Hsame as [?|(c & s & F)]; [assumption|congruence].
    + destruct s as [|c s]; cbn [truthy].
      * exists obj. split; [reflexivity|]. destruct Hsame as [?|(c & s & F)]; [assumption|congruence].
      * eexists. split; [reflexivity|]. exists obj. rewrite El. unfold log_record. cbn [fst snd].
        split; [exact E|]. split; [intros k Hk; apply dget_dset_other; congruence|]. split; [apply dget_dset_same|].
        destruct logname; [reflexivity|]. rewrite dget_dset_other by discriminate.
        destruct (dget (lit "name") obj); reflexivity.
  - exists obj. split; [reflexivity|]. destruct Hsame as [?|(c & s & F)]; [assumption|congruence].
Qed.

(** The header of the next message arrives in one piece. *)
Lemma header_whole c m rest : solid c -> concat c = header m ++ rest -> ~ header_cut c [] m ->
  exists c1, recv 4 c = (header m, c1) /\ concat c1 = rest /\ solid c1 /\ tail_of c1 c.
Proof.
  intros Hs E Hc. destruct c as [|s tl]; [discriminate|].
  assert (Hlen : 4 <= length s).
  { destruct (Nat.lt_ge_cases (length s) 4) as [Hlt|]; [exfalso|lia].
    inversion Hs as [|? ? Hne _]; subst. cbn [concat] in E.
    apply Hc. exists [s], tl, s, (skipn (length s) (header m)). 
    assert (Eh : header m = s ++ skipn (length s) (header m)).
    { rewrite <- (firstn_skipn (length s) (header m)) at 1. f_equal.
      apply (f_equal (firstn (length s))) in E. rewrite firstn_app, firstn_all, Nat.sub_diag, app_nil_r in E.
      rewrite firstn_app in E. rewrite header_length in E.
      replace (length s - 4) with 0 in E by lia. rewrite app_nil_r in E. now symmetry. }
    split; [reflexivity|]. split; [exact Eh|]. split; [exact Hne|]. split.
    - intros F. apply (f_equal (@length N)) in F. rewrite skipn_length, header_length in F. cbn [length] in F. lia.
    - cbn [concat]. now rewrite app_nil_r. }
  destruct (recv_facts 4 (s :: tl) Hs) as (E1 & E2 & E3 & E4 & _).
  destruct (recv 4 (s :: tl)) as [h c1] eqn:Er. cbn [fst snd] in *. exists c1.
  assert (Hh : length h = 4).
  { assert (Eh : h = firstn 4 s) by (unfold recv in Er; congruence). rewrite Eh. apply firstn_length_le. exact Hlen. }
  rewrite E in E1. apply app_inv_length in E1; [|rewrite header_length; exact Hh].
  destruct E1 as (-> & <-). auto.
Qed.

(** One message is taken off. *)
Lemma take_message c m tail : solid c -> concat c = header m ++ m ++ tail -> fits m -> ~ header_cut c [] m ->
  exists c', solid c' /\ concat c' = tail /\ tail_of c' c /\
    forall obj fuel, bind (un_pickle m) relabel = Ok obj -> length m <= fuel ->
      handle (S fuel) c = (log_record logname obj :: fst (handle fuel c'), snd (handle fuel c')).
Proof.
  intros Hs E Hf Hc.
  destruct (header_whole c m _ Hs E Hc) as (c1 & E1 & E2 & E3 & E4).
  destruct (recv_facts (length m) c1 E3) as (F1 & F2 & F3 & F4 & _).
  destruct (recv (length m) c1) as [chunk c2] eqn:Er. cbn [fst snd] in *.
  assert (Hex : exists c', fill (length m) (length m) chunk c2 = Some (m, c') /\ concat c' = tail /\ solid c' /\ tail_of c' c2).
  { apply (fill_spec (length m) (length m) chunk c2 tail m); auto; try lia. now rewrite F1, E2. }
  destruct Hex as (c' & G1 & G2 & G3 & G4). exists c'.
  split; [exact G3|]. split; [exact G2|]. split; [eapply tail_of_trans; [exact G4|]; eapply tail_of_trans; eauto|].
  intros obj fuel Hobj Hfuel. cbn [LogStream.handle]. rewrite E1, header_length. cbn [Nat.ltb Nat.leb].
  rewrite unpack_header by exact Hf. rewrite Er.
  assert (Hfill : fill fuel (length m) chunk c2 = Some (m, c')).
  { destruct (fill_spec (length m) (length m) chunk c2 tail m) with (fuel := fuel) as (c'' & H1 & _); auto; try lia.
    { now rewrite F1, E2. }
    rewrite H1. f_equal. f_equal.
    (* more fuel does not change the result *)
    assert (Hmono : forall n k ch cc r, fill n (length m) ch cc = Some r -> fill (n + k) (length m) ch cc = Some r).
    { induction n as [|n IHn]; intros k ch cc r; cbn [fill Nat.add].
      - destruct (length ch <? length m) eqn:El; [discriminate|]. destruct k; cbn [fill]; now rewrite El.
      - destruct (length ch <? length m); [|auto]. destruct (recv _ cc) as [mo c0]. apply IHn. }
    pose proof (Hmono _ (fuel - length m) _ _ _ G1) as H2. replace (length m + (fuel - length m)) with fuel in H2 by lia.
    congruence. }
  rewrite Hfill, Hobj. destruct (handle fuel c') as [out e]. reflexivity.
Qed.

(** Cuts after the first message are cuts before it. *)
Lemma cut_later c c' m before x : tail_of c' c -> concat c = (header m ++ m) ++ concat c' ->
  header_cut c' before x -> header_cut c (m :: before) x.
Proof.
  intros (He & _) E (e & l & h1 & h2 & -> & Eh & H1 & H2 & Ec).
  destruct (He e l eq_refl) as (e' & He' & ->).
  { intros ->. cbn in Ec. apply H1. symmetry in Ec. now apply app_eq_nil in Ec. }
  exists e', l, h1, h2. split; [reflexivity|]. split; [exact Eh|]. split; [exact H1|]. split; [exact H2|]. unfold stream in *. cbn [map concat].
  rewrite <- app_assoc, <- Ec. rewrite !concat_app, app_assoc in E.
  apply app_inv_tail in E. exact E.
Qed.

Definition fuel_for (ms : list (list N)) : nat := fold_right (fun m n => S (length m + n)) 1 ms.

Lemma fuel_more ms : length ms < fuel_for ms.
Proof. induction ms as [|m ms IH]; cbn; [lia|]. fold (fuel_for ms). lia. Qed.

(** Messages whose headers are not cut are taken off one by one. *)
Lemma take_messages : forall ms tail c, solid c -> concat c = stream ms ++ tail ->
  Forall fits ms -> Forall (readable un_pickle) ms ->
  (forall before m after, ms = before ++ m :: after -> ~ header_cut c before m) ->
  exists c' out, solid c' /\ concat c' = tail /\ tail_of c' c /\ Forall2 (logged un_pickle logname) ms out /\
    forall fuel, fuel_for ms <= fuel ->
      handle fuel c = (out ++ fst (handle (fuel - length ms) c'), snd (handle (fuel - length ms) c')).
Proof.
  induction ms as [|m ms IH]; intros tail c Hs E Hf Hr Hc.
  - exists c, []. cbn [stream map concat app] in *. split; [exact Hs|]. split; [exact E|]. split; [apply tail_of_refl|]. split; [constructor|]. intros fuel _. cbn [length app]. rewrite Nat.sub_0_r.
    destruct (handle fuel c); reflexivity.
  - inversion Hf; inversion Hr; subst.
    destruct (take_message c m (stream ms ++ tail) Hs) as (c1 & A1 & A2 & A3 & A4);
      [unfold stream in *; cbn [map concat] in E; now rewrite <- !app_assoc in E|assumption|now apply (Hc [] m ms)|].
    assert (Econc : concat c = (header m ++ m) ++ concat c1).
    { rewrite E, A2. unfold stream. cbn [map concat]. now rewrite <- !app_assoc. }
    destruct (IH tail c1 A1 A2) as (c' & out & B1 & B2 & B3 & B4 & B5); auto.
    { intros before x after -> Hx. apply (Hc (m :: before) x after eq_refl). eapply cut_later; eauto. }
    destruct (relabel_logged m) as (obj & O1 & O2); [assumption|].
    exists c', (log_record logname obj :: out). split; [exact B1|]. split; [exact B2|].
    split; [eapply tail_of_trans; eauto|]. split; [now constructor|].
    intros fuel Hfuel. cbn [fuel_for fold_right] in Hfuel. fold (fuel_for ms) in Hfuel.
      destruct fuel as [|fuel]; [lia|].
      rewrite (A4 obj fuel O1) by lia. rewrite (B5 fuel) by lia. reflexivity.
Qed.

Lemma handle_closed fuel c : solid c -> concat c = [] -> 0 < fuel -> handle fuel c = ([], Closed).
Proof.
  intros Hs E Hf. destruct fuel; [lia|]. destruct c as [|s tl]; [reflexivity|].
  inversion Hs; subst. destruct s; [congruence|discriminate].
Qed.

(** A cut header ends the loop. *)
Lemma handle_cut fuel c m : solid c -> (exists rest, concat c = header m ++ rest) -> header_cut c [] m -> 0 < fuel ->
  handle fuel c = ([], Closed).
Proof.
  intros Hs (rest & E) (e & l & h1 & h2 & -> & Eh & H1 & H2 & Ec) Hf. destruct fuel; [lia|].
  cbn [stream map concat app] in Ec.
  assert (Hl : length h1 < 4).
  { pose proof (header_length m) as L. rewrite Eh, app_length in L. destruct h2; [congruence|cbn in L; lia]. }
  destruct e as [|s e]; [cbn in Ec; congruence|]. cbn [app LogStream.handle recv].
  assert (Hs4 : length s < 4).
  { apply (f_equal (@length N)) in Ec. cbn [concat] in Ec. rewrite app_length in Ec. lia. }
  rewrite (proj2 (Nat.ltb_lt _ _)); [reflexivity|]. rewrite firstn_length. lia.
Qed.

(** C41: if no header is cut, every message is logged, in order. *)
Lemma all_logged ms segs : segments segs (stream ms) -> Forall fits ms -> Forall (readable un_pickle) ms ->
  (forall before m after, ms = before ++ m :: after -> ~ header_cut segs before m) ->
  exists out, Forall2 (logged un_pickle logname) ms out /\
    forall fuel, fuel_for ms <= fuel -> handle fuel segs = (out, Closed).
Proof.
  intros (E & Hs) Hf Hr Hc.
  destruct (take_messages ms [] segs Hs) as (c' & out & A1 & A2 & _ & A4 & A5); auto.
  { now rewrite app_nil_r. }
  exists out. split; [exact A4|]. intros fuel Hfuel.
  rewrite (A5 fuel Hfuel). pose proof (fuel_more ms). rewrite handle_closed by (auto; lia). cbn. now rewrite app_nil_r.
Qed.

(** A cut header loses its message and all after it. *)
Lemma cut_loses ms m rest segs : segments segs (stream (ms ++ m :: rest)) -> Forall fits ms ->
  Forall (readable un_pickle) ms -> fits m ->
  (forall before x after, ms = before ++ x :: after -> ~ header_cut segs before x) ->
  header_cut segs ms m ->
  exists out, Forall2 (logged un_pickle logname) ms out /\
    forall fuel, fuel_for ms <= fuel -> handle fuel segs = (out, Closed).
Proof.
  intros (E & Hs) Hf Hr Hfm Hc Hcut.
  destruct (take_messages ms (stream (m :: rest)) segs Hs) as (c' & out & A1 & A2 & A3 & A4 & A5); auto.
  { rewrite E. unfold stream. now rewrite map_app, concat_app. }
  exists out. split; [exact A4|]. intros fuel Hfuel. rewrite (A5 fuel Hfuel). pose proof (fuel_more ms).
  rewrite (handle_cut _ c' m); auto; try lia.
  - cbn. now rewrite app_nil_r.
  - exists (m ++ stream rest). rewrite A2. unfold stream. cbn [map concat]. now rewrite <- app_assoc.
  - destruct Hcut as (e & l & h1 & h2 & Ee & Eh & H1 & H2 & Ec).
    assert (Etot : stream (ms ++ m :: rest) = stream ms ++ h1 ++ h2 ++ m ++ stream rest).
    { unfold stream. rewrite map_app, concat_app. cbn [map concat]. rewrite Eh, <- !app_assoc. reflexivity. }
    assert (Er' : concat c' = h1 ++ h2 ++ m ++ stream rest).
    { rewrite A2. unfold stream. cbn [map concat]. rewrite Eh, <- !app_assoc. reflexivity. }
    assert (El : concat l = h2 ++ m ++ stream rest).
    { rewrite <- E, Ee, concat_app, Ec, <- app_assoc in Etot. now apply app_inv_head, app_inv_head in Etot. }
    destruct A3 as (_ & _ & G). destruct (G e l Ee) as (e' & Ee').
    { rewrite El, Er'. rewrite (app_length h1). destruct h1; [congruence|cbn; lia]. }
    exists e', l, h1, h2. split; [exact Ee'|]. repeat (split; [assumption|]). cbn [stream map concat app].
    rewrite Ee', concat_app, El in Er'. now apply app_inv_tail in Er'.
Qed.

(** The other side closes inside a message: the receiver waits for ever. *)
Lemma truncated_hangs ms m part segs : segments segs (stream ms ++ header m ++ part) -> Forall fits ms ->
  Forall (readable un_pickle) ms -> fits m -> length part < length m ->
  (forall before x after, ms = before ++ x :: after -> ~ header_cut segs before x) ->
  ~ header_cut segs ms m ->
  forall fuel, snd (handle fuel segs) = OutOfFuel.
Proof.
  intros (E & Hs) Hf Hr Hfm Hl Hc Hcut fuel.
  destruct (take_messages ms (header m ++ part) segs Hs E Hf Hr Hc) as (c' & out & A1 & A2 & A3 & A4 & A5).
  assert (Hcut' : ~ header_cut c' [] m).
  { intros (e & l & h1 & h2 & Ee & Eh & H1 & H2 & Ec). apply Hcut. destruct A3 as (G & _).
    destruct (G e l Ee) as (e' & He' & E'). { intros ->. cbn in Ec. congruence. }
    exists e', l, h1, h2. split; [exact E'|]. repeat (split; [assumption|]). cbn [stream map concat app] in Ec.
    rewrite E' , concat_app in E. rewrite <- A2, Ee, concat_app, Ec, app_assoc in E. now apply app_inv_tail in E. }
  (* waiting: with any fuel left the handler runs out of it *)
  assert (Hwait : forall k, handle k c' = ([], OutOfFuel)).
  { intros [|k]; [reflexivity|].
    destruct (header_whole c' m part A1 A2 Hcut') as (c1 & E1 & E2 & E3 & E4).
    cbn [LogStream.handle]. rewrite E1, header_length. cbn [Nat.ltb Nat.leb]. rewrite unpack_header by exact Hfm.
    destruct (recv_facts (length m) c1 E3) as (F1 & _ & F3 & _).
    destruct (recv (length m) c1) as [chunk c2]. cbn [fst snd] in *.
    rewrite fill_starved; [reflexivity|exact F3|]. rewrite <- app_length, F1, E2. exact Hl. }
  destruct (Nat.lt_ge_cases fuel (fuel_for ms)) as [Hlt|Hge].
  - (* less fuel cannot finish earlier *)
    assert (Hmono : forall k c e out0, handle k c = (out0, e) -> e <> OutOfFuel -> forall d, handle (k + d) c = (out0, e)).
    { induction k as [|k IH]; intros c e out0 H He d; [cbn in H; congruence|]. cbn [Nat.add LogStream.handle] in *.
      destruct (recv 4 c) as [ch c1]. destruct (length ch <? 4); [exact H|].
      destruct (recv _ c1) as [ch2 c2].
      assert (Hfill : forall n k ch cc r, fill n k ch cc = Some r -> fill (n + d) k ch cc = Some r).
      { clear. induction n as [|n IHn]; intros k ch cc r; cbn [fill Nat.add].
        - destruct (length ch <? k) eqn:El; [discriminate|]. destruct d; cbn [fill]; now rewrite El.
        - destruct (length ch <? k); [|auto]. destruct (recv _ cc) as [mo c0]. apply IHn. }
      destruct (fill k _ ch2 c2) as [[ch3 c3]|] eqn:Ef; [|congruence]. apply Hfill in Ef. rewrite Ef.
      destruct (bind (un_pickle ch3) relabel); [|exact H].
      destruct (handle k c3) as [o2 e2] eqn:Eh. injection H as <- <-. now rewrite (IH c3 e2 o2 Eh He d). }
    destruct (handle fuel segs) as [o e] eqn:Eh. cbn [snd]. destruct e; [| |reflexivity]; exfalso.
    + apply Hmono with (d := fuel_for ms - fuel) in Eh; [|discriminate].
      rewrite (A5 (fuel + (fuel_for ms - fuel))) in Eh by lia. rewrite Hwait in Eh. discriminate.
    + apply Hmono with (d := fuel_for ms - fuel) in Eh; [|discriminate].
      rewrite (A5 (fuel + (fuel_for ms - fuel))) in Eh by lia. rewrite Hwait in Eh. discriminate.
  - rewrite (A5 fuel Hge), Hwait. reflexivity.
Qed.
End Receiver.
