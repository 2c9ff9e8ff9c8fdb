(** Property theorems C41: the log stream. *)

From Coq Require Import String List NArith Bool Arith Lia.
From Verif Require Import PyStr Dict PyVal LogStream LogStreamSpec LogStreamProofs.
Import ListNotations.

(** As long as no segment ends inside a header, every message is logged once,
    in the order sent, and the receiver ends when the sender closes. *)
Theorem C41_all_logged :
  forall un_pickle logname ms segs,
  segments segs (stream ms) -> Forall fits ms -> Forall (readable un_pickle) ms ->
  (forall before m after, ms = before ++ m :: after -> ~ header_cut segs before m) ->
  exists out, Forall2 (logged un_pickle logname) ms out /\
    exists enough, forall fuel, enough <= fuel -> handle un_pickle logname fuel segs = (out, Closed).
Proof.
  exact (fun u l ms segs H1 H2 H3 H4 => match all_logged u l ms segs H1 H2 H3 H4 with
    | ex_intro _ out (conj A B) => ex_intro _ out (conj A (ex_intro _ (fuel_for ms) B)) end).
Qed.
Print Assumptions C41_all_logged.

(** Any other cut of the stream loses messages: the first message whose header
    is cut and all after it are dropped silently. *)
Theorem C41_any_cut_refuted :
  forall un_pickle logname ms m rest segs,
  segments segs (stream (ms ++ m :: rest)) -> Forall fits ms -> Forall (readable un_pickle) ms -> fits m ->
  (forall before x after, ms = before ++ x :: after -> ~ header_cut segs before x) ->
  header_cut segs ms m ->
  exists out, Forall2 (logged un_pickle logname) ms out /\
    exists enough, forall fuel, enough <= fuel -> handle un_pickle logname fuel segs = (out, Closed).
Proof.
  exact (fun u l ms m r segs H1 H2 H3 H4 H5 H6 => match cut_loses u l ms m r segs H1 H2 H3 H4 H5 H6 with
    | ex_intro _ out (conj A B) => ex_intro _ out (conj A (ex_intro _ (fuel_for ms) B)) end).
Qed.
Print Assumptions C41_any_cut_refuted.

(** If the sender goes away inside a message the receiver never ends. *)
Theorem C41_truncated_refuted :
  forall un_pickle logname ms m part segs,
  segments segs (stream ms ++ header m ++ part) -> Forall fits ms -> Forall (readable un_pickle) ms -> fits m ->
  length part < length m ->
  (forall before x after, ms = before ++ x :: after -> ~ header_cut segs before x) -> ~ header_cut segs ms m ->
  forall fuel, snd (handle un_pickle logname fuel segs) = OutOfFuel.
Proof. exact truncated_hangs. Qed.
Print Assumptions C41_truncated_refuted.

(** A sample: two messages, cut inside the first body and at a frame's end. *)
Definition plain_text (m : list N) : res (dict pyval) :=
  Ok [(lit "name", VStr (lit "nxt")); (lit "levelname", VStr (lit "INFO")); (lit "msg", VStr m)].
Definition two : list (list N) := [[7; 8; 9]; [5]]%N.
Definition cut_in_body : list (list N) := [[0; 0; 0; 3; 7]; [8; 9]; [0; 0; 0; 1]; [5]]%N.
Definition cut_in_header : list (list N) := [[0; 0; 0; 3; 7; 8; 9; 0]; [0; 0; 1; 5]]%N.

Lemma cuts (segs : list (list N)) early late : segs = early ++ late -> exists n, early = firstn n segs.
Proof.
  intros ->. exists (length early). rewrite firstn_app, firstn_all, Nat.sub_diag. cbn. now rewrite app_nil_r.
Qed.
Lemma no_cut_in_body before m after : two = before ++ m :: after -> ~ header_cut cut_in_body before m.
Proof.
  intros E (e & l & h1 & h2 & Es & Eh & H1 & H2 & Ec).
  assert (Hh : length h1 = 1 \/ length h1 = 2 \/ length h1 = 3).
  { apply (f_equal (@length N)) in Eh. rewrite app_length, header_length in Eh.
    destruct h1; [congruence|]. destruct h2; [congruence|]. cbn [length] in *. lia. }
  destruct (cuts _ _ _ Es) as (n & ->). apply (f_equal (@length N)) in Ec. rewrite app_length in Ec.
  assert (Hb : length (stream before) = 0 \/ length (stream before) = 7).
  { destruct before as [|x [|y [|z before]]]; [left; reflexivity| | |].
    - injection E as <- _ _. right. reflexivity.
    - exfalso. injection E as _ _ E. discriminate.
    - discriminate. }
  assert (Hn : length (concat (firstn n cut_in_body)) = 0 \/ length (concat (firstn n cut_in_body)) = 5 \/
               length (concat (firstn n cut_in_body)) = 7 \/ length (concat (firstn n cut_in_body)) = 11 \/
               length (concat (firstn n cut_in_body)) = 12).
  { do 4 (destruct n as [|n]; [cbn; tauto|]). destruct n; cbn; tauto. }
  lia.
Qed.
Example C41_all_logged_ex :
  segments cut_in_body (stream two) /\ Forall fits two /\ Forall (readable plain_text) two /\
  (forall before m after, two = before ++ m :: after -> ~ header_cut cut_in_body before m) /\
  handle plain_text None 20 cut_in_body =
    ([(VStr (lit "nxt"), [(lit "name", VStr (lit "nxt")); (lit "levelname", VStr (lit "remote.INFO")); (lit "msg", VStr [7; 8; 9]%N)]);
      (VStr (lit "nxt"), [(lit "name", VStr (lit "nxt")); (lit "levelname", VStr (lit "remote.INFO")); (lit "msg", VStr [5]%N)])], Closed).
Proof.
  split; [split; [reflexivity|repeat constructor; discriminate]|].
  split; [repeat constructor|]. split; [repeat constructor; eexists; split; try reflexivity; exact I|].
  split; [exact no_cut_in_body|]. vm_compute. reflexivity.
Qed.
Example C41_any_cut_refuted_ex :
  segments cut_in_header (stream ([[7; 8; 9]] ++ [5] :: [])%N) /\ header_cut cut_in_header [[7; 8; 9]%N] [5]%N /\
  length (fst (handle plain_text None 20 cut_in_header)) = 1.
Proof.
  split; [split; [reflexivity|repeat constructor; discriminate]|]. split; [|vm_compute; reflexivity].
  exists [[0; 0; 0; 3; 7; 8; 9; 0]%N], [[0; 0; 1; 5]%N], [0%N], [0; 0; 1]%N.
  repeat split; discriminate.
Qed.
Example C41_truncated_refuted_ex :
  segments [[0; 0; 0; 3]; [7]]%N (stream [] ++ header [7; 8; 9]%N ++ [7]%N) /\
  ~ header_cut [[0; 0; 0; 3]; [7]]%N [] [7; 8; 9]%N.
Proof.
  split; [split; [reflexivity|repeat constructor; discriminate]|].
  intros (e & l & h1 & h2 & Es & Eh & H1 & H2 & Ec).
  destruct (cuts _ _ _ Es) as (n & ->). cbn [stream map concat app] in Ec. subst h1.
  apply (f_equal (@length N)) in Eh. rewrite app_length, header_length in Eh.
  destruct h2; [congruence|].
  destruct n as [|[|n]]; [cbn in H1; congruence|cbn in Eh; lia|]. destruct n; cbn in Eh; lia.
Qed.
