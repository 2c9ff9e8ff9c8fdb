(** C84: finding the rpc server. *)

From Coq Require Import String List NArith ZArith Bool Arith Lia.
From Verif Require Import PyStr PyStrFacts PyVal Legacy Names NamesSpec NamesProofs ServerAddress Props_CliVerbose.
Import ListNotations.

Lemma lines_end s t : ~ In NL s -> readlines (s ++ NL :: t) = (s ++ [NL]) :: readlines t.
Proof.
  induction s as [|c s IH]; intros Hs; [reflexivity|]. cbn [app readlines]. destruct (N.eqb_spec c NL) as [->|]; [now destruct Hs; left|].
  rewrite IH; [reflexivity|]. intros X. apply Hs. now right.
Qed.
Lemma lines_one s : ~ In NL s -> s <> [] -> readlines s = [s].
Proof.
  induction s as [|c s IH]; intros Hs Hn; [congruence|]. cbn [readlines]. destruct (N.eqb_spec c NL) as [->|]; [now destruct Hs; left|].
  destruct s as [|d s]; [reflexivity|]. rewrite IH; [reflexivity| |discriminate]. intros X. apply Hs. now right.
Qed.
Lemma host_plain : ~ In NL (lit "localhost").
Proof. vm_compute. intuition discriminate. Qed.
Lemma numeral_plain s n : numeral s n -> ~ In NL s /\ s <> [].
Proof. intros (F & Hn & _). split; [|exact Hn]. intros X. rewrite Forall_forall in F. apply F in X. unfold NL in X. lia. Qed.

(** Whoever looks for the server finds the address it listens on, whatever the
    port. *)
Theorem C84_found : forall port file address, secure_address port = (file, address) ->
  get_running_server_address file = Ok address /\ address = (lit "localhost", Z.of_nat port).
Proof.
  intros port file address E. injection E as <- <-. split; [|reflexivity]. unfold get_running_server_address, address_text. cbn [app].
  rewrite (lines_end _ _ host_plain). destruct (numeral_plain _ _ (dec_numeral port)) as (P & Q). rewrite (lines_one _ P Q). now rewrite int_dec.
Qed.
Print Assumptions C84_found.

(** Only the second line counts: a line end after it does no harm, and a file
    of fewer or more lines, or no file, gives the default address. *)
Theorem C84_read : forall host port n, ~ In NL host -> numeral port n ->
  get_running_server_address (Some (host ++ [NL] ++ port)) = Ok (lit "localhost", Z.of_nat n).
Proof.
  intros h p n Hh Hp. unfold get_running_server_address. cbn [app]. rewrite (lines_end _ _ Hh). destruct (numeral_plain _ _ Hp) as (P & Q).
  rewrite (lines_one _ P Q). now rewrite (int_numeral _ _ Hp).
Qed.
Print Assumptions C84_read.
Theorem C84_default : forall file, match file with Some text => length (readlines text) <> 2 | None => True end ->
  get_running_server_address file = Ok (lit "localhost", 8001%Z).
Proof.
  intros [text|] Hl; [|reflexivity]. unfold get_running_server_address. destruct (readlines text) as [|a [|b [|c l]]]; try reflexivity. now destruct Hl.
Qed.
Print Assumptions C84_default.

(** ** While the address is being written *)

(** A reader may see any beginning of what is written.  It never raises; it gives
    the default, the address, or a port whose digits are the first ones of the
    right port. *)
Lemma prefix_numeral a b n : numeral (a ++ b) n -> a <> [] -> exists k, numeral a k.
Proof.
  intros (F & _ & Z & _) Ha. exists (fold_left (fun a c => 10 * a + digit_value c) a 0). split; [now apply Forall_app in F as (F & _)|]. split; [exact Ha|]. split; [|reflexivity].
  destruct a as [|c a]; [congruence|]. destruct Z as [Z|Z]; [|right; exact Z]. left. cbn [app] in Z. injection Z as -> Z. apply app_eq_nil in Z as (-> & _). reflexivity.
Qed.
Theorem C84_half_written : forall port seen rest, address_text port = seen ++ rest ->
  get_running_server_address (Some seen) = Ok (lit "localhost", 8001%Z) \/
  exists digits more k, dec port = digits ++ more /\ numeral digits k /\
    seen = lit "localhost" ++ [NL] ++ digits /\ get_running_server_address (Some seen) = Ok (lit "localhost", Z.of_nat k).
Proof.
  intros port seen rest E. unfold address_text in E. rewrite app_assoc in E.
  destruct (Nat.le_gt_cases (length seen) (length (lit "localhost" ++ [NL]))) as [Le|Gt].
  - left. apply C84_default. assert (S : exists r, lit "localhost" ++ [NL] = seen ++ r).
    { exists (firstn (length (lit "localhost" ++ [NL]) - length seen) rest). apply (f_equal (firstn (length (lit "localhost" ++ [NL])))) in E.
      rewrite firstn_app, firstn_all, Nat.sub_diag, firstn_O, app_nil_r in E. refine (eq_trans E _). rewrite firstn_app. f_equal. now apply firstn_all2. }
    destruct S as (r & S). destruct r as [|x r _] using rev_ind.
    + rewrite app_nil_r in S. rewrite <- S. vm_compute. discriminate.
    + rewrite app_assoc in S. apply app_inj_tail in S as (S & _). assert (P : ~ In NL seen) by (intros X; apply host_plain; rewrite S; apply in_or_app; now left).
      destruct seen as [|c s]; [cbn; lia|]. rewrite lines_one by (auto; discriminate). cbn. lia.
  - right. assert (S : exists d, seen = (lit "localhost" ++ [NL]) ++ d /\ d <> []).
    { exists (skipn (length (lit "localhost" ++ [NL])) seen). split.
      - rewrite <- (firstn_skipn (length (lit "localhost" ++ [NL])) seen) at 1. f_equal. apply (f_equal (firstn (length (lit "localhost" ++ [NL])))) in E.
        rewrite firstn_app, firstn_all, Nat.sub_diag, firstn_O, app_nil_r in E. rewrite firstn_app in E. replace (length (lit "localhost" ++ [NL]) - length seen) with 0 in E by lia. rewrite firstn_O, app_nil_r in E. now symmetry.
      - intros X. apply (f_equal (@length N)) in X. rewrite skipn_length in X. cbn [length] in X. lia. }
    destruct S as (d & -> & Hd). rewrite <- (app_assoc (lit "localhost" ++ [NL]) d rest) in E at 1. assert (E' : (lit "localhost" ++ [NL]) ++ dec port = (lit "localhost" ++ [NL]) ++ d ++ rest) by (rewrite E, app_assoc; reflexivity). clear E. apply app_inv_head in E'. rename E' into E. pose proof (dec_numeral port) as Np. rewrite E in Np.
    destruct (prefix_numeral d rest port Np Hd) as (k & Nk). exists d, rest, k. split; [exact E|]. split; [exact Nk|]. split; [now rewrite <- app_assoc|].
    rewrite <- app_assoc. apply (C84_read _ _ _ host_plain Nk).
Qed.
Print Assumptions C84_half_written.

(** Finding: so a client that looks while the port is being written may be sent
    to another port than the server's or the default. *)
Theorem C84_half_written_refuted : exists port seen rest k, address_text port = seen ++ rest /\
  get_running_server_address (Some seen) = Ok (lit "localhost", k) /\ k <> Z.of_nat port /\ k <> 8001%Z.
Proof. exists 512, (lit "localhost" ++ [NL] ++ lit "51"), (lit "2"), 51%Z. split; [vm_compute; reflexivity|]. split; [vm_compute; reflexivity|]. split; vm_compute; discriminate. Qed.
Print Assumptions C84_half_written_refuted.
(** Finding: a file of two lines that is not an address makes every question
    whether a server runs raise. *)
Theorem C84_junk_refuted : get_running_server_address (Some (lit "a" ++ [NL] ++ lit "b")) = Raise ValueError.
Proof. vm_compute. reflexivity. Qed.
Print Assumptions C84_junk_refuted.

Example C84_sample : secure_address 431 = (Some (lit "localhost" ++ [NL] ++ lit "431"), (lit "localhost", 431%Z)).
Proof. vm_compute. reflexivity. Qed.
