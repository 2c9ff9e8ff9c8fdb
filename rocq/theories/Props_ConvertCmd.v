(** C79: converting a file from the command line. *)

From Coq Require Import String List NArith ZArith Bool Lia.
From Verif Require Import PyStr PyStrFacts Dict DictFacts PyVal PyValFacts Legacy FileIO LegacySpec LegacyProofs.
From Verif Require Import LegacyProofs2 LegacyProofs3 LegacyProofs4 FileIOProofs ConvertCmd.
Import ListNotations.

(** A file [stem.ext] in a directory. *)
Definition dotted (p dir stem ext : pystr) : Prop :=
  p = dir ++ slash :: stem ++ dot :: ext /\ ~ In slash stem /\ ~ In slash ext /\ ~ In dot ext.
(** A file whose name has no dot. *)
Definition undotted (p dir name : pystr) : Prop :=
  p = dir ++ slash :: name /\ ~ In slash name /\ ~ In dot name.
(** A disk where one file was written. *)
Definition written (D D' : disk) (p : pystr) (d : dict pyval) : Prop :=
  D' p = Some (Json d) /\ forall q, q <> p -> D' q = D q.

Lemma put_written p d D : written D (put p d D) p d.
Proof.
  unfold written, put. split; [now rewrite str_eqb_refl|]. intros q Hq. destruct (str_eqb q p) eqn:E; auto.
  apply str_eqb_eq in E. contradiction.
Qed.
Lemma out_dotted r p dir stem ext : dotted p dir stem ext ->
  out_path r p = dir ++ slash :: stem ++ (if r then lit "." else lit "_CONVERTED.") ++ ext.
Proof.
  intros (-> & H1 & H2 & H3). unfold out_path, base_name. change (lit "/") with [slash].
  assert (N : ~ In slash (stem ++ dot :: ext)).
  { rewrite in_app_iff. intros [K|[K|K]]; auto. discriminate. }
  rewrite rpartition_char_found by exact N. change [DOT] with [dot]. rewrite rpartition_char_found by exact H3.
  reflexivity.
Qed.
Lemma out_undotted r p dir name : undotted p dir name ->
  out_path r p = dir ++ slash :: (if r then lit "." else lit "_CONVERTED.") ++ name.
Proof.
  intros (-> & H1 & H2). unfold out_path, base_name. change (lit "/") with [slash].
  rewrite rpartition_char_found by exact H1. change [DOT] with [dot]. rewrite rpartition_char_none by exact H2.
  reflexivity.
Qed.
Lemma read_ok D p d : read_json D p = Ok d <-> D p = Some (Json d).
Proof. unfold read_json. destruct (D p) as [[e|]|]; split; intros H; try discriminate; congruence. Qed.

(** What the command writes: the converted data, next to the file as
    [stem_CONVERTED.ext], or over the file itself when it is asked to replace
    it.  No other file changes; without replacing, the file itself stays as it
    was. *)
Theorem C79_converts :
  forall fuel real D fp replace dir stem ext data data',
  dotted (real fp) dir stem ext -> D (real fp) = Some (Json data) -> convert_file fuel data = Some (Ok data') ->
  exists D', cli_file_convert fuel real D fp replace = Some (D', Ok tt) /\
  (replace = true -> written D D' (real fp) data') /\
  (replace = false -> written D D' (dir ++ slash :: stem ++ lit "_CONVERTED." ++ ext) data' /\
                      D' (real fp) = Some (Json data)).
Proof.
  intros fuel real D fp replace dir stem ext data data' Hd Hr Hc. unfold cli_file_convert.
  rewrite (proj2 (read_ok _ _ _) Hr), Hc. eexists. split; [reflexivity|].
  rewrite (out_dotted _ _ _ _ _ Hd). destruct Hd as (E & H1 & H2 & H3). split; intros ->.
  - rewrite E. apply put_written.
  - split; [apply put_written|]. rewrite (proj2 (put_written _ _ _)); auto.
    intros K. rewrite E in K. apply (f_equal (@length N)) in K. rewrite !app_length in K. cbn [length] in K.
    rewrite !app_length in K. cbn [length] in K. change (length (lit "_CONVERTED.")) with 11 in K. lia.
Qed.
Print Assumptions C79_converts.

(** When it fails, no file is changed: a missing file, one that is not a JSON
    object, one too old or with a version that is no version, and one whose
    conversion fails. *)
Theorem C79_failure_writes_nothing :
  forall fuel real D fp replace D' e,
  cli_file_convert fuel real D fp replace = Some (D', Raise e) ->
  (forall q, D' q = D q) /\
  (D (real fp) = None \/ D (real fp) = Some Other \/
   exists data, D (real fp) = Some (Json data) /\ convert_file fuel data = Some (Raise e)).
Proof.
  intros fuel real D fp replace D' e. unfold cli_file_convert, read_json.
  destruct (D (real fp)) as [[data|]|] eqn:E.
  - destruct (convert_file fuel data) as [[d|x]|] eqn:Ec; intros H; try discriminate. injection H as <- <-. eauto 6.
  - intros H. injection H as <- <-. auto.
  - intros H. injection H as <- <-. auto.
Qed.
Print Assumptions C79_failure_writes_nothing.

Theorem C79_missing_refused :
  forall fuel real D fp replace,
  (D (real fp) = None -> cli_file_convert fuel real D fp replace = Some (D, Raise IOError)) /\
  (D (real fp) = Some Other -> cli_file_convert fuel real D fp replace = Some (D, Raise ValueError)) /\
  (forall data s y, D (real fp) = Some (Json data) -> dget (lit "version") data = Some (VStr s) ->
     two_numbers py_int s 0 y -> (y < 39)%Z -> cli_file_convert fuel real D fp replace = Some (D, Raise IOError)).
Proof.
  intros fuel real D fp replace. unfold cli_file_convert, read_json. split; [intros ->; reflexivity|].
  split; [intros ->; reflexivity|]. intros data s y -> Hv Ht Hy. now rewrite (convert_too_old data s y fuel Hv Ht Hy).
Qed.
Print Assumptions C79_missing_refused.

(** Converting converted data again changes nothing. *)
Lemma said_116 d : dget (lit "version") d = Some (VStr (lit "1.16")) -> said d (lit "1.16").
Proof. intros H. left. eexists. split; [exact H|]. auto. Qed.
Lemma two_116 : two_numbers py_int (lit "1.16") 1 16.
Proof. apply two_ints_ok. reflexivity. Qed.
Lemma upgraded_version v d d' : upgraded v d d' -> (v <= 15)%Z -> dget (lit "version") d' = Some (VStr (lit "1.16")).
Proof. intros [[_ (d1 & _ & _ & H & _)]|[[_ (_ & H & _)]|[[_ (_ & H & _)]|[H _]]]] Hv; auto. lia. Qed.
Lemma converted_says data s x y fuel data' : proper (VDict data) -> rooted_file data -> 17 < fuel ->
  dget (lit "version") data = Some (VStr s) -> two_numbers py_int s x y ->
  convert_file fuel data = Some (Ok data') ->
  dget (lit "version") data' = Some (VStr (lit "1.16")) \/ (x <> 0%Z /\ (15 < y <= 17)%Z /\ data' = data).
Proof.
  intros Hp Hr Hf Hv Ht Hc. destruct (Z.eq_dec x 0) as [->|Hx].
  - destruct (Z.le_gt_cases 39 y) as [Hy|Hy].
    + left. rewrite (convert_pre_any data s y) in Hc by auto. injection Hc as Hc.
      destruct (v1 data) as [d1|] eqn:E; [|discriminate]. cbn [bind] in Hc.
      destruct (v1_ok _ _ Hp Hr E) as (P1 & R1 & _). apply (upgraded_version 0 d1); [now apply chain_ok|lia].
    + rewrite (convert_too_old data s y fuel Hv Ht Hy) in Hc. discriminate.
  - destruct (convert_some data s x y fuel data' Hv Ht Hx Hc) as [Hy E].
    pose proof (chain_ok _ _ _ Hp Hr E) as U. destruct (Z.le_gt_cases y 15) as [L|L].
    + left. eapply upgraded_version; eauto.
    + right. repeat split; auto. destruct U as [[U _]|[[U _]|[[U _]|[_ U]]]]; try lia. exact U.
Qed.
Theorem C79_again :
  forall fuel more real D D' fp data s x y,
  17 < fuel -> 1 < more -> proper (VDict data) -> rooted_file data ->
  (exists dir stem ext, dotted (real fp) dir stem ext) -> D (real fp) = Some (Json data) ->
  dget (lit "version") data = Some (VStr s) -> two_numbers py_int s x y ->
  cli_file_convert fuel real D fp true = Some (D', Ok tt) ->
  exists D'', cli_file_convert more real D' fp true = Some (D'', Ok tt) /\ forall q, D'' q = D' q.
Proof.
  intros fuel more real D D' fp data s x y Hf Hm Hp Hr (dir & stem & ext & Hd) HD Hv Ht H.
  unfold cli_file_convert in H. rewrite (proj2 (read_ok _ _ _) HD) in H.
  destruct (convert_file fuel data) as [[data'|]|] eqn:Hc; try discriminate. injection H as <-.
  destruct (put_written (out_path true (real fp)) data' D) as [W1 W2].
  assert (O : out_path true (real fp) = real fp) by (rewrite (out_dotted _ _ _ _ _ Hd); destruct Hd as (-> & _); reflexivity).
  assert (C : convert_file more data' = Some (Ok data')).
  { destruct (converted_says _ _ _ _ _ _ Hp Hr Hf Hv Ht Hc) as [V|(Hx & Hy & ->)].
    - rewrite (convert_chain data' _ _ _ more V two_116) by (try lia; cbn; lia). reflexivity.
    - rewrite (convert_chain data s x y more) by (auto; lia). unfold chain.
      rewrite !(proj2 (Z.leb_gt y _)) by lia. reflexivity. }
  destruct (C79_converts more real (put (out_path true (real fp)) data' D) fp true dir stem ext data' data' Hd) as (D2 & E & W & _); auto.
  { rewrite O in W1 |- *. exact W1. }
  exists D2. split; auto. destruct (W eq_refl) as [X1 X2]. intros q. destruct (str_eqb q (real fp)) eqn:Q.
  - apply str_eqb_eq in Q as ->. rewrite X1. rewrite O in W1 |- *. now rewrite W1.
  - apply X2. intros ->. rewrite str_eqb_refl in Q. discriminate.
Qed.
Print Assumptions C79_again.

(** Replacing a file by its conversion does not change what opening it gives:
    the file opens the same before and after, for every version that opens. *)
Lemma find_ext {A} (f g : A -> bool) l : (forall x, f x = g x) -> find f l = find g l.
Proof. intros H. induction l as [|x l IH]; cbn [find]; [reflexivity|]. now rewrite H, IH. Qed.
Theorem C79_opens_the_same :
  forall full_expand expanders fuel real D D' fp opened data s x y,
  17 < fuel -> proper (VDict data) -> rooted_file data ->
  D (real fp) = Some (Json data) -> dget (lit "version") data = Some (VStr s) ->
  two_numbers py_int s x y -> ~ newer x y ->
  find_real_path full_expand expanders (is_file D) opened = real fp ->
  (exists dir stem, dotted (real fp) dir stem (lit "nxt") \/ dotted (real fp) dir stem (lit "nxtb")) ->
  has_ext (real fp) ".nxt" \/ has_ext (real fp) ".nxtb" ->
  cli_file_convert fuel real D fp true = Some (D', Ok tt) ->
  load_file_data full_expand expanders (is_file D') (read_json D') fuel opened
  = load_file_data full_expand expanders (is_file D) (read_json D) fuel opened.
Proof.
  intros full_expand expanders fuel real D D' fp opened data s x y Hf Hp Hr HD Hv Ht Hn Hrp Hd He H.
  assert (Hd' : exists dir stem ext, dotted (real fp) dir stem ext) by (destruct Hd as (dir & stem & [K|K]); eauto).
  destruct Hd' as (dir & stem & ext & Hd').
  unfold cli_file_convert in H. rewrite (proj2 (read_ok _ _ _) HD) in H.
  destruct (convert_file fuel data) as [[data'|]|] eqn:Hc; try discriminate. injection H as <-.
  assert (O : out_path true (real fp) = real fp) by (rewrite (out_dotted _ _ _ _ _ Hd'); destruct Hd' as (-> & _); reflexivity).
  rewrite O. destruct (put_written (real fp) data' D) as [W1 W2].
  assert (F : find_real_path full_expand expanders (is_file (put (real fp) data' D)) opened = real fp).
  { rewrite <- Hrp at 2. unfold find_real_path. rewrite (find_ext (is_file (put (real fp) data' D)) (is_file D)); [reflexivity|].
    intros q. unfold is_file. destruct (str_eqb q (real fp)) eqn:Q; [apply str_eqb_eq in Q as ->; now rewrite W1, HD|].
    rewrite W2; auto. intros ->. rewrite str_eqb_refl in Q. discriminate. }
  rewrite (load_eq full_expand expanders (is_file (put (real fp) data' D)) (read_json (put (real fp) data' D)) fuel opened data')
    by (rewrite F; auto; now apply read_ok).
  rewrite (load_eq full_expand expanders (is_file D) (read_json D) fuel opened data) by (rewrite Hrp; auto; now apply read_ok).
  rewrite F, Hrp.
  assert (Ne : truthy (VStr s) = true).
  { destruct Ht as (a & b & r & -> & _). destruct a; reflexivity. }
  assert (Sd : said data s) by (left; eexists; split; [exact Hv|auto]).
  destruct (gate_ok data) as (_ & G1 & G2 & _). destruct (gate_ok data') as (_ & K1 & K2 & _).
  destruct (converted_says _ _ _ _ _ _ Hp Hr Hf Hv Ht Hc) as [V|(Hx & Hy & ->)].
  - rewrite (K1 _ _ _ (said_116 _ V) two_116) by (unfold newer; lia).
    rewrite (convert_chain data' _ _ _ fuel V two_116) by (try lia; cbn; lia). cbn [chain].
    change (chain 16 data') with (@Ok (dict pyval) data').
    destruct (Z.eq_dec x 0) as [->|Hx]; [rewrite (G1 _ _ _ Sd Ht Hn) by lia; now rewrite Hc|].
    destruct (convert_some data s x y fuel data' Hv Ht Hx Hc) as [Hy E].
    destruct (Z.lt_ge_cases y 17) as [L|L]; [rewrite (G1 _ _ _ Sd Ht Hn) by lia; now rewrite Hc|].
    rewrite (G2 _ _ _ Sd Ht Hn) by lia. assert (y = 17)%Z as -> by lia. cbn in E. now injection E as ->.
  - destruct (Z.lt_ge_cases y 17) as [L|L]; [rewrite (G1 _ _ _ Sd Ht Hn) by lia; now rewrite Hc|].
    now rewrite (G2 _ _ _ Sd Ht Hn) by lia.
Qed.
Print Assumptions C79_opens_the_same.

(** Findings. *)

(** A file whose name has no dot is never replaced: the command writes a new
    file whose name starts with the ending. *)
Theorem C79_no_extension_refuted :
  forall fuel real D fp replace dir name data data',
  undotted (real fp) dir name -> D (real fp) = Some (Json data) -> convert_file fuel data = Some (Ok data') ->
  exists D', cli_file_convert fuel real D fp replace = Some (D', Ok tt) /\
  D' (real fp) = Some (Json data) /\
  written D D' (dir ++ slash :: (if replace then lit "." else lit "_CONVERTED.") ++ name) data'.
Proof.
  intros fuel real D fp replace dir name data data' Hd Hr Hc. unfold cli_file_convert.
  rewrite (proj2 (read_ok _ _ _) Hr), Hc. eexists. split; [reflexivity|].
  rewrite (out_undotted _ _ _ _ Hd). destruct Hd as (E & H1 & H2). split; [|apply put_written].
  rewrite (proj2 (put_written _ _ _)); auto.
  intros K. rewrite E in K. apply (f_equal (@length N)) in K. rewrite !app_length in K. cbn [length] in K.
  rewrite !app_length in K. destruct replace; [change (length (lit ".")) with 1 in K|change (length (lit "_CONVERTED.")) with 11 in K]; lia.
Qed.
Print Assumptions C79_no_extension_refuted.

(** A file of a newer minor version, which opening refuses, keeps the command
    running for ever. *)
Theorem C79_newer_never_ends_refuted :
  forall fuel real D fp replace data s x y,
  D (real fp) = Some (Json data) -> dget (lit "version") data = Some (VStr s) ->
  two_numbers py_int s x y -> x <> 0%Z -> (y > 17)%Z -> cli_file_convert fuel real D fp replace = None.
Proof.
  intros fuel real D fp replace data s x y HD Hv Ht Hx Hy. unfold cli_file_convert.
  rewrite (proj2 (read_ok _ _ _) HD). now rewrite (convert_endless data s x y fuel Hv Ht Hx Hy).
Qed.
Print Assumptions C79_newer_never_ends_refuted.

Lemma cli_ok fuel real D fp replace data data' : read_json D (real fp) = Ok data ->
  convert_file fuel data = Some (Ok data') ->
  cli_file_convert fuel real D fp replace = Some (put (out_path replace (real fp)) data' D, Ok tt).
Proof. intros H1 H2. unfold cli_file_convert. now rewrite H1, H2. Qed.

(** A file of a newer major version, which opening refuses, is converted as if
    it were 1.x, and then opens. *)
Definition here (p : pystr) (d : dict pyval) : disk := put p d (fun _ => None).
Definition ex_path := lit "/d/a.nxt".
Definition ex_two : dict pyval := [(lit "version", VStr (lit "2.3.0")); (lit "nodes", VDict [])].
Definition idp (p : pystr) : pystr := p.
Definition open_it (D : disk) : option (res (dict pyval)) :=
  load_file_data idp [] (is_file D) (read_json D) 20 ex_path.
Theorem C79_newer_major_refuted :
  exists data D', dget (lit "version") data = Some (VStr (lit "2.3.0")) /\
  open_it (here ex_path data) = Some (Raise IOError) /\
  cli_file_convert 20 idp (here ex_path data) ex_path true = Some (D', Ok tt) /\
  exists d, open_it D' = Some (Ok d) /\ dget (lit "version") d = Some (VStr (lit "1.16")).
Proof.
  exists ex_two. eexists. split; [reflexivity|]. split; [vm_compute; reflexivity|].
  split; [eapply cli_ok; [vm_compute; reflexivity|vm_compute; reflexivity]|].
  eexists. split; [vm_compute; reflexivity|vm_compute; reflexivity].
Qed.
Print Assumptions C79_newer_major_refuted.

(** A file that says no version opens as it is, but the command takes it for a
    0.45 file: a node its parent does not list is lost. *)
Definition ex_unsaid : dict pyval :=
  [(lit "nodes", VDict [(lit "/a", VDict [(lit "child_order", VList [])]); (lit "/a/b", VDict [(lit "comment", VStr (lit "kept"))])])].
Theorem C79_unsaid_version_refuted :
  exists data D' n m, dget (lit "version") data = None /\
  (exists d, open_it (here ex_path data) = Some (Ok d) /\ dget (lit "nodes") d = Some (VDict n)) /\
  cli_file_convert 20 idp (here ex_path data) ex_path true = Some (D', Ok tt) /\
  (exists d, open_it D' = Some (Ok d) /\ dget (lit "nodes") d = Some (VDict m)) /\
  In (lit "/a/b") (map fst n) /\ ~ In (lit "/a/b") (map fst m).
Proof.
  exists ex_unsaid. do 3 eexists. split; [reflexivity|]. split; [eexists; split; [vm_compute; reflexivity|vm_compute; reflexivity]|].
  split; [eapply cli_ok; [vm_compute; reflexivity|vm_compute; reflexivity]|].
  split; [eexists; split; [vm_compute; reflexivity|vm_compute; reflexivity]|].
  split; [vm_compute; tauto|]. vm_compute. intros H. repeat (destruct H as [H|H]; [discriminate|]). contradiction.
Qed.
Print Assumptions C79_unsaid_version_refuted.

(** Example: a 1.9 file, converted next to itself and in place. *)
Definition ex_old : dict pyval :=
  [(lit "version", VStr (lit "1.9.2")); (lit "mute", VBool false);
   (lit "nodes", VDict [(lit "/n", VDict [(lit "code", VList [VStr (lit "x")]); (lit "comment", VStr (lit "c"))])])].
Example C79_sample :
  dotted ex_path (lit "/d") (lit "a") (lit "nxt") /\ has_ext ex_path ".nxt" /\
  proper (VDict ex_old) /\ rooted_file ex_old /\
  option_map (fun r => map (fst r) [ex_path; lit "/d/a_CONVERTED.nxt"; lit "/d/b"])
    (cli_file_convert 20 idp (here ex_path ex_old) ex_path false)
  = Some [Some (Json ex_old);
          Some (Json [(lit "version", VStr (lit "1.16"));
                      (lit "nodes", VDict [(lit "/n", VDict [(lit "comment", VStr (lit "c")); (lit "code", VList [VStr (lit "x")])])])]);
          None].
Proof.
  split; [|split; [|split; [|split]]].
  - split; [reflexivity|]. split; [|split]; cbn; intros H; repeat (destruct H as [H|H]; [discriminate|]); contradiction.
  - exists (lit "/d/"), (lit "a"). split; [reflexivity|]. split; [right; now exists (lit "/d")|].
    split; [cbn; intros [K|[]]; discriminate|]. eexists. split; [now left|discriminate].
  - cbn [proper ex_old]. repeat split; apply distinct_nodup; vm_compute; reflexivity.
  - intros n H. injection H as <-. intros p [<-|[]]; cbn; auto.
  - vm_compute. reflexivity.
Qed.
