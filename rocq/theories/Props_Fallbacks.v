(** C64: file tokens fall back through the layers and the file roots. *)

From Coq Require Import String List NArith ZArith Bool Lia Arith.
From Verif Require Import PyStr PyStrFacts NxtPath PathSpec PathProofs Tokens TokenSpec TokenProofs PyVal LayerOver
  Resolve ResolveSpec ResolveProofs ResolveEndProofs Fallbacks FallbacksSpec FallbacksProofs.
Import ListNotations.

(** set() keeps each element once, in an order of its own. *)
Definition sets {node} (w : files node) : Prop :=
  forall l, NoDup (set_order w l) /\ forall x, In x (set_order w l) <-> In x l.

(** A file token answers the first file found: the layers are left off one
    after the other, from the strongest on, until what the text reads in the
    remaining ones (see [candidate]) is a file. *)
Theorem C64_file :
  forall node (w : files node) first last n c before d after r, sets w -> body c ->
  seq first (last - first) = before ++ d :: after ->
  (forall e, In e before -> candidate w last n c e []) -> candidate w last n c d r -> r <> [] ->
  ends_in (fun f => resolve_filepath_token w f first last n c) (Ok r).
Proof.
  intros node w first last n c before d after r Hs Hc Hd Hb Hr Hne. unfold resolve_filepath_token. rewrite Hd.
  assert (G : exists f0, forall f, f0 <= f -> Forall (fun e => exists x, step w last n c FILE_PREFIX f e = Some (Ok x) /\ given x = []) before).
  { clear Hd. induction before as [|e before IH]; [exists 0; constructor|]. destruct (IH (fun x H => Hb x (or_intror H))) as [f0 H0].
    destruct (candidate_step w Hs last n c FILE_PREFIX ltac:(discriminate) (body_file c Hc) e [] (Hb e (or_introl eq_refl))) as [f1 H1].
    exists (f0 + f1). intros f Hf. constructor; [apply H1; lia|apply H0; lia]. }
  destruct G as [f0 H0]. destruct (candidate_step w Hs last n c FILE_PREFIX ltac:(discriminate) (body_file c Hc) d r Hr) as [f1 H1].
  exists (f0 + f1). intros f Hf. rewrite first_skip by (apply (H0 f); lia). cbn [first_value].
  destruct (H1 f ltac:(lia)) as (x & E & G). unfold step in E. rewrite E. cbn [obind]. destruct x as [[|a x]|]; cbn [given] in G; subst r; try congruence; reflexivity.
Qed.
Print Assumptions C64_file.

(** A file list token answers all of them, each once, in that order; a file
    token the first. *)
Theorem C64_list :
  forall node (w : files node) first last n c rs, sets w -> body c ->
  Forall2 (candidate w last n c) (seq first (last - first)) rs ->
  ends_in (fun f => resolve_filelist_token w f first last n c) (Ok (once_each (filter found rs))) /\
  ends_in (fun f => resolve_filepath_token w f first last n c) (Ok (hd (lit "") (filter found rs))).
Proof.
  intros node w first last n c rs Hs Hc H. assert (G : forall prefix, prefix <> [] -> body (prefix ++ c) ->
    exists f0, forall f, f0 <= f -> Forall2 (fun d r => exists x, step w last n c prefix f d = Some (Ok x) /\ given x = r) (seq first (last - first)) rs).
  { intros prefix Hp Hb. induction H as [|d r ds rs Hd H IH]; [exists 0; constructor|]. destruct IH as [f0 H0].
    destruct (candidate_step w Hs last n c prefix Hp Hb d r Hd) as [f1 H1]. exists (f0 + f1). intros f Hf. constructor; [apply H1; lia|apply H0; lia]. }
  split.
  - destruct (G FILE_LIST_PREFIX ltac:(discriminate) (body_list c Hc)) as [f0 H0]. exists f0. intros f Hf. unfold resolve_filelist_token.
    rewrite (all_adds _ _ rs (H0 f Hf)). now rewrite adds_nothing.
  - destruct (G FILE_PREFIX ltac:(discriminate) (body_file c Hc)) as [f0 H0]. exists f0. intros f Hf. unfold resolve_filepath_token. exact (first_all _ _ rs (H0 f Hf)).
Qed.
Print Assumptions C64_list.

(** Whatever the text, the nodes and the layers: an answer that is not empty is
    a file that is there, found from one of the roots or the directory of the
    strongest remaining layer. *)
Theorem C64_there :
  forall node (w : files node) fuel first last n c r, body c ->
  resolve_filepath_token w fuel first last n c = Some (Ok r) -> r <> [] ->
  on_disk w r = true /\
  exists d l ls t dir, first <= d < last /\ taking_part (firstn (last - d) (skipn d (sub_layers w))) = l :: ls /\
  In dir (places w (sl_dir l)) /\ expand_at w t dir = Ok r.
Proof.
  intros node w fuel first last n c r Hc E Hr. destruct (first_spec _ _ _ E Hr) as (d & x & Hd & Eo & <-).
  destruct (step_there w last n c FILE_PREFIX ltac:(discriminate) (body_file c Hc) fuel d x Eo Hr) as (A & t & dir & B & l & ls & C & D).
  split; auto. apply in_seq in Hd. exists d, l, ls, t, dir. repeat split; auto; lia.
Qed.
Print Assumptions C64_there.

(** The same for the files of a list, which are different from each other. *)
Theorem C64_list_there :
  forall node (w : files node) fuel first last n c l, body c ->
  resolve_filelist_token w fuel first last n c = Some (Ok l) ->
  NoDup l /\ ~ In (lit "") l /\ forall r, In r l -> on_disk w r = true /\
  exists d k ks t dir, first <= d < last /\ taking_part (firstn (last - d) (skipn d (sub_layers w))) = k :: ks /\
  In dir (places w (sl_dir k)) /\ expand_at w t dir = Ok r.
Proof.
  intros node w fuel first last n c l Hc E. destruct (all_inv _ _ _ _ E) as (rs & H & ->). rewrite adds_nothing. split; [apply once_nodup|]. split.
  - rewrite once_in, filter_In. intros [_ F]. discriminate.
  - intros r Hr. rewrite once_in, filter_In in Hr. destruct Hr as [Hr Hf]. assert (Hne : r <> []) by (intros ->; discriminate).
    assert (G : exists d, In d (seq first (last - first)) /\ exists x, step w last n c FILE_LIST_PREFIX fuel d = Some (Ok x) /\ given x = r).
    { clear -H Hr. induction H as [|d r' ds rs Hd H IH]; [destruct Hr|]. destruct Hr as [->|Hr]; [exists d; split; [now left|exact Hd]|].
      destruct (IH Hr) as (d' & A & B). exists d'. split; [now right|exact B]. }
    destruct G as (d & Hd & x & Eo & <-).
    destruct (step_there w last n c FILE_LIST_PREFIX ltac:(discriminate) (body_list c Hc) fuel d x Eo Hne) as (A & t & dir & B & k & ks & C & D).
    split; auto. apply in_seq in Hd. exists d, k, ks, t, dir. repeat split; auto; lia.
Qed.
Print Assumptions C64_list_there.

(** Text without references reads as itself, at every node and in all layers. *)
Theorem C64_plain :
  forall node (w : files node) active depth m c, contains (lit "${") c = false -> reads w active depth m c c.
Proof.
  intros node w active depth m c H. split; auto. induction c as [|x c IH]; [constructor|]. cbn [contains] in H. apply orb_false_iff in H as [H1 H2].
  constructor; auto. intros [r E]. rewrite E in H1. rewrite startswith_app in H1. discriminate.
Qed.
Print Assumptions C64_plain.

(** A path:: token is the text, expanded from the first root that is there;
    without one from the layer's directory, or the current directory. *)
Theorem C64_path :
  forall node (w : files node) layer_cwd cwd text dir,
  (exists others, places w (lit "") = dir :: others) \/
  (places w (lit "") = [] /\ (on_disk w layer_cwd = true /\ dir = layer_cwd \/ on_disk w layer_cwd = false /\ dir = cwd)) ->
  resolve_path_token w layer_cwd cwd text = expand_at w text dir.
Proof.
  intros node w layer_cwd cwd text dir H. unfold resolve_path_token, iter_env_roots. unfold places in H. cbn [filter found str_eqb andb negb app] in H.
  change (found (lit "")) with false in H. cbn [andb] in H. rewrite app_nil_r in H.
  destruct H as [(b & E)|(E & [(H & ->)|(H & ->)])]; destruct (env_roots w) as [s|]; cbn [filter] in E; rewrite ?E; cbn [app]; rewrite ?H; auto; discriminate.
Qed.
Print Assumptions C64_path.

(** ** Examples *)

(** Three layers; the node /shot has an element and a name, the stronger layers
    have other names than the weakest.  A node is its path and the number of
    layers it is seen in. *)
Definition seen_in : Type := nat * pystr.
Definition shows (k : seen_in) (a : pystr) : option pyval :=
  let '(layers, p) := k in
  if str_eqb p (lit "/shot") then
    if str_eqb a (lit "name") then Some (VStr (match layers with 1 => lit "base" | 2 => lit "old" | _ => lit "new" end))
    else if str_eqb a (lit "file") then Some (VStr (lit "${element}_${/shot.name}.txt"))
    else if str_eqb a (lit "dir") then Some (VStr (lit "${file::}"))
    else if str_eqb a (lit "sub") then Some (VStr (lit "${file::}/sub"))
    else if str_eqb a (lit "element") then Some (VStr (lit "fox"))
    else if str_eqb a (lit "loop") then Some (VStr (lit "${loop}"))
    else if str_eqb a (lit "number") then Some (VInt 5%Z)
    else None
  else if str_eqb p (lit "/other") then (if str_eqb a (lit "element") then Some (VStr (lit "cat")) else None) else None.
Definition house (layers : list sub_layer) (roots : option pystr) (disk : list pystr) : files seen_in := {|
  sub_layers := layers; env_roots := roots; path_sep := 58%N;
  on_disk := fun p => str_in p disk;
  expand_at := fun f d => Ok (if is_empty f then d else d ++ lit "/" ++ f);
  node_at := fun p => if str_in p [lit "/shot"; lit "/other"] then Some (length layers, p) else None;
  where_is := snd; value_at := shows;
  lower_comp := fun active k => Some (length active, snd k);
  set_order := nodup (list_eq_dec N.eq_dec) |}.
Definition lay (d : string) : sub_layer := {| sl_dir := lit d; sl_muted := false; sl_soloed := false |}.
Definition three : list sub_layer := [lay "/top"; lay "/mid"; lay "/base"].
Definition disk : list pystr := [lit "/top"; lit "/base"; lit "/mid"; lit "/root"; lit "/base/fox_base.txt"; lit "/mid/fox_old.txt"; lit "/root/r.txt"; lit "/top/r.txt"; lit "/top/fox_new.txt/x"].
Lemma house_sets layers roots disk : sets (house layers roots disk).
Proof. intros l. split; [apply NoDup_nodup|intros x; apply nodup_In]. Qed.
Definition shot : seen_in := (3, lit "/shot").

Example C64_runs :
  let w := house three (Some (lit "/none:/root")) disk in
  resolve_filepath_token w 9 0 3 shot (lit "${file}") = Some (Ok (lit "/mid/fox_old.txt")) /\
  resolve_filelist_token w 9 0 3 shot (lit "${file}") = Some (Ok [lit "/mid/fox_old.txt"; lit "/base/fox_base.txt"]) /\
  resolve_filelist_token w 9 1 3 shot (lit "fox_${name}.txt") = Some (Ok [lit "/mid/fox_old.txt"; lit "/base/fox_base.txt"]) /\
  resolve_filepath_token w 9 0 3 shot (lit "r.txt") = Some (Ok (lit "/root/r.txt")) /\
  resolve_filepath_token w 9 0 3 shot [] = Some (Ok (lit "/root")) /\
  resolve_filepath_token w 9 0 3 shot (lit "${nothing}") = Some (Ok []).
Proof. vm_compute. repeat split. Qed.

Lemma shot_points a m : m = shot \/ snd m = lit "/shot" -> contains (lit ".") a = false -> points (house three None disk) m a (lit "/shot") a.
Proof.
  intros Hm Ha. assert (E : where_is (house three None disk) m = lit "/shot") by (destruct Hm as [->|Hm]; [reflexivity|exact Hm]).
  rewrite <- E. apply (points_here _ _ _ (lit "shot")); [|exact E]. intros p b (Q & _). apply contains_char_false in Ha. apply Ha. rewrite Q. apply in_or_app. right. now left.
Qed.
Example C64_meets : exists n c r, body c /\ candidate (house three None disk) 3 n c 0 [] /\ candidate (house three None disk) 3 n c 1 r /\ r = lit "/mid/fox_old.txt".
Proof.
  exists shot, (lit "fox_${name}.txt"), (lit "/mid/fox_old.txt"). split.
  { repeat (apply body_char; [discriminate|intros [r E]; discriminate E|]). apply (body_tok (lit "name") (lit ".txt")); repeat (apply body_char; [discriminate|intros [r E]; discriminate E|]); apply body_nil. }
  assert (R : forall active d m v, m = shot \/ snd m = lit "/shot" -> (exists k, as_of (house three None disk) active d (3, lit "/shot") k /\ shows k (lit "name") = Some (VStr v)) -> contains (lit "${") (lit "fox_" ++ v ++ lit ".txt") = false ->
            contains (lit "${") v = false -> reads (house three None disk) active d m (lit "fox_${name}.txt") (lit "fox_" ++ v ++ lit ".txt")).
  { intros active d m v Hm (k & Hk & Hv) H1 H2. split; [|exact H1]. do 4 (apply filled_char; [intros [r E]; discriminate E|]).
    apply (filled_ref _ _ _ _ (lit "name") (lit ".txt") v (lit ".txt")).
    - repeat split; try reflexivity; try discriminate; intros r E; discriminate E.
    - apply (brings_text _ _ _ _ _ v v); [|apply C64_plain; exact H2|exact H2]. exists (lit "/shot"), (lit "name"), (3, lit "/shot"), k.
      split; [now apply shot_points|]. split; [reflexivity|]. split; [exact Hk|]. left. exact Hv.
    - apply C64_plain. reflexivity. }
  split; [|split; [|reflexivity]].
  - apply (candidate_some _ _ _ _ _ (lay "/top") [lay "/mid"; lay "/base"] shot (lit "fox_" ++ lit "new" ++ lit ".txt")); [reflexivity|reflexivity| |].
    + apply R; [now left| |reflexivity|reflexivity]. exists (3, lit "/shot"). split; reflexivity.
    + vm_compute places. eapply located_next; [reflexivity|reflexivity|]. constructor.
  - apply (candidate_some _ _ _ _ _ (lay "/mid") [lay "/base"] (2, lit "/shot") (lit "fox_" ++ lit "old" ++ lit ".txt")); [reflexivity|reflexivity| |].
    + apply R; [now right| |reflexivity|reflexivity]. exists (2, lit "/shot"). split; reflexivity.
    + vm_compute places. apply located_here; reflexivity.
Qed.

(** ** Where it goes wrong *)

(** Soloing a layer does not keep the other layers out: once the soloed layer
    is left off, the layers below it take part. *)
Theorem C64_solo_refuted : exists w (n : seen_in) c r l,
  taking_part (sub_layers w) = [{| sl_dir := lit "/top"; sl_muted := false; sl_soloed := true |}] /\
  In l (sub_layers w) /\ sl_dir l = lit "/base" /\ ~ In l (taking_part (sub_layers w)) /\
  resolve_filepath_token w 9 0 2 n c = Some (Ok r) /\ r = lit "/base/fox_base.txt".
Proof.
  exists (house [{| sl_dir := lit "/top"; sl_muted := false; sl_soloed := true |}; lay "/base"] None disk), (2, lit "/shot"), (lit "fox_base.txt"), (lit "/base/fox_base.txt"), (lay "/base").
  split; [reflexivity|]. split; [cbn; auto|]. split; [reflexivity|]. split; [cbn; intros [Q|[]]; discriminate|]. split; vm_compute; reflexivity.
Qed.
Print Assumptions C64_solo_refuted.
(** A reference to a node that is not there is nothing in a stage of one layer,
    and an exception in one of two layers. *)
Theorem C64_missing_refuted :
  resolve_filepath_token (house [lay "/top"] None disk) 9 0 1 shot (lit "${/missing.attr}") = Some (Ok []) /\
  resolve_filepath_token (house [lay "/top"; lay "/mid"] None disk) 9 0 2 shot (lit "${/missing.attr}") = Some (Raise AttributeError).
Proof. split; vm_compute; reflexivity. Qed.
Print Assumptions C64_missing_refuted.
(** References in the value of another node's attribute are read at the node
    that has the file token: at /other, the file of /shot is cat_base.txt. *)
Theorem C64_other_node_refuted : exists w, let at_node p := resolve_filepath_token w 9 0 1 (1, p) (lit "${/shot.file}") in
  at_node (lit "/shot") = Some (Ok (lit "/base/fox_base.txt")) /\ at_node (lit "/other") = Some (Ok (lit "/base/cat_base.txt")).
Proof.
  exists {| sub_layers := [lay "/base"]; env_roots := None; path_sep := 58%N; on_disk := fun p => str_in p [lit "/base"; lit "/base/fox_base.txt"; lit "/base/cat_base.txt"];
    expand_at := fun f d => Ok (d ++ lit "/" ++ f); node_at := fun p => Some (1, p); where_is := snd; value_at := shows; lower_comp := fun _ k => Some k; set_order := nodup (list_eq_dec N.eq_dec) |}.
  split; vm_compute; reflexivity.
Qed.
Print Assumptions C64_other_node_refuted.
(** Text beside a file token in the value of an attribute is dropped. *)
Theorem C64_beside_refuted : exists w,
  shows shot (lit "sub") = Some (VStr (lit "${file::}/sub")) /\ on_disk w (lit "/base/sub/f.txt") = true /\
  resolve_filepath_token w 9 0 1 shot (lit "${sub}/f.txt") = Some (Ok (lit "/base/f.txt")).
Proof.
  exists {| sub_layers := [lay "/base"]; env_roots := None; path_sep := 58%N; on_disk := fun p => str_in p [lit "/base"; lit "/base/sub/f.txt"; lit "/base/f.txt"];
    expand_at := fun f d => Ok (if is_empty f then d else if startswith (lit "/") f then f else d ++ lit "/" ++ f); node_at := fun p => Some (1, p); where_is := snd; value_at := shows; lower_comp := fun _ k => Some k; set_order := nodup (list_eq_dec N.eq_dec) |}.
  repeat split; vm_compute; reflexivity.
Qed.
Print Assumptions C64_beside_refuted.
(** A file token directly inside a file token is taken for a reference. *)
Theorem C64_nested_refuted :
  resolve_filepath_token (house three None disk) 9 0 3 shot (lit "${file::}/r.txt") = Some (Ok []) /\
  resolve_filepath_token (house three None disk) 9 0 3 shot (lit "r.txt") = Some (Ok (lit "/top/r.txt")).
Proof. split; vm_compute; reflexivity. Qed.
Print Assumptions C64_nested_refuted.
(** A value that is no text is an exception. *)
Theorem C64_number_refuted : resolve_filepath_token (house three None disk) 9 0 3 shot (lit "fox_${number}.txt") = Some (Raise TypeError).
Proof. vm_compute. reflexivity. Qed.
Print Assumptions C64_number_refuted.
(** An attribute that refers to itself never ends. *)
Theorem C64_endless_refuted : forall fuel, resolve_filepath_token (house three None disk) fuel 0 3 shot (lit "${loop}") = None.
Proof.
  intros fuel. assert (G : forall f, attr_refs (house three None disk) three 0 f (Some shot) (lit "${loop}") = None).
  { induction f as [|f IH]; [reflexivity|]. cbn [attr_refs]. unfold attr_step.
    change (get_atomic_tokens_fuel (S (length (lit "${loop}"))) (lit "${loop}")) with (Some [lit "${loop}"]). cbv iota.
    change (set_order (house three None disk) [lit "${loop}"]) with [lit "${loop}"]. cbn [fold_out].
    change (get_token_content (lit "${loop}")) with (lit "loop"). change (source (house three None disk) shot (lit "loop")) with (Some shot, lit "loop"). cbv iota. cbn [infer obind].
    change (read (house three None disk) (Some shot) (lit "loop")) with (VStr (lit "${loop}")). cbv iota. unfold deeper.
    change (get_standalone_tokens (lit "${loop}") [ATTR_PREFIX; FILE_PREFIX]) with [lit "${loop}"]. cbn [fold_out].
    change (kind_of (get_token_content (lit "${loop}"))) with KRef. cbv iota. now rewrite IH. }
  unfold resolve_filepath_token. change (seq 0 (3 - 0)) with [0; 1; 2]. cbn [first_value]. unfold at_depth at 1.
  change (get_active_layers sl_muted sl_soloed (between 0 3 (sub_layers (house three None disk)))) with three. unfold three at 1. cbv iota. cbn [infer obind]. fold three.
  change (make_token_str (FILE_PREFIX ++ lit "${loop}")) with (tok (FILE_PREFIX ++ lit "${loop}")).
  rewrite file_ref_one; [now rewrite G|discriminate|].
  apply body_file. apply (body_tok (lit "loop") []); [|constructor]. repeat (apply body_char; [discriminate|intros [r E]; discriminate E|]). apply body_nil.
Qed.
Print Assumptions C64_endless_refuted.
