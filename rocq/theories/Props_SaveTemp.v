(** C69: copying the layers of a stage to one folder. *)

From Coq Require Import String List NArith Bool Arith Lia.
From Verif Require Import PyStr PyStrFacts Dict DictFacts NxtPath PyVal PyValFacts NodeIO NodeIOSpec StageLoad StageLoadSpec StageLoadProofs LayerIO LayerIOProofs SaveTemp SaveTempSpec SaveTempProofs.
Import ListNotations.

(** The file of a layer has what saving the layer writes (C23), except for the
    references and the overrides, and the folder of the layer (or its cwd). *)
Theorem C69_data :
  forall bi dirname l,
  dget (lit "cwd") (temp_data bi dirname l) = Some (VStr (match t_cwd l with [] => dirname (t_real l) | c => c end)) /\
  (folders_first (l_refs (t_layer l)) -> l_refs (t_layer l) <> [] ->
     dget (lit "references") (temp_data bi dirname l) = Some (VStrs (map basename (l_refs (t_layer l))))) /\
  (l_refs (t_layer l) = [] -> dget (lit "references") (temp_data bi dirname l) = None) /\
  (forall k, k <> lit "cwd" -> k <> lit "references" -> k <> lit "comp_overrides" ->
     dget k (temp_data bi dirname l) = dget k (get_save_data bi (t_layer l))).
Proof.
  intros bi dirname l. split; [rewrite temp_data_get; reflexivity|]. split; [|split].
  - intros F Ne. change (lit "references") with K_REFERENCES. rewrite temp_data_get. change (str_eqb K_REFERENCES K_CWD) with false. cbv iota.
    rewrite (save_get9 bi (t_layer l) K_REFERENCES (VStrs (l_refs (t_layer l)))) by reflexivity.
    assert (Q : empty_container (VStrs (l_refs (t_layer l))) = false) by (destruct (l_refs (t_layer l)); [congruence|reflexivity]). rewrite Q. cbv zeta. rewrite str_eqb_refl. now rewrite folders_first_all.
  - intros Ne. change (lit "references") with K_REFERENCES. rewrite temp_data_get. change (str_eqb K_REFERENCES K_CWD) with false. cbv iota.
    rewrite (save_get9 bi (t_layer l) K_REFERENCES (VStrs (l_refs (t_layer l)))) by reflexivity. now rewrite Ne.
  - intros k N1 N2 N3. rewrite temp_data_get. apply str_eqb_neq in N1, N2, N3. change (lit "cwd") with K_CWD in N1. change (lit "references") with K_REFERENCES in N2. change (lit "comp_overrides") with K_OVERRIDES in N3. rewrite N1. cbv zeta. rewrite N2, N3. now destruct (dget k (get_save_data bi (t_layer l))).
Qed.
Print Assumptions C69_data.

(** The override of a layer it references is found under that layer's new name,
    and overrides of others stay. *)
Theorem C69_overrides :
  forall bi dirname l, NoDup (map basename (l_refs (t_layer l))) -> NoDup (dkeys (l_overrides (t_layer l))) -> l_overrides (t_layer l) <> [] ->
  (forall r, In r (l_refs (t_layer l)) -> foldered r -> ~ In (basename r) (dkeys (l_overrides (t_layer l)))) ->
  exists overs, dget (lit "comp_overrides") (temp_data bi dirname l) = Some (VDict overs) /\
    (forall r, In r (l_refs (t_layer l)) -> dget (basename r) overs = dget r (l_overrides (t_layer l))) /\
    (forall k, ~ In k (l_refs (t_layer l)) -> ~ In k (map basename (l_refs (t_layer l))) -> dget k overs = dget k (l_overrides (t_layer l))).
Proof.
  intros bi dirname l Nb Nd Ne H. exists (snd (rename_refs (l_refs (t_layer l)) (l_refs (t_layer l)) (sort_items (l_overrides (t_layer l))) 0)). split; [|split].
  - change (lit "comp_overrides") with K_OVERRIDES. rewrite temp_data_get. change (str_eqb K_OVERRIDES K_CWD) with false. cbv iota.
    rewrite (save_get9 bi (t_layer l) K_OVERRIDES (VDict (sort_items (l_overrides (t_layer l))))) by reflexivity.
    assert (Q : empty_container (VDict (sort_items (l_overrides (t_layer l)))) = false) by (destruct (sort_items (l_overrides (t_layer l))) eqn:E; [destruct (Ne (proj1 (sort_nil _) E))|reflexivity]). rewrite Q. reflexivity.
  - intros r Hr. rewrite rename_overs; [now apply sort_dget|exact Nb| |exact Hr]. intros r' Hr' F. rewrite sort_keys_in. now apply H.
  - intros k N1 N2. rewrite rename_overs_frame; [now apply sort_dget|]. intros r Hr _. split; intros ->; [contradiction|]. apply N2. now apply in_map.
Qed.
Print Assumptions C69_overrides.

(** The folder gets one file for every file name, the last written is that of
    the strongest layer with the name; the answer is the name of the top layer. *)
Theorem C69_folder :
  forall known bi dirname ls files top, save_to_temp known bi dirname ls = Ok (files, top) ->
  (exists l rest, ls = l :: rest /\ top = basename (t_real l)) /\
  (forall k, In k (dkeys files) <-> exists l, In l ls /\ k = basename (t_real l)) /\
  (forall k data, dget k files = Some data -> exists before l after, ls = before ++ l :: after /\ k = basename (t_real l) /\
     data = temp_data bi dirname l /\ ~ In k (map (fun l => basename (t_real l)) before)).
Proof. exact saved. Qed.
Print Assumptions C69_folder.
Theorem C69_succeeds :
  forall known bi dirname ls, ls <> [] ->
  (forall l, In l ls -> known (basename (t_real l)) = true /\ json_ok (VDict (temp_data bi dirname l)) = true) ->
  exists files top, save_to_temp known bi dirname ls = Ok (files, top).
Proof. exact save_ok. Qed.
Print Assumptions C69_succeeds.

(** Loading the top file of the folder gives the same layers in the same order,
    with the same parents: if every file is called what it is referenced by,
    references with a folder come before those without, and files of the same
    name have the same references. *)
Theorem C69_reload :
  forall load dirname t, brings load dirname t -> tidy t ->
  forall fuel cwd st, load_from_file load dirname fuel {| lays := []; order := [] |} cwd (root_of t) None = Done (st, cwd) -> depth t <= fuel ->
  forall known bi ls files top,
  Forall2 (fun l y => t_real l = l_real y /\ l_refs (t_layer l) = l_paths y) ls (lays st) ->
  (forall y z, In y (lays st) -> In z (lays st) -> basename (l_real y) = basename (l_real z) -> l_paths y = l_paths z) ->
  save_to_temp known bi dirname ls = Ok (files, top) ->
  forall out dir cwd', exists d st', load_in out files dir top = Loaded d /\
    load_from_file (load_in out files) (fun _ => out) fuel {| lays := []; order := [] |} cwd' d None = Done (st', cwd') /\
    order st' = order st /\
    map (fun l => (l_real l, l_file l, l_parent l, l_paths l)) (lays st') =
    map (fun l => (out ++ slash :: basename (l_real l), basename (l_real l), l_parent l, map basename (l_paths l))) (lays st).
Proof. exact reload. Qed.
Print Assumptions C69_reload.

(** A layer of a stage, with nothing but references and overrides. *)
Definition bare (real : pystr) (refs : list pystr) (overs : dict pyval) : tlayer :=
  {| t_layer := {| l_alias := VStr (lit "n"); l_color := VNone; l_mute := VBool false; l_solo := VBool false; l_lock := VNone; l_filepath := VNone; l_real_path := VStr real;
                   l_refs := refs; l_overrides := overs; l_positions := []; l_collapse := []; l_aliases := []; l_colors := []; l_locks := []; l_input_meta := []; l_nodes := [] |};
     t_cwd := []; t_real := real |}.
Definition any (p : pystr) : bool := true.
Definition dir_of (p : pystr) : pystr := let '(d, _, _) := rpartition NODE_SEP p in d.
Definition written (ls : list tlayer) : res (dict (dict pyval) * pystr) := save_to_temp any [] dir_of ls.
Definition refs_of (r : res (dict (dict pyval) * pystr)) (name : pystr) : option (list pystr) :=
  match r with Ok (files, _) => option_map refs_in (dget name files) | Raise _ => None end.

(** A reference without a folder that stands before one with a folder is
    overwritten: [b.nxt] is lost. *)
Theorem C69_mixed_refuted :
  exists ls, map (fun l => l_refs (t_layer l)) ls = [[lit "b.nxt"; lit "x/c.nxt"]; []; []] /\
    refs_of (written ls) (lit "a.nxt") = Some [lit "c.nxt"; lit "x/c.nxt"].
Proof. exists [bare (lit "/p/a.nxt") [lit "b.nxt"; lit "x/c.nxt"] []; bare (lit "/p/b.nxt") [] []; bare (lit "/p/x/c.nxt") [] []]. split; vm_compute; reflexivity. Qed.
Print Assumptions C69_mixed_refuted.

(** Of two different files with one name only one is written. *)
Theorem C69_same_name_refuted :
  exists ls, map (fun l => t_real l) ls = [lit "/p/a.nxt"; lit "/p/x/b.nxt"; lit "/p/y/b.nxt"] /\ map (fun l => l_refs (t_layer l)) ls = [[lit "x/b.nxt"; lit "y/b.nxt"]; [lit "c.nxt"]; []] /\
    match written ls with Ok (files, _) => length files = 2 | Raise _ => False end /\ refs_of (written ls) (lit "b.nxt") = Some [lit "c.nxt"].
Proof. exists [bare (lit "/p/a.nxt") [lit "x/b.nxt"; lit "y/b.nxt"] []; bare (lit "/p/x/b.nxt") [lit "c.nxt"] []; bare (lit "/p/y/b.nxt") [] []]. repeat split; vm_compute; reflexivity. Qed.
Print Assumptions C69_same_name_refuted.

(** An override of a layer further down keeps the old path, which no layer of the
    copy has. *)
Theorem C69_nested_override_refuted :
  exists over ls, map (fun l => (l_refs (t_layer l), l_overrides (t_layer l))) ls = [([lit "x/b.nxt"], [(lit "y/c.nxt", over)]); ([lit "y/c.nxt"], []); ([], [])] /\
    match written ls with
    | Ok (files, top) => top = lit "a.nxt" /\ option_map (dget (lit "comp_overrides")) (dget top files) = Some (Some (VDict [(lit "y/c.nxt", over)])) /\ option_map refs_in (dget (lit "b.nxt") files) = Some [lit "c.nxt"]
    | Raise _ => False
    end.
Proof. exists (VDict [(lit "mute", VBool true)]), [bare (lit "/p/a.nxt") [lit "x/b.nxt"] [(lit "y/c.nxt", VDict [(lit "mute", VBool true)])]; bare (lit "/p/x/b.nxt") [lit "y/c.nxt"] []; bare (lit "/p/x/y/c.nxt") [] []]. split; [reflexivity|]. vm_compute. auto. Qed.
Print Assumptions C69_nested_override_refuted.

(** Three files in three folders, with an override. *)
Definition disk (dir p : pystr) : opened :=
  if str_eqb p (lit "x/b.nxt") then Loaded {| f_real := lit "/p/x/b.nxt"; f_file := p; f_refs := [lit "y/c.nxt"; lit "gone.nxt"] |}
  else if str_eqb p (lit "y/c.nxt") then Loaded {| f_real := lit "/p/x/y/c.nxt"; f_file := p; f_refs := [] |}
  else if str_eqb p (lit "d.nxt") then Loaded {| f_real := lit "/p/d.nxt"; f_file := p; f_refs := [] |}
  else Missing.
Definition ex_tree : ftree :=
  File {| f_real := lit "/p/a.nxt"; f_file := lit "a.nxt"; f_refs := [lit "x/b.nxt"; lit "d.nxt"] |}
    [Opened (lit "x/b.nxt") (File {| f_real := lit "/p/x/b.nxt"; f_file := lit "x/b.nxt"; f_refs := [lit "y/c.nxt"; lit "gone.nxt"] |}
       [Opened (lit "y/c.nxt") (File {| f_real := lit "/p/x/y/c.nxt"; f_file := lit "y/c.nxt"; f_refs := [] |} []); Unopenable (lit "gone.nxt")]);
     Opened (lit "d.nxt") (File {| f_real := lit "/p/d.nxt"; f_file := lit "d.nxt"; f_refs := [] |} [])].
Definition ex_layers : list tlayer :=
  [bare (lit "/p/a.nxt") [lit "x/b.nxt"; lit "d.nxt"] [(lit "x/b.nxt", VDict [(lit "mute", VBool true)])];
   bare (lit "/p/x/b.nxt") [lit "y/c.nxt"] []; bare (lit "/p/x/y/c.nxt") [] []; bare (lit "/p/d.nxt") [] []].
Lemma ff a b refs : refs = a ++ b -> forallb folderedb a = true -> forallb (fun p => negb (folderedb p)) b = true -> folders_first refs.
Proof.
  intros -> Ha Hb. exists a, b. split; [reflexivity|]. rewrite forallb_forall in Ha, Hb. split; apply Forall_forall; intros p Hp.
  - apply foldered_b. now apply Ha.
  - apply foldered_b_not. apply Hb in Hp. now apply negb_true_iff in Hp.
Qed.
Example C69_ex_tree : brings disk dir_of ex_tree /\ tidy ex_tree /\ depth ex_tree = 3.
Proof.
  split; [repeat (constructor; try reflexivity)|]. split; [|reflexivity]. cbn [ex_tree tidy]. repeat split; try (vm_compute; discriminate).
  - now apply (ff [lit "x/b.nxt"] [lit "d.nxt"]).
  - now apply (ff [lit "y/c.nxt"] []).
  - now apply (ff [] []).
  - now apply (ff [] []).
Qed.
Example C69_ex_stage :
  exists st files top, load_from_file disk dir_of 3 {| lays := []; order := [] |} (lit "/") (root_of ex_tree) None = Done (st, lit "/") /\
    Forall2 (fun l y => t_real l = l_real y /\ l_refs (t_layer l) = l_paths y) ex_layers (lays st) /\
    (forall y z, In y (lays st) -> In z (lays st) -> basename (l_real y) = basename (l_real z) -> l_paths y = l_paths z) /\
    written ex_layers = Ok (files, top) /\ top = lit "a.nxt" /\
    map (fun f => (fst f, refs_in (snd f))) files = [(lit "d.nxt", []); (lit "c.nxt", []); (lit "b.nxt", [lit "c.nxt"]); (lit "a.nxt", [lit "b.nxt"; lit "d.nxt"])] /\
    option_map (dget (lit "comp_overrides")) (dget top files) = Some (Some (VDict [(lit "b.nxt", VDict [(lit "mute", VBool true)])])).
Proof.
  do 3 eexists. split; [reflexivity|]. split; [repeat constructor|]. split.
  - intros y z Hy Hz E. vm_compute in Hy, Hz. repeat match goal with H : _ \/ _ |- _ => destruct H as [<-|H] end; try contradiction; vm_compute in E; first [discriminate E|reflexivity].
  - split; [vm_compute; reflexivity|]. repeat split; vm_compute; reflexivity.
Qed.
Example C69_ex_overrides :
  let l := hd (bare [] [] []) ex_layers in
  NoDup (map basename (l_refs (t_layer l))) /\ NoDup (dkeys (l_overrides (t_layer l))) /\ l_overrides (t_layer l) <> [] /\
  (forall r, In r (l_refs (t_layer l)) -> foldered r -> ~ In (basename r) (dkeys (l_overrides (t_layer l)))).
Proof.
  split; [vm_compute; repeat constructor; cbn; intuition discriminate|]. split; [vm_compute; repeat constructor; cbn; intuition discriminate|]. split; [discriminate|].
  intros r Hr _ I. apply str_in_In in I. cbn in Hr. destruct Hr as [<-|[<-|[]]]; vm_compute in I; discriminate.
Qed.
