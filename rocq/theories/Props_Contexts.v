(** C76: making a context, and loading the plugins it becomes one of. *)

From Coq Require Import String List NArith Bool Arith Lia.
From Verif Require Import PyStr PyStrFacts Dict DictFacts Headless HeadlessSpec Props_Headless Contexts ContextsSpec ContextsProofs.
Import ListNotations.

Section Props.
Variables (dir cwd this_exe : pystr) (starters : dict pystr) (exe_name : pystr -> pystr).
Let create_context := Contexts.create_context dir cwd this_exe starters exe_name.

(** A context that is made has a name and a plugin file that was not there.  It is
    registered with the name, executable and arguments asked for, and its graph is
    a new one beside the plugin if none was given.  No other file changes, and the
    contexts registered before stay. *)
Theorem C76_made :
  forall w name exe graph args w' n,
  create_context w name exe graph args = (w', Made n) ->
  n = name /\ name <> [] /\ dget (py_file dir name) (files w) = None /\
  exists g, known w' = known w ++ [{| c_name := name; c_exe := exe; c_graph := g; c_args := args |}] /\
    dget (py_file dir name) (files w') = Some (Plugin name exe g args) /\
    match graph with
    | None => g = nxt_file dir name /\ dget g (files w') = Some (Graph (starter_context this_exe starters exe_name exe) (lit "custom_" ++ name ++ lit "_context")) /\
              only_files [py_file dir name; nxt_file dir name] (files w) (files w')
    | Some given => dget (abspath cwd given) (files w) <> None /\ only_files [py_file dir name] (files w) (files w')
    end.
Proof.
  intros w name exe graph args w' n H. unfold create_context, Contexts.create_context in H. destruct name as [|c0 nm] eqn:En; [discriminate|]. rewrite <- En in *.
  destruct (dmem (py_file dir name) (files w)) eqn:Em; [discriminate|].
  assert (Ef : dget (py_file dir name) (files w) = None) by (unfold dmem in Em; destruct (dget (py_file dir name) (files w)); [discriminate|reflexivity]).
  assert (W : forall w0 g, write_and_run dir w0 name exe g args = (w', Made n) ->
     n = name /\ known w' = known w0 ++ [{| c_name := name; c_exe := exe; c_graph := g; c_args := args |}] /\ files w' = dset (py_file dir name) (Plugin name exe g args) (files w0)).
  { intros w0 g E. unfold write_and_run in E. destruct (run_plugin name exe g args) eqn:Er; try discriminate. apply run_registers in Er as ->. injection E as <- <-. auto. }
  destruct graph as [given|].
  - unfold given_graph in H. destruct (dmem (abspath cwd given) (files w)) eqn:Eg; [|discriminate].
    assert (exists g, write_and_run dir w name exe g args = (w', Made n)) as (g & Hg) by (destruct (common N.eqb given (py_file dir name)); eauto).
    apply W in Hg as (-> & Hk & Hf). repeat split; [rewrite En; discriminate|exact Ef|]. exists g. rewrite Hf. split; [exact Hk|]. split; [apply dget_dset_same|]. split.
    + unfold dmem in Eg. destruct (dget (abspath cwd given) (files w)); discriminate.
    + intros p Hp. apply dget_dset_other. intros <-. apply Hp. now left.
  - apply W in H as (-> & Hk & Hf). cbn [known files] in Hk, Hf. repeat split; [rewrite En; discriminate|exact Ef|]. exists (nxt_file dir name). rewrite Hf.
    split; [exact Hk|]. split; [apply dget_dset_same|]. split; [reflexivity|]. split.
    + rewrite dget_dset_other by apply py_not_nxt. apply dget_dset_same.
    + intros p Hp. rewrite !dget_dset_other; [reflexivity|intros <-; apply Hp; right; now left|intros <-; apply Hp; now left].
Qed.

(** The name is found afterwards, if no context had it before. *)
Theorem C76_found :
  forall w name exe graph args w', create_context w name exe graph args = (w', Made name) ->
  (forall c, In c (known w) -> c_name c <> name) ->
  exists g, find_context_by_name (known w') name = Some {| c_name := name; c_exe := exe; c_graph := g; c_args := args |}.
Proof.
  intros w name exe graph args w' H N. apply C76_made in H as (_ & _ & _ & g & Hk & _). exists g. rewrite Hk.
  exact (C75_registered (known w) {| c_name := name; c_exe := exe; c_graph := g; c_args := args |} N).
Qed.

(** It is refused exactly when there is no name, the name is taken, or the graph
    given is no file; then nothing is written or registered. *)
Theorem C76_refused :
  forall w name exe graph args,
  match create_context w name exe graph args with
  | (w', NoName) => w' = w /\ name = []
  | (w', Taken) => w' = w /\ name <> [] /\ dget (py_file dir name) (files w) <> None
  | (w', NoGraph) => w' = w /\ name <> [] /\ exists g, graph = Some g /\ dget (abspath cwd g) (files w) = None
  | _ => name <> [] /\ dget (py_file dir name) (files w) = None /\ (forall g, graph = Some g -> dget (abspath cwd g) (files w) <> None)
  end.
Proof.
  intros w name exe graph args. unfold create_context, Contexts.create_context. destruct name as [|c0 nm] eqn:En; [now split|]. rewrite <- En in *.
  assert (Hn : name <> []) by (rewrite En; discriminate). unfold dmem at 1. destruct (dget (py_file dir name) (files w)) eqn:Em.
  { repeat split; auto. congruence. }
  destruct graph as [g|].
  - unfold given_graph, dmem. destruct (dget (abspath cwd g) (files w)) eqn:Eg; [|repeat split; auto; now exists g].
    assert (G : forall g0, Some g = Some g0 -> dget (abspath cwd g0) (files w) <> None) by (intros g0 [= <-]; congruence).
    destruct (common N.eqb g (py_file dir name)); unfold write_and_run; destruct (run_plugin _ _ _ _); auto.
  - unfold write_and_run. destruct (run_plugin _ _ _ _); repeat split; auto; discriminate.
Qed.

(** With an ordinary name, executable and plugin directory it is made. *)
Theorem C76_default :
  forall w name exe args, name <> [] -> harmless name -> harmless exe -> harmless dir -> dget (py_file dir name) (files w) = None ->
  exists w', create_context w name exe None args = (w', Made name).
Proof.
  intros w name exe args Hn H1 H2 H3 Hf. unfold create_context, Contexts.create_context. destruct name as [|c0 nm] eqn:En; [congruence|]. rewrite <- En in *.
  unfold dmem. rewrite Hf. unfold write_and_run, run_plugin. rewrite !harmless_quoted; [eexists; reflexivity| |assumption|assumption].
  unfold nxt_file, harmless. repeat (apply Forall_app; split); try assumption; repeat constructor; cbn; intuition discriminate.
Qed.

(** A graph that is given is remembered relative to a text that its path and that
    of the plugin begin with: from there it is the graph given. *)
Theorem C76_given_graph :
  forall w name exe given args w', create_context w name exe (Some given) args = (w', Made name) ->
  exists g, In {| c_name := name; c_exe := exe; c_graph := g; c_args := args |} (known w') /\
    (g = given \/
     exists root, root <> [] /\ (exists r, given = root ++ r) /\ (exists r, py_file dir name = root ++ r) /\
       abspath (abspath cwd root) g = abspath cwd given).
Proof.
  intros w name exe given args w' H. unfold create_context, Contexts.create_context in H. destruct name as [|c0 nm] eqn:En; [discriminate|]. rewrite <- En in *.
  destruct (dmem (py_file dir name) (files w)); [discriminate|]. unfold given_graph in H. destruct (dmem (abspath cwd given) (files w)); [|discriminate].
  assert (W : forall g, write_and_run dir w name exe g args = (w', Made name) -> In {| c_name := name; c_exe := exe; c_graph := g; c_args := args |} (known w')).
  { intros g E. unfold write_and_run in E. destruct (run_plugin name exe g args) eqn:Er; try discriminate. apply run_registers in Er as ->. injection E as <-.
    cbn [known]. unfold register_context. apply in_or_app. right. now left. }
  assert (C : forall a b, (exists r, a = common N.eqb a b ++ r) /\ (exists r, b = common N.eqb a b ++ r)).
  { induction a as [|x a IH]; intros b; [split; [now exists []|now exists b]|]. destruct b as [|y b]; [split; [now exists (x :: a)|now exists []]|]. cbn [common].
    destruct (N.eqb_spec x y) as [->|]; [|split; [now exists (x :: a)|now exists (y :: b)]].
    destruct (IH b) as ((r & Hr) & (s & Hs)). split; [exists r; cbn [app]; congruence|exists s; cbn [app]; congruence]. }
  destruct (C given (py_file dir name)) as (C1 & C2). destruct (common N.eqb given (py_file dir name)) as [|x root] eqn:Er.
  - exists given. split; [now apply W|now left].
  - exists (relpath cwd given (x :: root)). split; [now apply W|]. right. exists (x :: root). split; [discriminate|]. split; [exact C1|]. split; [exact C2|].
    unfold abspath at 1. rewrite relpath_back. reflexivity.
Qed.

(** A name with an apostrophe is no text in the plugin file: making the context
    fails, but leaves the file behind, and from then on no plugins can be loaded. *)
Theorem C76_apostrophe :
  forall w name exe args, apostrophe name -> harmless exe -> ordinary dir -> dget (py_file dir name) (files w) = None ->
  exists w', create_context w name exe None args = (w', Failed) /\ known w' = known w /\
    dget (py_file dir name) (files w') = Some (Plugin name exe (nxt_file dir name) args) /\
    forall listdir names others st,
      listdir dir = Some names -> In (lit "custom_" ++ name ++ lit "_context.py") names -> l_names st = [] ->
      load_plugins listdir (files w') (dir :: others) st = None.
Proof.
  intros w name exe args Hn He Hd Hf. unfold create_context, Contexts.create_context.
  assert (Nn : name <> []) by (destruct Hn as (a & b & -> & Ha & _); destruct a; [congruence|discriminate]).
  assert (Qg : quoted (nxt_file dir name) = Unterminated).
  { apply apostrophe_quoted. destruct Hn as (a & b & -> & Ha & Hb & Hp). exists (dir ++ lit "/custom_" ++ a), (b ++ lit "_context.nxt").
    apply Forall_app in Hp as (P1 & P2). split; [unfold nxt_file; now rewrite <- !app_assoc|]. split; [destruct dir; discriminate|]. split; [destruct b; discriminate|].
    unfold ordinary. repeat (apply Forall_app; split); try assumption; repeat constructor; cbn; intuition discriminate. }
  assert (R : run_plugin name exe (nxt_file dir name) args = Syntax).
  { unfold run_plugin. rewrite (apostrophe_quoted _ Hn), (harmless_quoted _ He), Qg. reflexivity. }
  destruct name as [|c0 nm] eqn:En; [congruence|]. rewrite <- En in *. unfold dmem. rewrite Hf. unfold write_and_run. rewrite R. eexists. split; [reflexivity|].
  split; [reflexivity|]. cbn [files]. split; [apply dget_dset_same|]. intros listdir names others st Hl Hi Hs.
  set (found := dset _ _ _).
  assert (G : dget (py_file dir name) found = Some (Plugin name exe (nxt_file dir name) args)) by apply dget_dset_same. clearbody found.
  pose proof (load_plugins_spec listdir found (dir :: others) st) as L. destruct (load_plugins listdir found (dir :: others) st) as [st'|]; [exfalso|reflexivity].
  destruct L as (new & H1 & _ & _ & _ & H5 & H6). set (m := lit "custom_" ++ name ++ lit "_context") in *.
  assert (O : offers listdir found dir m).
  { exists names, (lit "custom_" ++ name ++ lit "_context.py"). split; [exact Hl|]. split; [exact Hi|]. split; [apply stem_py|]. unfold m. rewrite module_py, G. discriminate. }
  assert (I : In m (map snd new)) by (specialize (H6 dir m (or_introl eq_refl) O); now rewrite H1, Hs in H6).
  apply in_map_iff in I as ((d & m') & E & I). cbn [snd] in E. subst m'. apply H5 in I as (F & _ & N). apply N.
  apply first_offer_cons in F as [(-> & _)|(F & _)]; [|contradiction]. exists (Plugin name exe (nxt_file dir name) args). unfold m. rewrite module_py, G. split; [reflexivity|].
  cbn [contexts_of]. now rewrite R.
Qed.
End Props.

(** ** Plugins *)

(** Every module offered by a plugin directory is loaded once, from the first
    directory that offers it, and what the modules register comes after what was
    registered before. *)
Theorem C76_plugins :
  forall listdir found dirs known0 st,
  load_plugins listdir found dirs {| l_names := []; l_known := known0; l_run := [] |} = Some st ->
  exists modules : list (pystr * pystr),
    NoDup (map snd modules) /\
    (forall d m, In (d, m) modules <-> first_offer listdir found dirs d m) /\
    l_run st = map (fun dm => module_file (fst dm) (snd dm)) modules /\
    l_known st = known0 ++ flat_map (contexts_at found) modules.
Proof.
  intros listdir found dirs known0 st H. pose proof (load_plugins_spec listdir found dirs {| l_names := []; l_known := known0; l_run := [] |}) as L. rewrite H in L.
  destruct L as (new & H1 & H2 & H3 & H4 & H5 & H6). exists new. split; [exact H2|]. split; [|now split]. intros d m. split; [intros F; now apply H5 in F|].
  intros F. assert (I : In m (map snd new)).
  { destruct F as (b & a & -> & O & _). specialize (H6 d m). rewrite H1 in H6. apply H6; [apply in_or_app; right; now left|exact O]. }
  apply in_map_iff in I as ((d' & m') & E & I). cbn [snd] in E. subst m'. pose proof (H5 _ _ I) as (F' & _). now rewrite (first_offer_unique _ _ _ _ _ _ F F').
Qed.

(** Loading fails exactly when one of the modules that count raises. *)
Theorem C76_plugins_fail :
  forall listdir found dirs known0,
  load_plugins listdir found dirs {| l_names := []; l_known := known0; l_run := [] |} = None <->
  exists d m, first_offer listdir found dirs d m /\ raises_at found d m.
Proof.
  intros listdir found dirs known0. pose proof (load_plugins_spec listdir found dirs {| l_names := []; l_known := known0; l_run := [] |}) as L.
  destruct (load_plugins _ _ _ _) as [st|] eqn:E.
  - split; [discriminate|]. intros (d & m & F & R). exfalso. destruct L as (new & H1 & _ & _ & _ & H5 & H6).
    assert (I : In m (map snd new)).
    { pose proof F as (b & a & -> & O & _). specialize (H6 d m). rewrite H1 in H6. apply H6; [apply in_or_app; right; now left|exact O]. }
    apply in_map_iff in I as ((d' & m') & E' & I). cbn [snd] in E'. subst m'. pose proof (H5 _ _ I) as (F' & _ & N).
    rewrite (first_offer_unique _ _ _ _ _ _ F F') in R. contradiction.
  - split; [|reflexivity]. intros _. destruct L as (d & m & F & _ & R). now exists d, m.
Qed.

(** A context that was made is registered again when the plugins are loaded. *)
Theorem C76_restart :
  forall dir cwd this_exe starters exe_name w name exe graph args w' others listdir names known0 st,
  create_context dir cwd this_exe starters exe_name w name exe graph args = (w', Made name) ->
  listdir dir = Some names -> In (lit "custom_" ++ name ++ lit "_context.py") names ->
  load_plugins listdir (files w') (dir :: others) {| l_names := []; l_known := known0; l_run := [] |} = Some st ->
  exists c, known w' = known w ++ [c] /\ c_name c = name /\ In c (l_known st).
Proof.
  intros dir cwd this_exe starters exe_name w name exe graph args w' others listdir names known0 st H Hl Hi L.
  pose proof (C76_made _ _ _ _ _ _ _ _ _ _ _ _ H) as (_ & _ & _ & g & Hk & Hp & _). eexists. split; [exact Hk|]. split; [reflexivity|].
  apply C76_plugins in L as (ms & _ & H2 & _ & ->). apply in_or_app. right. apply in_flat_map. exists (dir, lit "custom_" ++ name ++ lit "_context"). split.
  - apply H2. exists [], others. split; [reflexivity|]. split; [|constructor].
    exists names, (lit "custom_" ++ name ++ lit "_context.py"). split; [exact Hl|]. split; [exact Hi|]. split; [apply stem_py|]. rewrite module_py, Hp. discriminate.
  - unfold contexts_at. cbn [fst snd]. rewrite module_py, Hp. cbn [contexts_of]. destruct (run_plugin name exe g args) eqn:R.
    + apply run_registers in R as ->. now left.
    + exfalso. clear - H R Hk. unfold create_context in H. destruct name as [|c0 nm] eqn:En; [discriminate|]. rewrite <- En in *.
      destruct (dmem _ _); [discriminate|]. destruct graph as [gr|]; [destruct (given_graph dir cwd w gr name); [|discriminate]|];
      unfold write_and_run in H; destruct (run_plugin _ _ _ _) eqn:R' in H; try discriminate; apply run_registers in R' as E; injection H as <-; cbn [known] in Hk;
      unfold register_context in Hk; apply app_inv_head in Hk; injection Hk as ->; injection E as E; congruence.
    + exfalso. clear - H R Hk. unfold create_context in H. destruct name as [|c0 nm] eqn:En; [discriminate|]. rewrite <- En in *.
      destruct (dmem _ _); [discriminate|]. destruct graph as [gr|]; [destruct (given_graph dir cwd w gr name); [|discriminate]|];
      unfold write_and_run in H; destruct (run_plugin _ _ _ _) eqn:R' in H; try discriminate; apply run_registers in R' as E; injection H as <-; cbn [known] in Hk;
      unfold register_context in Hk; apply app_inv_head in Hk; injection Hk as ->; injection E as E; congruence.
Qed.

(** ** Samples *)

Definition s_dir : pystr := lit "/home/u/nxt/plugins".
Definition s_starters : dict pystr := [(lit "maya", lit "/nxt/maya_context.nxt"); (lit "blender", lit "/nxt/blender_context.nxt")].
Definition s_create := create_context s_dir (lit "/w") (lit "python3") s_starters (fun e => e).
Definition s_world : world := {| files := [(lit "/home/u/nxt_graphs/c.nxt", Graph None []); (lit "/proj/c.nxt", Graph None [])]; known := [py] |}.
Definition s_made := fst (s_create s_world (lit "b") (lit "blender") None [lit "--python"]).
Definition s_listdir (d : pystr) : option (list pystr) :=
  if str_eqb d s_dir then Some [lit "custom_b_context.nxt"; lit "custom_b_context.py"] else None.

Example C76_sample :
  snd (s_create s_world (lit "b") (lit "blender") None [lit "--python"]) = Made (lit "b") /\
  (exists c, find_context_by_name (known s_made) (lit "b") = Some c /\ c_graph c = lit "/home/u/nxt/plugins/custom_b_context.nxt") /\
  snd (s_create s_made (lit "b") (lit "x") None []) = Taken /\
  (exists st, load_plugins s_listdir (files s_made) [s_dir; lit "/other"] {| l_names := []; l_known := [py]; l_run := [] |} = Some st /\
              map c_name (l_known st) = [lit "python"; lit "b"] /\ length (l_run st) = 1) /\
  harmless (lit "b") /\ apostrophe (lit "it's") /\
  relpath (lit "/w") (lit "/home/u/nxt_graphs/c.nxt") (lit "/home/u/nxt") = lit "../nxt_graphs/c.nxt".
Proof.
  split; [reflexivity|]. split; [eexists; split; reflexivity|]. split; [reflexivity|]. split; [eexists; split; [reflexivity|split; reflexivity]|].
  split; [repeat constructor; cbn; intuition discriminate|]. split; [|reflexivity].
  exists (lit "it"), (lit "s"). split; [reflexivity|]. split; [discriminate|]. split; [discriminate|]. repeat constructor; cbn; intuition discriminate.
Qed.

(** ** What a user may expect but does not hold *)

(** The context can be asked for under the name it was made with: not if a context
    had the name before. *)
Theorem C76_shadowed_refuted :
  ~ (forall dir cwd t s f w name exe args w',
     create_context dir cwd t s f w name exe None args = (w', Made name) ->
     exists c, find_context_by_name (known w') name = Some c /\ c_exe c = exe).
Proof.
  intros H. destruct (H s_dir (lit "/w") (lit "python3") s_starters (fun e => e) s_world (lit "python") (lit "/opt/python") [] _ eq_refl) as (c & F & E).
  injection F as <-. discriminate E.
Qed.

(** It executes the graph given: not from another directory. *)
Theorem C76_given_refuted :
  ~ (forall dir cwd t s f w name exe given args w',
     create_context dir cwd t s f w name exe (Some given) args = (w', Made name) ->
     exists c, In c (known w') /\ c_name c = name /\ abspath cwd (c_graph c) = abspath cwd given).
Proof.
  intros H. destruct (H s_dir (lit "/w") (lit "python3") s_starters (fun e => e) s_world (lit "p") (lit "/opt/python") (lit "/proj/c.nxt") [] _ eq_refl) as (c & I & N & E).
  cbn [known] in I. destruct I as [<-|[<-|[]]]; [discriminate N|]. vm_compute in E. discriminate E.
Qed.

(** A graph made earlier stays: it is overwritten if the plugin beside it is gone. *)
Theorem C76_graph_kept_refuted :
  ~ (forall dir cwd t s f w name exe args w' p c,
     create_context dir cwd t s f w name exe None args = (w', Made name) -> dget p (files w) = Some c -> dget p (files w') = Some c).
Proof.
  intros H. specialize (H s_dir (lit "/w") (lit "python3") s_starters (fun e => e)
    {| files := [(nxt_file s_dir (lit "b"), Graph None (lit "edited"))]; known := [] |} (lit "b") (lit "x") [] _ (nxt_file s_dir (lit "b")) _ eq_refl eq_refl).
  vm_compute in H. discriminate H.
Qed.

(** The graph it starts with is the one for the executable asked for: the running
    executable goes first. *)
Theorem C76_starter_refuted :
  ~ (forall t s f exe g, dget (f exe) s = Some g -> starter_context t s f exe = Some g).
Proof.
  intros H. specialize (H (lit "maya") s_starters (fun e => e) (lit "blender") _ eq_refl). discriminate H.
Qed.

Print Assumptions C76_made.
Print Assumptions C76_found.
Print Assumptions C76_refused.
Print Assumptions C76_default.
Print Assumptions C76_given_graph.
Print Assumptions C76_apostrophe.
Print Assumptions C76_plugins.
Print Assumptions C76_plugins_fail.
Print Assumptions C76_restart.
Print Assumptions C76_shadowed_refuted.
Print Assumptions C76_given_refuted.
Print Assumptions C76_graph_kept_refuted.
Print Assumptions C76_starter_refuted.
