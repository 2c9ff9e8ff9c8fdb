(** C60: environment variables in file paths, and the current directory. *)

From Coq Require Import String List NArith Bool Lia.
From Verif Require Import PyStr PyStrFacts Dict PyVal EnvVars EnvVarsSpec EnvVarsProofs.
Import ListNotations.

(** Which platforms write variables how. *)
Definition platform_style (platform : string) (st : style) : Prop :=
  In (platform, st) [("linux", Dollar); ("linux2", Dollar); ("darwin", Dollar); ("win32", Percent)]%string.

(** A path of text and variables of either style: on every platform the path
    is rewritten so that its variables are written in the platform's style, and
    nothing else changes.  The names are letters and underscores, a variable is
    not followed by another letter, the text has no foreign marker, and on
    Windows no variable's name begins another's. *)
Theorem C60_unified :
  forall platform st l, platform_style platform st -> Forall named l -> Forall (unmarked (foreign st)) l -> spaced l -> (st = Percent -> no_prefix Dollar l) ->
  unify_env_vars (writes l) (lit platform) = Ok (writes (map (in_style st) l)).
Proof.
  intros platform st l Hp Hn Hu Hs Hx. unfold unify_env_vars. assert (E : dget (lit platform) PLATFORMS = Some st) by (repeat destruct Hp as [Hp|Hp]; try contradiction; injection Hp as <- <-; reflexivity).
  rewrite E. f_equal. now apply unify_writes.
Qed.
Print Assumptions C60_unified.

(** A path in the platform's own style is left alone, whatever it is. *)
Theorem C60_native :
  forall platform st p, platform_style platform st -> ~ In (marker (foreign st)) p -> unify_env_vars p (lit platform) = Ok p.
Proof.
  intros platform st p Hp Hm. pose proof (C60_unified platform st [Text p] Hp) as U. cbn [map in_style] in U. change (writes [Text p]) with (p ++ []) in U. rewrite app_nil_r in U.
  apply U; repeat constructor; auto. intros _ v w r [Q|[]]; discriminate.
Qed.
Print Assumptions C60_native.

(** So a path is the same after being rewritten for another platform and back. *)
Theorem C60_back :
  forall l, Forall named l -> Forall (unmarked Dollar) l -> Forall (unmarked Percent) l -> spaced l -> no_prefix Dollar l -> (forall st v, In (Var st v) l -> st = Dollar) ->
  exists q, unify_env_vars (writes l) (lit "win32") = Ok q /\ unify_env_vars q (lit "linux") = Ok (writes l).
Proof.
  intros l Hn Hd Hp Hs Hx Ha. exists (writes (map (in_style Percent) l)). split; [apply C60_unified; auto; [cbn; tauto]|].
  assert (E : writes l = writes (map (in_style Dollar) (map (in_style Percent) l))).
  { f_equal. rewrite map_map. rewrite <- (map_id l) at 1. apply map_ext_in. intros [s|st v] Hi; [reflexivity|]. cbn. now rewrite (Ha st v Hi). }
  rewrite E. apply C60_unified; [cbn; tauto| | | |discriminate].
  - clear -Hn. induction Hn as [|[s|st v] l Hp H IH]; constructor; auto.
  - clear -Hp. induction Hp as [|[s|st v] l Hp H IH]; constructor; auto; exact I.
  - clear -Hs. induction l as [|p l IH]; [exact I|]. pose proof (spaced_tail _ _ Hs) as Hs'. specialize (IH Hs'). destruct p as [s|st v]; [exact IH|]. destruct l as [|[s|st' w] l]; cbn in *; tauto.
Qed.
Print Assumptions C60_back.

(** Expanding a path leaves the current directory as it was, on every platform
    the program knows, whether or not the start directory is there; and the
    answer is the real path, seen from the start directory, of the path with
    everything expanded. *)
Theorem C60_directory :
  forall dir_exists expandvars expanduser realpath sep platform st cwd p start, platform_style platform st ->
  let '(after, r) := full_file_expand dir_exists expandvars expanduser realpath sep (lit platform) cwd p start in
  after = cwd /\
  match start with
  | Some d => d <> [] -> dir_exists d = false -> r = Raise IOError
  | None => True
  end /\
  forall d, (start = Some d /\ d <> [] /\ dir_exists d = true) \/ ((start = None \/ start = Some []) /\ realpath cwd d = cwd) ->
    exists u, unify_env_vars p (lit platform) = Ok u /\ r = Ok (replace sep (lit "/") (realpath (realpath cwd d) (expanduser (expandvars u)))).
Proof.
  intros ex ev eu rp sep platform st cwd p start Hp. assert (E : dget (lit platform) PLATFORMS = Some st) by (repeat destruct Hp as [Hp|Hp]; try contradiction; injection Hp as <- <-; reflexivity).
  unfold full_file_expand, unify_env_vars. rewrite E. destruct start as [[|c d]|].
  - split; [reflexivity|]. split; [congruence|]. intros d [(Q & Hd & _)|(_ & Q)]; [congruence|]. rewrite Q. eauto.
  - destruct (ex (c :: d)) eqn:Ed.
    + split; [reflexivity|]. split; [discriminate|]. intros d' [(Q & _)|([Q|Q] & _)]; [|discriminate|discriminate]. injection Q as <-. eauto.
    + split; [reflexivity|]. split; [reflexivity|]. intros d' [(Q & _ & Q')|([Q|Q] & _)]; [|discriminate|discriminate]. injection Q as <-. congruence.
  - split; [reflexivity|]. split; [exact I|]. intros d [(Q & _)|(_ & Q)]; [discriminate|]. rewrite Q. eauto.
Qed.
Print Assumptions C60_directory.

(** ** Examples *)

Definition shot : list piece := [Text (lit "/jobs/"); Var Dollar (lit "SHOW"); Text (lit "/"); Var Percent (lit "SHOT"); Var Dollar (lit "EXT"); Text (lit ".nxt")].
Local Ltac letters := repeat (constructor; [unfold letter; cbn; lia|]); constructor.
Example C60_shot : Forall named shot /\ Forall (unmarked Dollar) shot /\ Forall (unmarked Percent) shot /\ spaced shot /\ no_prefix Dollar shot /\
  unify_env_vars (writes shot) (lit "linux") = Ok (lit "/jobs/$SHOW/$SHOT$EXT.nxt") /\ unify_env_vars (writes shot) (lit "win32") = Ok (lit "/jobs/%SHOW%/%SHOT%%EXT%.nxt").
Proof.
  split; [repeat (constructor; [first [exact I|split; [discriminate|letters]]|]); constructor|]. split; [repeat (constructor; [first [exact I|vm_compute; intuition discriminate]|]); constructor|].
  split; [repeat (constructor; [first [exact I|vm_compute; intuition discriminate]|]); constructor|].
  split; [cbn; repeat split; try discriminate; intros c r Q; injection Q as <- _; unfold letter; lia|]. split; [|split; vm_compute; reflexivity].
  intros v w r Hv Hw E. cbn in Hv, Hw. repeat destruct Hv as [Hv|Hv]; try discriminate; try contradiction; injection Hv as <-; repeat destruct Hw as [Hw|Hw]; try discriminate; try contradiction; injection Hw as <-; try (vm_compute in E; discriminate);
  vm_compute in E; injection E as E; now symmetry.
Qed.

(** ** Where it goes wrong *)

(** A name that begins another one is put into it. *)
Theorem C60_prefix_refuted : unify_env_vars (lit "$A/$AB") (lit "win32") = Ok (lit "%A%/%A%B").
Proof. vm_compute. reflexivity. Qed.
Print Assumptions C60_prefix_refuted.
(** A dollar without a name becomes two percent signs; names in braces and
    names with digits are not understood. *)
Theorem C60_braces_refuted : unify_env_vars (lit "${A}/x") (lit "win32") = Ok (lit "%%{A}/x") /\ unify_env_vars (lit "$A1/x") (lit "win32") = Ok (lit "%A%1/x") /\ unify_env_vars (lit "%A1%/x") (lit "linux") = Ok (lit "%A1%/x").
Proof. split; [|split]; vm_compute; reflexivity. Qed.
Print Assumptions C60_braces_refuted.
(** Text after a variable becomes part of its name. *)
Theorem C60_text_refuted : unify_env_vars (lit "%A%B") (lit "linux") = Ok (lit "$AB") /\ unify_env_vars (lit "%A%/%C%A%A%") (lit "linux") = Ok (lit "$A/%C$AA%").
Proof. split; vm_compute; reflexivity. Qed.
Print Assumptions C60_text_refuted.
(** On a platform that is not in the map the call raises an exception and
    leaves the process in the start directory. *)
Theorem C60_directory_refuted : exists ex ev eu rp sep p start, full_file_expand ex ev eu rp sep (lit "cygwin") (lit "/home") p (Some start) = (start, Raise KeyError) /\ start <> lit "/home".
Proof. exists (fun _ => true), (fun s => s), (fun s => s), (fun _ s => s), (lit "/"), (lit "x"), (lit "/tmp"). split; [vm_compute; reflexivity|vm_compute; discriminate]. Qed.
Print Assumptions C60_directory_refuted.
