(** C36, C37, C38: executing nodes, the shared globals, parameters. *)

From Coq Require Import String List NArith ZArith Bool Arith Lia.
From Verif Require Import PyStr PyStrFacts Dict DictFacts NxtPath PathSpec PyVal NodeIO Runtime RuntimeSpec RuntimeProofs.
From Verif Require AttrNamesSpec AttrNamesProofs.
Import ListNotations.

Section Props.
(** Any composed layer, any meaning of code lines, any evaluation of attributes. *)
Variables (node_of : pystr -> option (nat * list nat)) (enabled : pystr -> bool) (exec_order : pystr -> list pystr)
          (lines_of : list (dict pyval) -> pystr -> res (list pystr)) (meaning : list pystr -> option prog)
          (real : list (dict pyval) -> dict gval -> pystr -> pystr -> pyval -> res pyval)
          (deepcopy : pyval -> res (option pyval)) (str_of : pyval -> pystr) (builtins : list pystr).
Let execute := execute_nodes node_of enabled exec_order lines_of meaning real deepcopy str_of builtins.
Let exists_node p := node_of p <> None.

(** ** C36 *)

(** Executing a list of nodes that ends normally ran exactly its enabled nodes,
    in order, each completely before the next, with whatever their code executed
    nested inside; every node of the list exists. *)
Theorem C36_runs_enabled_in_order :
  forall fuel ps params st st', execute fuel ps params st = (st', Normal) ->
  Forall exists_node ps /\ exists evs, log st' = log st ++ evs /\ session evs (filter enabled ps).
Proof.
  intros fuel ps params st st' H. destruct (execute_spec _ _ _ _ _ _ _ _ _ _ _ _ _ _ _ H) as (evs & ran & M & -> & Hex); [discriminate|].
  split; [exact Hex|]. exists evs. split; apply M.
Qed.

(** When it raises, either a parameter was bad and nothing ran, or it stopped at
    some node: one that does not exist, or one whose run raised; the enabled
    nodes before it ran, those after it did not.  ExitNode is never raised. *)
Theorem C36_stops_at_failure :
  forall fuel ps params st st' r, execute fuel ps params st = (st', Exc r) ->
  r <> ExitNode /\ exists evs ran, log st' = log st ++ evs /\ session evs ran /\
  ((ran = [] /\ r = Failure TypeError /\ exists key v, In (key, v) params /\ no_attribute node_of key) \/
   exists before p after, ps = before ++ p :: after /\ Forall exists_node before /\
     ((r = InvalidNode p /\ ~ exists_node p /\ ran = filter enabled before) \/
      (exists_node p /\ enabled p = true /\ ran = filter enabled before ++ [p]))).
Proof.
  intros fuel ps params st st' r H. destruct (execute_spec _ _ _ _ _ _ _ _ _ _ _ _ _ _ _ H) as (evs & ran & M & Hr & Hex); [discriminate|].
  split; [exact Hr|]. exists evs, ran. split; [apply M|]. split; [apply M|]. destruct Hex as [(-> & x & -> & Hx)|(pre & p & post & -> & Hpre & Hp)].
  - left. split; [reflexivity|]. destruct (set_runtime_parameters node_of str_of params st) as (st1, x1) eqn:E. cbn in Hx. subst x1.
    destruct (param_failure _ _ _ _ _ _ E) as (-> & Hk). split; [reflexivity|exact Hk].
  - right. exists pre, p, post. split; [reflexivity|]. split; [exact Hpre|]. destruct Hp as [(-> & Hp & ->)|Hp]; [left|right; exact Hp].
    split; [reflexivity|]. split; [|reflexivity]. intros F. now apply F.
Qed.

(** Executing a list is executing its parts one after the other on the runtime
    layer the first returns: execution can be continued. *)
Theorem C36_continue :
  forall fuel params a b st,
  execute fuel (a ++ b) params st =
  match execute fuel a params st with (st', Normal) => execute fuel b [] st' | r => r end.
Proof. intros. apply execute_app. Qed.

(** The bound on the nesting of executions is no part of the result. *)
Theorem C36_depth_irrelevant :
  forall fuel fuel' ps params st, fuel <= fuel' -> snd (execute fuel ps params st) <> OutOfFuel ->
  execute fuel' ps params st = execute fuel ps params st.
Proof. intros. now apply execute_more. Qed.

(** Nothing but running a node or a parameter changes the attributes of a node. *)
Theorem C36_others_untouched :
  forall fuel ps params st st' e, execute fuel ps params st = (st', e) -> e <> OutOfFuel ->
  exists evs, log st' = log st ++ evs /\
  forall k, (forall p m, node_of p = Some (k, m) -> ~ In (Enter p) evs /\ forall a, ~ In (Assign p a) evs) ->
  nth k (own st') [] = nth k (own st) [].
Proof.
  intros fuel ps params st st' e H He. destruct (execute_spec _ _ _ _ _ _ _ _ _ _ _ _ _ _ _ H He) as (evs & ran & M & _).
  exists evs. split; [apply M|]. intros k Hk. apply M; [intros []|]. intros (p & m & Hn & Ht). destruct (Hk _ _ Hn) as (H1 & H2).
  destruct Ht as [Ht|(a & Ht)]; [contradiction|]. now apply (H2 a).
Qed.

(** The attributes code finds on self: those of the node and of everything it
    inherits from, evaluated and copied, but no internal or meta ones. *)
Theorem C36_frame :
  forall o g p mro f, load_attrs real deepcopy o g p mro (names_of builtins o mro) [] = Ok f ->
  NoDup (dkeys f) /\
  forall a, match dget a f with
            | Some x => AttrNamesSpec.user_attr builtins a /\ exists v r c, attr_of o mro a = Some v /\ real o g p a v = Ok r /\ deepcopy r = Ok c /\
                          x = match c with Some x => x | None => r end
            | None => ~ AttrNamesSpec.user_attr builtins a \/ attr_of o mro a = None
            end.
Proof.
  intros o g p mro f E. pose proof (frame_spec node_of enabled exec_order meaning _ _ _ _ _ _ _ _ E) as (N & G). split; [exact N|]. intros a. specialize (G a).
  assert (U : run_attr builtins a = true <-> AttrNamesSpec.user_attr builtins a).
  { rewrite AttrNamesProofs.user_iff. unfold run_attr. rewrite andb_true_iff, !negb_true_iff. split; intros (A & B); (split; [|exact B]); [intros Q; apply str_in_In in Q; congruence|]. apply not_true_iff_false. intros Q. now apply str_in_In in Q. }
  destruct (dget a f); [rewrite <- U; exact G|]. destruct G as [G|G]; [left|now right]. rewrite <- U. congruence.
Qed.

(** A node whose code executes no other node: what it computes ([eval], from the
    globals with self added and its frame) decides everything.  Globals survive
    that were there before or are declared; changed attributes go to the node
    unless the code failed; the node is no longer running; leaving the node
    counts as a normal end and errors as graph errors. *)
Theorem C36_one_node :
  forall n p c mro st lines code f g f' r,
  node_of p = Some (c, mro) -> enabled p = true ->
  lines_of (own st) p = Ok lines -> meaning lines = Some code -> tidy code ->
  load_attrs real deepcopy (own st) (gl st) p mro (names_of builtins (own st) mro) [] = Ok f ->
  NoDup (dkeys (gl st)) -> all_ended (times st) p -> c < length (own st) ->
  eval code (dset (lit "self") (GFrame (length (frames st))) (gl st)) f = (g, f', r) ->
  r <> Some Interrupt -> (kept r = true -> incl (dkeys f) (dkeys f')) ->
  exists st', execute (S n) [p] [] st = (st', seen r) /\
    (forall k, (In k (dkeys (gl st)) \/ declared lines k) -> dget k (gl st') = dget k g) /\
    (forall k, ~ In k (dkeys (gl st)) -> ~ declared lines k -> dget k (gl st') = None) /\
    frames st' = (frames st ++ [f'])%list /\
    (forall k a, dget a (nth k (own st') []) =
       if Nat.eqb k c && kept r then pushed f f' a (dget a (nth k (own st) [])) else dget a (nth k (own st) [])) /\
    dget p (cached st') = Some (length (frames st)) /\ (forall q, q <> p -> dget q (cached st') = dget q (cached st)) /\
    running st' = false /\ all_ended (times st') p /\ log st' = (log st ++ [Enter p; Leave p])%list.
Proof. apply one_node. Qed.

(** ** C37 *)

(** Executing a node, however its code ends short of an interrupt and whatever it
    executes itself, leaves no new name among the globals except those its lines
    declare. *)
Theorem C37_only_declared_names_stay :
  forall fuel p st st' e, execute (S fuel) [p] [] st = (st', e) ->
  e = Normal \/ e = Exc ExitGraph \/ e = Exc GraphError ->
  NoDup (dkeys (gl st)) ->
  forall k, In k (dkeys (gl st')) ->
  In k (dkeys (gl st)) \/ exists lines, lines_of (own st) p = Ok lines /\ declared lines k.
Proof.
  intros fuel p st st' e H He Hnd k Hk. unfold execute in H. cbn [execute_nodes set_runtime_parameters visit_all] in H.
  match type of H with context [visit _ _ _ _ _ _ _ _ ?c p st] => set (call := c) in H end.
  destruct (visit node_of enabled exec_order lines_of meaning real deepcopy builtins call p st) as (st1, e1) eqn:E.
  assert (st1 = st' /\ e1 = e) as (-> & ->) by (destruct e1; injection H as <- <-; auto).
  eapply visit_globals; eauto. apply execute_call_ok.
Qed.

(** ** C38 *)

(** Parameters that all name an attribute set exactly the named attributes of
    existing nodes, to the value as text, the last one for an attribute winning;
    keys that are no text or name no node are skipped; nothing else changes.
    One that names an existing node but no attribute raises after those before it
    were set. *)
Theorem C38_parameters :
  forall params st st' x, (forall p c m, node_of p = Some (c, m) -> c < length (own st)) ->
  set_runtime_parameters node_of str_of params st = (st', x) ->
  exists done rest, params = (done ++ rest)%list /\ Forall (fun kv => ~ no_attribute node_of (fst kv)) done /\
  match x with
  | None => rest = []
  | Some e => e = TypeError /\ exists key v t, rest = (key, v) :: t /\ no_attribute node_of key
  end /\
  gl st' = gl st /\ frames st' = frames st /\ cached st' = cached st /\ times st' = times st /\ running st' = running st /\
  (forall k a, (forall kv, In kv done -> ~ addresses node_of (fst kv) k a) -> dget a (nth k (own st') []) = dget a (nth k (own st) [])) /\
  (forall k a p1 key v p2, done = (p1 ++ (key, v) :: p2)%list -> addresses node_of key k a ->
     (forall kv, In kv p2 -> ~ addresses node_of (fst kv) k a) -> dget a (nth k (own st') []) = Some (VStr (str_of v))).
Proof. intros. eapply params_spec; eassumption. Qed.

(** Executing with parameters is setting them and executing. *)
Theorem C38_then_executes :
  forall fuel ps params st st', set_runtime_parameters node_of str_of params st = (st', None) ->
  execute (S fuel) ps params st = execute (S fuel) ps [] st'.
Proof. intros fuel ps params st st' H. unfold execute. cbn [execute_nodes]. now rewrite H. Qed.
End Props.
Print Assumptions C36_runs_enabled_in_order.
Print Assumptions C36_stops_at_failure.
Print Assumptions C36_continue.
Print Assumptions C36_depth_irrelevant.
Print Assumptions C36_others_untouched.
Print Assumptions C36_frame.
Print Assumptions C36_one_node.
Print Assumptions C37_only_declared_names_stay.
Print Assumptions C38_parameters.
Print Assumptions C38_then_executes.

(** What the cleaning of globals does to any namespace: exactly the old names
    and the declared ones stay, with their values. *)
Theorem C37_cleaning :
  forall (lines good : list pystr) (g : dict gval), NoDup (dkeys g) ->
  forall k, ((In k good \/ declared lines k) -> dget k (clean_globals lines good g) = dget k g) /\
            (~ In k good -> ~ declared lines k -> dget k (clean_globals lines good g) = None).
Proof. exact clean_globals_get. Qed.
Print Assumptions C37_cleaning.

(** ** A small graph *)

(** Nodes /a, /b, disabled /c and /d, which inherits from /a; lines are mapped
    to programs below. *)
Definition s_node (p : pystr) : option (nat * list nat) :=
  if str_eqb p (lit "/a") then Some (0, [0])
  else if str_eqb p (lit "/b") then Some (1, [1])
  else if str_eqb p (lit "/c") then Some (2, [2])
  else if str_eqb p (lit "/d") then Some (3, [3; 0])
  else None.
Definition s_enabled (p : pystr) : bool := negb (str_eqb p (lit "/c")).
Definition s_lines (o : list (dict pyval)) (p : pystr) : res (list pystr) :=
  match s_node p with
  | Some _ => Ok [lit "code of"; p; if str_eqb p (lit "/b") then lit "global y, z" else []]
  | None => Raise KeyError
  end.
Definition s_run (a b d : prog) ps params st :=
  execute_nodes s_node s_enabled (fun p => [p]) s_lines
    (fun lines => match lines with
                  | _ :: p :: _ => Some (if str_eqb p (lit "/a") then a else if str_eqb p (lit "/b") then b else d)
                  | _ => None end)
    (fun _ _ _ _ v => Ok v) (fun v => Ok (Some v)) (fun v => match v with VInt 7%Z => lit "7" | _ => lit "?" end) [] 5 ps params st.
Definition s_start : rt :=
  {| gl := [(lit "STAGE", GOther 0)]; frames := []; own := [[(lit "x", VInt 1)]; []; []; [(lit "w", VInt 2)]];
     cached := []; times := []; running := false; log := [] |}.
Definition skip := Stop None.
Definition set_x (v : pyval) := SetAttr (lit "x") v (SetGlobal (lit "y") (GVal v) (Stop (Some ExitNode))).

Example C36_sample :
  let r := s_run (set_x (VInt 5)) (SetGlobal (lit "y") (GVal VNone) skip) (set_x (VInt 6))
             [lit "/a"; lit "/c"; lit "/b"; lit "/d"] [] s_start in
  snd r = Normal /\ own (fst r) = [[(lit "x", VInt 5)]; []; []; [(lit "w", VInt 2); (lit "x", VInt 6)]] /\
  gl (fst r) = [(lit "STAGE", GOther 0); (lit "y", GVal (VInt 6))] /\
  log (fst r) = [Enter (lit "/a"); Leave (lit "/a"); Enter (lit "/b"); Leave (lit "/b"); Enter (lit "/d"); Leave (lit "/d")].
Proof. vm_compute. repeat split. Qed.
Example C36_nested_sample :
  let r := s_run (Execute (Paths [lit "/b"]) [] (fun _ => skip)) (Stop (Some ExitGraph)) skip [lit "/a"; lit "/d"] [] s_start in
  snd r = Normal /\ log (fst r) = [Enter (lit "/a"); Enter (lit "/b"); Leave (lit "/b"); Leave (lit "/a"); Enter (lit "/d"); Leave (lit "/d")].
Proof. vm_compute. repeat split. Qed.
Example C36_missing_sample :
  let r := s_run skip skip skip [lit "/a"; lit "/zz"; lit "/b"] [] s_start in
  snd r = Exc (InvalidNode (lit "/zz")) /\ log (fst r) = [Enter (lit "/a"); Leave (lit "/a")].
Proof. vm_compute. repeat split. Qed.
Example C38_sample :
  let r := s_run skip skip skip [] [(VStr (lit "/a.x"), VInt 7); (VStr (lit "/none.x"), VInt 7); (VInt 3, VInt 7); (VStr (lit "/d.new"), VInt 7)] s_start in
  snd r = Normal /\ own (fst r) = [[(lit "x", VStr (lit "7"))]; []; []; [(lit "w", VInt 2); (lit "new", VStr (lit "7"))]].
Proof. vm_compute. repeat split. Qed.
(** The hypotheses of C36_one_node hold of /d. *)
Example C36_one_node_sample :
  tidy (set_x (VInt 6)) /\ NoDup (dkeys (gl s_start)) /\ all_ended (times s_start) (lit "/d") /\
  load_attrs (fun _ _ _ _ v => Ok v) (fun v => Ok (Some v)) (own s_start) (gl s_start) (lit "/d") [3; 0] (names_of [] (own s_start) [3; 0]) []
    = Ok [(lit "w", VInt 2); (lit "x", VInt 1)].
Proof.
  split; [repeat constructor; discriminate|]. split; [repeat constructor; intros []|]. split; [intros l [=]|]. vm_compute. reflexivity.
Qed.

(** ** What a user may expect but does not hold *)

(** Attributes set after executing other nodes are lost: [self] is by then the
    other node's. *)
Theorem C36_self_after_nested_refuted :
  let code := Execute (Paths [lit "/b"]) [] (fun _ => SetAttr (lit "x") (VInt 5) skip) in
  own (fst (s_run code skip skip [lit "/a"] [] s_start)) = own s_start /\
  snd (s_run code skip skip [lit "/a"] [] s_start) = Normal /\
  own (fst (s_run (SetAttr (lit "x") (VInt 5) skip) skip skip [lit "/a"] [] s_start)) <> own s_start.
Proof. vm_compute. repeat split. discriminate. Qed.
Print Assumptions C36_self_after_nested_refuted.

(** An attribute the node did not have before is lost at the end of its code. *)
Theorem C36_new_attribute_refuted :
  own (fst (s_run (SetAttr (lit "fresh") (VInt 5) skip) skip skip [lit "/a"] [] s_start)) = own s_start.
Proof. vm_compute. reflexivity. Qed.
Print Assumptions C36_new_attribute_refuted.

(** A change to a value that compares equal, 1 to True, is lost. *)
Theorem C36_equal_value_refuted :
  own (fst (s_run (SetAttr (lit "x") (VBool true) skip) skip skip [lit "/a"] [] s_start)) = own s_start.
Proof. vm_compute. reflexivity. Qed.
Print Assumptions C36_equal_value_refuted.

(** A node that executes itself once, guarded by a global, fails in measuring
    its run time. *)
Theorem C36_recursion_refuted :
  let code := GetGlobal (lit "again") (fun v => match v with
                | None => SetGlobal (lit "again") (GVal VNone) (Execute (Paths [lit "/a"]) [] Stop)
                | Some _ => skip end) in
  snd (s_run code skip skip [lit "/a"] [] s_start) = Exc GraphError.
Proof. vm_compute. reflexivity. Qed.
Print Assumptions C36_recursion_refuted.

(** An interrupt leaves the layer running and the names of the node in the
    globals. *)
Theorem C36_interrupt_refuted :
  let r := s_run (SetGlobal (lit "tmp") (GVal VNone) (Stop (Some Interrupt))) skip skip [lit "/a"] [] s_start in
  snd r = Exc Interrupt /\ running (fst r) = true /\ dkeys (gl (fst r)) = [lit "STAGE"; lit "self"; lit "tmp"].
Proof. vm_compute. repeat split. Qed.
Print Assumptions C36_interrupt_refuted.

(** Only the first name of a global statement counts as declared. *)
Theorem C37_second_name_refuted :
  let b := SetGlobal (lit "y") (GVal VNone) (SetGlobal (lit "z") (GVal VNone) skip) in
  s_lines [] (lit "/b") = Ok [lit "code of"; lit "/b"; lit "global y, z"] /\
  dkeys (gl (fst (s_run skip b skip [lit "/b"] [] s_start))) = [lit "STAGE"; lit "y"].
Proof. vm_compute. repeat split. Qed.
Print Assumptions C37_second_name_refuted.

(** A name that begins a declared one stays, too. *)
Theorem C37_prefix_refuted :
  dkeys (clean_globals [lit "global total"] [] [(lit "t", VNone); (lit "total", VNone)]) = [lit "t"; lit "total"].
Proof. vm_compute. reflexivity. Qed.
Print Assumptions C37_prefix_refuted.

(** A global another node declares is dropped when it was executed from within a
    node that does not declare it. *)
Theorem C37_nested_declared_refuted :
  let b := SetGlobal (lit "y") (GVal VNone) skip in
  dkeys (gl (fst (s_run skip b skip [lit "/b"] [] s_start))) = [lit "STAGE"; lit "y"] /\
  dkeys (gl (fst (s_run (Execute (Paths [lit "/b"]) [] Stop) b skip [lit "/a"] [] s_start))) = [lit "STAGE"].
Proof. vm_compute. repeat split. Qed.
Print Assumptions C37_nested_declared_refuted.

(** One key without an attribute name stops everything, although keys naming no
    node are skipped. *)
Theorem C38_bad_key_refuted :
  let r := s_run skip skip skip [lit "/b"] [(VStr (lit "/a"), VInt 7)] s_start in
  snd r = Exc (Failure TypeError) /\ log (fst r) = [] /\
  snd (s_run skip skip skip [lit "/b"] [(VStr (lit "/none"), VInt 7)] s_start) = Normal.
Proof. vm_compute. repeat split. Qed.
Print Assumptions C38_bad_key_refuted.
