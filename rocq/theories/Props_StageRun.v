(** C70: executing a graph from a start point. *)

From Coq Require Import String List NArith ZArith Bool Arith Lia.
From Verif Require Import PyStr PyStrFacts Dict DictFacts NxtPath PathSpec PyVal NodeIO Runtime RuntimeSpec RuntimeProofs.
From Verif Require Layer LayerSpec ExecOrderProofs ChildCacheProofs PathProofs.
From Verif Require Import StageRun StageRunSpec StageRunProofs.
Import ListNotations.

Section Props.
(** Any composed layer, any meaning of code lines, any evaluation of attributes. *)
Variables (same same_name : pystr -> pystr -> bool) (bound : nat) (L : Layer.layer)
          (node_of : pystr -> option (nat * list nat))
          (lines_of : list (dict pyval) -> pystr -> res (list pystr)) (meaning : list pystr -> option prog)
          (real : list (dict pyval) -> dict gval -> pystr -> pystr -> pyval -> res pyval)
          (deepcopy : pyval -> res (option pyval)) (str_of : pyval -> pystr) (builtins : list pystr).
Let execute := StageRun.execute same same_name bound L node_of lines_of meaning real deepcopy str_of builtins.
Let order_of p := fst (Layer.get_exec_order same same_name bound L p).
(** The layer's nodes but the world, as it lists them. *)
Let nodes_listed := filter (fun k => negb (str_eqb k (lit "/"))) (dkeys (Layer.nodes L)).
Let exists_node p := node_of p <> None.
Let switched_on := filter (fun p => negb (LayerSpec.off (Layer.nodes L) p)).
Let begins := begins node_of nodes_listed.

Lemma on_enabled ps : switched_on ps = filter (StageRun.enabled L) ps.
Proof.
  apply filter_ext. intros p. unfold LayerSpec.off, StageRun.enabled.
  destruct (dget p (Layer.nodes L)) as [n|]; [|reflexivity]. now destruct (Layer.n_enabled n) as [[]|].
Qed.

(** An execution that ends normally first set its parameters, then ran the
    world's code once, and then exactly the enabled nodes of the execution order
    from the start, in order; whatever code executed itself is nested inside. *)
Theorem C70_runs :
  forall fuel s params o st' w, node_of (lit "/") = Some w ->
  execute fuel s params o = (st', Normal) ->
  exists p ps, begins o s p /\ order_of p = Layer.AList ps /\ Forall exists_node ps /\
  exists set inner ran rest, assignments set /\ session inner ran /\ session rest (switched_on ps) /\
    log st' = set ++ Enter (lit "/") :: inner ++ Leave (lit "/") :: rest.
Proof.
  intros fuel s params o st' (c, m) Hw H. unfold execute, StageRun.execute in H.
  destruct (StageRun.start_path same same_name bound L node_of s o) as [p|e] eqn:Es; [|discriminate].
  apply start_begins in Es. unfold StageRun.order_from in H. exists p.
  unfold order_of. destruct (fst (Layer.get_exec_order same same_name bound L p)) as [ps| | |]; try discriminate.
  exists ps. split; [exact Es|]. split; [reflexivity|].
  destruct (setup same same_name bound L node_of lines_of meaning real deepcopy str_of builtins fuel o params) as (st, e) eqn:Eu.
  destruct e; try discriminate.
  destruct (setup_spec _ _ _ _ _ _ _ _ _ _ _ _ _ _ _ _ _ _ Hw Eu) as ((set & A & inner & ran & Si & El) & _ & _); [discriminate|].
  unfold StageRun.execute_nodes in H.
  destruct (execute_spec _ _ _ _ _ _ _ _ _ _ _ _ _ _ _ H) as (evs & ran' & M & -> & Hex); [discriminate|].
  split; [exact Hex|]. exists set, inner, ran, evs. split; [exact A|]. split; [exact Si|]. split; [rewrite on_enabled; apply M|].
  rewrite (m_log _ _ _ _ _ _ M), El, <- app_assoc. cbn [app]. now rewrite <- app_assoc.
Qed.

(** The order of a well formed layer holds no disabled node, so that all of it
    runs; C20 says what it is. *)
Theorem C70_whole_order :
  forall fuel depth n0 rest rs params o st' w, node_of (lit "/") = Some w ->
  LayerSpec.wf_nodes (Layer.nodes L) -> LayerSpec.all_ready same L ->
  Forall component (n0 :: rest) -> LayerSpec.linked (Layer.nodes L) [] (n0 :: rest) ->
  LayerSpec.exec_chain (Layer.nodes L) (abs_path [n0]) rs ->
  LayerSpec.shallower (Layer.nodes L) depth -> depth <= bound -> length (Layer.nodes L) < bound ->
  execute fuel (From (abs_path (n0 :: rest))) params o = (st', Normal) ->
  exists ps, order_of (abs_path (n0 :: rest)) = Layer.AList ps /\
  exists set inner ran after, assignments set /\ session inner ran /\ session after ps /\
    log st' = set ++ Enter (lit "/") :: inner ++ Leave (lit "/") :: after.
Proof.
  intros fuel depth n0 rest rs params o st' w Hw Hwf Hr Hc Hl Hch Hs Hd Hb H.
  destruct (C70_runs _ _ _ _ _ _ Hw H) as (p & ps & (-> & _) & Eo & _ & set & inner & ran & after & A & Si & Sa & El).
  exists ps. split; [exact Eo|]. exists set, inner, ran, after. split; [exact A|]. split; [exact Si|]. split; [|exact El].
  replace ps with (switched_on ps); [exact Sa|].
  assert (forall x, In x ps -> LayerSpec.off (Layer.nodes L) x = false) as Hon.
  { intros x Hx. assert (In x (Layer.as_list (order_of (abs_path (n0 :: rest))))) as Hi by (rewrite Eo; exact Hx).
    destruct (ExecOrderProofs.order_member same same_name bound depth L (Layer.nodes L) n0 rest rs Hwf eq_refl Hr Hc Hl Hch Hs Hd Hb x Hi)
      as (top & r & -> & _ & _ & _ & Hoff & Hend).
    destruct r as [|y r].
    - destruct Hend as [(_ & _ & F)|F]; [congruence|exact F].
    - apply (Hoff (y :: r) []); [discriminate|now rewrite app_nil_r]. }
  unfold switched_on. clear -Hon. induction ps as [|x ps IH]; [reflexivity|]. cbn [filter]. rewrite Hon by now left. cbn.
  f_equal. apply IH. intros y Hy. apply Hon. now right.
Qed.

(** When it raises, it did so before anything was set or run, because there is no
    place to begin or a node has no start flag; or over a bad parameter or code of
    the world that does not resolve or compile; or in the world's code; or,
    after the world's code, where executing the order stops (C36): there
    ExitNode is never raised. *)
Theorem C70_stops :
  forall fuel s params o st' w r, node_of (lit "/") = Some w ->
  execute fuel s params o = (st', Exc r) ->
  (log st' = [] /\ own st' = o /\
     ((r = Failure ValueError /\ forall p, ~ begins o s p) \/
      (r = Failure AttributeError /\ exists p, In p nodes_listed /\ forall b, ~ start_flag node_of o p b))) \/
  exists p ps set, begins o s p /\ order_of p = Layer.AList ps /\ assignments set /\
  ((log st' = set /\
     ((r = Failure TypeError /\ exists key v, In (key, v) params /\ no_attribute node_of key) \/
      (exists x o', r = Failure x /\ lines_of o' (lit "/") = Raise x) \/
      (r = GraphError /\ exists o' lines, lines_of o' (lit "/") = Ok lines /\ meaning lines = None))) \/
   exists inner ran, session inner ran /\
   (log st' = set ++ Enter (lit "/") :: inner \/
    exists after ran', log st' = set ++ Enter (lit "/") :: inner ++ Leave (lit "/") :: after /\ session after ran' /\ r <> ExitNode /\
    exists before q rest, ps = before ++ q :: rest /\ Forall exists_node before /\
     ((r = InvalidNode q /\ ~ exists_node q /\ ran' = switched_on before) \/
      (exists_node q /\ LayerSpec.off (Layer.nodes L) q = false /\ ran' = switched_on before ++ [q])))).
Proof.
  intros fuel s params o st' (c, m) r Hw H. unfold execute, StageRun.execute in H.
  destruct (StageRun.start_path same same_name bound L node_of s o) as [p|e] eqn:Es.
  2:{ left. injection H as <- <-. split; [reflexivity|]. split; [reflexivity|].
      destruct (start_fails _ _ _ _ _ _ _ _ Es) as (Hn & [->|(-> & Hx)]); [left|right; auto].
      split; [reflexivity|]. intros p. destruct (Hn p) as [F|F]; [exact F|discriminate]. }
  right. apply start_begins in Es. unfold StageRun.order_from in H. exists p.
  unfold order_of. destruct (fst (Layer.get_exec_order same same_name bound L p)) as [ps| | |]; try discriminate.
  exists ps. destruct (setup same same_name bound L node_of lines_of meaning real deepcopy str_of builtins fuel o params) as (st, e) eqn:Eu.
  destruct e as [|r0|]; [| |discriminate].
  - destruct (setup_spec _ _ _ _ _ _ _ _ _ _ _ _ _ _ _ _ _ _ Hw Eu) as ((set & A & inner & ran & Si & El) & _ & _); [discriminate|].
    exists set. split; [exact Es|]. split; [reflexivity|]. split; [exact A|]. right. exists inner, ran. split; [exact Si|]. right.
    unfold StageRun.execute_nodes in H.
    destruct (execute_spec _ _ _ _ _ _ _ _ _ _ _ _ _ _ _ H) as (evs & ran' & M & Hr & Hex); [discriminate|].
    exists evs, ran'. split; [rewrite (m_log _ _ _ _ _ _ M), El, <- app_assoc; cbn [app]; now rewrite <- app_assoc|].
    split; [apply M|]. split; [exact Hr|]. destruct Hex as [(_ & x & _ & F)|(pre & q & post & -> & Hpre & Hq)]; [discriminate|].
    exists pre, q, post. split; [reflexivity|]. split; [exact Hpre|]. rewrite on_enabled.
    destruct Hq as [(-> & Hq & ->)|(Hq & Hen & ->)]; [left|right].
    + split; [reflexivity|]. split; [intros F; now apply F|reflexivity].
    + split; [exact Hq|]. split; [|reflexivity]. unfold StageRun.enabled in Hen. unfold LayerSpec.off.
      destruct (dget q (Layer.nodes L)) as [n|]; [|reflexivity]. now destruct (Layer.n_enabled n) as [[]|].
  - injection H as <- <-.
    destruct (setup_spec _ _ _ _ _ _ _ _ _ _ _ _ _ _ _ _ _ _ Hw Eu) as ((set & A & Hs) & _ & _); [discriminate|].
    exists set. split; [exact Es|]. split; [reflexivity|]. split; [exact A|]. destruct Hs as [(El & Hs)|(inner & ran & Si & El)].
    + left. split; [exact El|]. destruct Hs as [Hs|[(x & -> & o' & Ho)|Hs]]; [now left|right; left; now exists x, o'|right; now right].
    + right. exists inner, ran. split; [exact Si|]. now left.
Qed.

(** Without a place to begin nothing happens. *)
Theorem C70_no_start :
  forall fuel s params o,
  match s with From p => node_of p = None | _ => Forall (fun p => start_flag node_of o p false) nodes_listed end ->
  snd (execute fuel s params o) = Exc (Failure ValueError) /\
  log (fst (execute fuel s params o)) = [] /\ own (fst (execute fuel s params o)) = o.
Proof.
  intros fuel s params o H. unfold execute, StageRun.execute.
  assert (StageRun.start_path same same_name bound L node_of s o = Raise ValueError) as ->; [|auto].
  assert (G : Forall (fun p => start_flag node_of o p false) nodes_listed -> StageRun.start_path same same_name bound L node_of NoStart o = Raise ValueError).
  { clear H. intros H. destruct (StageRun.start_path same same_name bound L node_of NoStart o) as [p|e] eqn:E.
    - apply start_begins in E. destruct E as (a & b & E & Ht & _). fold nodes_listed in E. unfold listed in E. fold nodes_listed in E. rewrite E in H.
      apply Forall_app in H as (_ & H). inversion H as [|? ? H3 _]; subst. pose proof (flag_fun _ _ _ _ _ Ht H3). discriminate.
    - destruct (start_fails _ _ _ _ _ _ _ _ E) as (_ & [->|(_ & p & Hp & F)]); [reflexivity|].
      rewrite Forall_forall in H. destruct (F false). now apply H. }
  destruct s as [|p|v]; [exact (G H)|cbn; now rewrite H|exact (G H)].
Qed.

(** Only the world's node, nodes that ran and nodes named in parameters change. *)
Theorem C70_others_untouched :
  forall fuel s params o st' e c m, node_of (lit "/") = Some (c, m) ->
  execute fuel s params o = (st', e) -> e <> OutOfFuel ->
  forall k, k <> c ->
  (forall p m, node_of p = Some (k, m) -> ~ In (Enter p) (log st') /\ forall a, ~ In (Assign p a) (log st')) ->
  nth k (own st') [] = nth k o [].
Proof.
  intros fuel s params o st' e c m Hw H He k Hk Ht.
  assert (Hn : ~ touches node_of (log st') k).
  { intros (p & m' & Hp & [F|(a & F)]); destruct (Ht p m' Hp) as (A & B); [now apply A|now apply (B a)]. }
  clear Ht. unfold execute, StageRun.execute in H.
  destruct (StageRun.start_path same same_name bound L node_of s o) as [p|x]; [|now injection H as <- <-].
  unfold StageRun.order_from in H. destruct (fst (Layer.get_exec_order same same_name bound L p)) as [ps| | |]; try (now injection H as <- <-).
  destruct (setup same same_name bound L node_of lines_of meaning real deepcopy str_of builtins fuel o params) as (st, e1) eqn:Eu.
  destruct e1 as [|r|].
  - destruct (setup_spec _ _ _ _ _ _ _ _ _ _ _ _ _ _ _ _ _ _ Hw Eu) as (_ & _ & Ho); [discriminate|].
    unfold StageRun.execute_nodes in H.
    destruct (execute_spec _ _ _ _ _ _ _ _ _ _ _ _ _ _ _ H He) as (evs & ran & M & _).
    rewrite (m_log _ _ _ _ _ _ M) in Hn. rewrite touches_app in Hn.
    rewrite (m_own _ _ _ _ _ _ M); [apply Ho; [exact Hk|tauto]|intros []|tauto].
  - injection H as <- <-. destruct (setup_spec _ _ _ _ _ _ _ _ _ _ _ _ _ _ _ _ _ _ Hw Eu) as (_ & _ & Ho); [exact He|]. now apply Ho.
  - injection H as <- <-. congruence.
Qed.

(** Starting at the world runs the world's code and nothing else. *)
Theorem C70_world_only :
  forall fuel params o st' w, node_of (lit "/") = Some w ->
  execute fuel (From (lit "/")) params o = (st', Normal) ->
  exists set inner ran rest, assignments set /\ session inner ran /\ assignments rest /\
    log st' = set ++ Enter (lit "/") :: inner ++ Leave (lit "/") :: rest.
Proof.
  intros fuel params o st' w Hw H.
  destruct (C70_runs _ _ _ _ _ _ Hw H) as (p & ps & (-> & _) & Eo & _ & set & inner & ran & rest & A & Si & Sr & El).
  exists set, inner, ran, rest. split; [exact A|]. split; [exact Si|]. split; [|exact El]. apply session_none.
  unfold order_of, Layer.get_exec_order in Eo. cbn in Eo. injection Eo as <-. exact Sr.
Qed.

(** Executing from a node with parameters is executing from there the graph whose
    nodes hold the values as text: the outcome and all the effects but the log
    are those. *)
Theorem C70_parameters :
  forall fuel p params o ps, (forall q c m, node_of q = Some (c, m) -> c < length o) ->
  exists_node p -> order_of p = Layer.AList ps ->
  Forall (fun kv => ~ no_attribute node_of (fst kv)) params ->
  exists o',
    (forall k a, (forall kv, In kv params -> ~ addresses node_of (fst kv) k a) -> dget a (nth k o' []) = dget a (nth k o [])) /\
    (forall k a p1 key v p2, params = p1 ++ (key, v) :: p2 -> addresses node_of key k a ->
       (forall kv, In kv p2 -> ~ addresses node_of (fst kv) k a) -> dget a (nth k o' []) = Some (VStr (str_of v))) /\
    let '(st1, e1) := execute fuel (From p) params o in
    let '(st2, e2) := execute fuel (From p) [] o' in
    e1 = e2 /\ gl st1 = gl st2 /\ frames st1 = frames st2 /\ own st1 = own st2 /\ cached st1 = cached st2 /\
    times st1 = times st2 /\ running st1 = running st2.
Proof.
  intros fuel p params o ps Hb Hp Ho Hg.
  destruct (set_runtime_parameters node_of str_of params (fresh o)) as (st, x) eqn:E.
  destruct (params_spec node_of str_of params (fresh o) st x Hb E) as (done & rest & Ed & Hd & Hx & _ & _ & _ & _ & _ & K1 & K2).
  assert (x = None /\ rest = []) as (-> & ->).
  { destruct x as [e|]; [|now split]. destruct Hx as (_ & key & v & t & -> & Hn). exfalso.
    apply (proj1 (Forall_forall _ _) Hg (key, v)); [rewrite Ed; apply in_app_iff; right; now left|exact Hn]. }
  rewrite app_nil_r in Ed. subst done. exists (own st). split; [exact K1|]. split; [exact K2|].
  unfold execute, StageRun.execute. cbn [StageRun.start_path]. destruct (node_of p) eqn:En; [|destruct (Hp En)].
  unfold StageRun.order_from. fold (order_of p). rewrite Ho.
  destruct (setup_params same same_name bound L node_of lines_of meaning real deepcopy str_of builtins fuel o params st E) as (A & B).
  destruct (setup _ _ _ _ _ _ _ _ _ _ _ fuel o params) as (s1, e1).
  destruct (setup _ _ _ _ _ _ _ _ _ _ _ fuel (own st) []) as (s2, e2). cbn [fst snd] in A, B. subst e2.
  destruct e1 as [|r|]; [| |].
  - unfold StageRun.execute_nodes.
    match goal with |- let '(_, _) := ?f fuel ps [] s1 in _ =>
      assert (both (f fuel ps [] s1) (f fuel ps [] s2)) as (A' & B') by (apply execute_alike; exact A);
      destruct (f fuel ps [] s1) as (t1, x1), (f fuel ps [] s2) as (t2, x2) end.
    cbn [fst snd] in A', B'. destruct A'. now repeat split.
  - destruct A. now repeat split.
  - destruct A. now repeat split.
Qed.

(** A parameter that names a node and no attribute: nothing runs. *)
Theorem C70_bad_parameter :
  forall fuel p p1 key v p2 o ps, exists_node p -> order_of p = Layer.AList ps ->
  no_attribute node_of key ->
  snd (execute fuel (From p) (p1 ++ (key, v) :: p2) o) = Exc (Failure TypeError) /\
  assignments (log (fst (execute fuel (From p) (p1 ++ (key, v) :: p2) o))).
Proof.
  intros fuel p p1 key v p2 o ps Hp Ho Hn. unfold execute, StageRun.execute. cbn [StageRun.start_path].
  destruct (node_of p) eqn:En; [|destruct (Hp En)]. unfold StageRun.order_from. fold (order_of p). rewrite Ho.
  unfold StageRun.setup.
  enough (forall st, assignments (log st) -> assignments (log (fst (set_runtime_parameters node_of str_of (p1 ++ (key, v) :: p2) st))) /\
    snd (set_runtime_parameters node_of str_of (p1 ++ (key, v) :: p2) st) = Some TypeError) as H.
  { destruct (H (fresh o)) as (A & B); [constructor|]. destruct (set_runtime_parameters _ _ _ _) as (st1, x). cbn in A, B. subst x. now split. }
  clear p o ps Hp Ho En. induction p1 as [|kv p1 IH]; intros st Hs; cbn [app set_runtime_parameters].
  - unfold set_parameter. cbn [fst]. destruct Hn as (s & c & m & -> & E1 & E2).
    assert (path_attr_partition s = (s, None)) as E3
      by (destruct E2 as [E2|(t & ->)]; [now apply PathProofs.path_attr_partition_nodot|apply PathProofs.path_attr_partition_trailing]).
    unfold node_path_from_attr_path, attr_name_from_attr_path. rewrite E3. cbn [fst snd]. rewrite E1. now split.
  - destruct (set_parameter node_of str_of st kv) as [st1|e] eqn:E.
    + apply IH. revert E. unfold set_parameter. destruct (fst kv); try (intros E; injection E as <-; exact Hs).
      destruct (node_of _) as [(c, m)|]; [|intros E; injection E as <-; exact Hs].
      destruct (attr_name_from_attr_path _); [|discriminate]. intros E; injection E as <-. cbn. apply Forall_app. split; [exact Hs|].
      constructor; [|constructor]. eexists. eexists. reflexivity.
    + cbn [fst snd]. split; [exact Hs|]. revert E. unfold set_parameter. destruct (fst kv); try discriminate.
      destruct (node_of _) as [(c, m)|]; [|discriminate]. destruct (attr_name_from_attr_path _); [discriminate|]. now intros E; injection E as <-.
Qed.

(** The world's code, when it executes no node itself: it finds the names below
    and its own node as self, and what it computes decides the globals the nodes
    start with, the attributes of the world's node and the outcome. *)
Theorem C70_world_code :
  forall fuel o c mro lines code g f r,
  node_of (lit "/") = Some (c, c :: mro) -> ~ In c mro -> c < length o ->
  lines_of o (lit "/") = Ok lines -> meaning lines = Some code -> tidy code ->
  world_eval (attr_of o mro) code
    [(lit "STAGE", GOther 0); (lit "__stage__", GOther 1); (lit "nxt_path", GOther 2); (lit "w", GOther 3);
     (lit "types", GOther 4); (lit "self", GOther 0); (lit "execute", GOther 5); (lit "ExitNode", GOther 6);
     (lit "ExitGraph", GOther 7)] (nth c o []) = (g, f, r) ->
  exists st', execute (S fuel) (From (lit "/")) [] o = (st', world_end r) /\
    gl st' = g /\ nth c (own st') [] = f /\ (forall k, k <> c -> nth k (own st') [] = nth k o []) /\ frames st' = [].
Proof.
  intros fuel o c mro lines code g f r Hw Hm Hc El Em Ht He. unfold execute, StageRun.execute. cbn [StageRun.start_path]. rewrite Hw.
  assert (Ew : StageRun.order_from same same_name bound L (lit "/") = Some []) by reflexivity. rewrite Ew. clear Ew.
  unfold setup. cbn [set_runtime_parameters]. change WORLD with (lit "/"). rewrite Hw. cbn zeta.
  change (own (with_gl (fresh o) console_globals)) with o. rewrite El, Em. unfold run_world.
  match goal with |- context [StageRun.world_code _ _ _ _ _ ?call _ _ _ ?s] => set (st := s); set (cl := call) end.
  destruct (world_tidy same same_name bound L node_of cl c mro Hm code Ht st eq_refl Hc) as (g' & f' & r' & E1 & E2).
  change (attr_of (own st) mro) with (attr_of o mro) in E1. change (gl st) with console_globals in E1. change (nth c (own st) []) with (nth c o []) in E1.
  assert (Eq : (g', f', r') = (g, f, r)) by (rewrite <- E1; exact He). injection Eq as -> -> ->. rewrite E2.
  set (st1 := with_own (with_gl st g) (update (own st) c (fun _ => f))).
  assert (O1 : nth c (own st1) [] = f) by (apply nth_update_same; exact Hc).
  assert (O2 : forall k, k <> c -> nth k (own st1) [] = nth k o []).
  { intros k Hk. unfold st1. cbn [with_own own]. rewrite nth_update. destruct (Nat.eqb_spec k c); [contradiction|reflexivity]. }
  destruct r as [[]|]; eexists; (split; [reflexivity|]); (split; [reflexivity|]); (split; [exact O1|]); (split; [exact O2|]); reflexivity.
Qed.

(** The names the world's code leaves among the globals, and their values, are
    there for the nodes: a name that no node run after it binds or deletes still
    has, when the execution ends in whatever way, the value it has when only the
    world's code is run. *)
Theorem C70_world_names :
  forall fuel s params o st0 st' e w, node_of (lit "/") = Some w ->
  execute fuel (From (lit "/")) params o = (st0, Normal) ->
  execute fuel s params o = (st', e) -> e <> OutOfFuel -> log st' <> [] ->
  exists evs, log st' = log st0 ++ evs /\
  forall k, k <> lit "self" ->
    (forall p o' lines code, In (Enter p) evs -> lines_of o' p = Ok lines -> meaning lines = Some code -> spares k code) ->
  dget k (gl st') = dget k (gl st0).
Proof.
  intros fuel s params o st0 st' e (c, m) Hw H0 H He Hlog. unfold execute, StageRun.execute in H0, H.
  cbn [StageRun.start_path] in H0. rewrite Hw in H0. cbn [StageRun.order_from Layer.get_exec_order fst] in H0.
  assert (Ew : StageRun.order_from same same_name bound L (lit "/") = Some []) by reflexivity. rewrite Ew in H0. clear Ew.
  destruct (StageRun.start_path same same_name bound L node_of s o) as [p|x]; [|injection H as <- <-; now destruct Hlog].
  destruct (StageRun.order_from same same_name bound L p) as [ps|]; [|injection H as <- <-; now destruct Hlog].
  destruct (setup same same_name bound L node_of lines_of meaning real deepcopy str_of builtins fuel o params) as (st, e1) eqn:Eu.
  destruct e1 as [|r|]; [|discriminate|discriminate].
  assert (st0 = st) as -> by (destruct fuel; cbn in H0; congruence).
  destruct (setup_spec _ _ _ _ _ _ _ _ _ _ _ _ _ _ _ _ _ _ Hw Eu) as (_ & Hn & _); [discriminate|]. specialize (Hn eq_refl).
  unfold StageRun.execute_nodes in H.
  destruct (execute_spec _ _ _ _ _ _ _ _ _ _ _ _ _ _ _ H He) as (evs & ran & M & _).
  exists evs. split; [apply M|]. intros k Hk Hs.
  destruct (execute_keeps node_of (StageRun.enabled L) (StageRun.exec_order same same_name bound L) lines_of meaning real deepcopy str_of builtins k Hk fuel ps [] st)
    as (evs' & El & _ & Hg).
  rewrite H in El, Hg. cbn [fst] in El, Hg. rewrite (m_log _ _ _ _ _ _ M) in El. apply app_inv_head in El. subst evs'.
  apply Hg; [exact I| |exact Hn]. intros q Hq o' lines code E1 E2. exact (Hs q o' lines code Hq E1 E2).
Qed.
End Props.
Print Assumptions C70_runs.
Print Assumptions C70_whole_order.
Print Assumptions C70_stops.
Print Assumptions C70_no_start.
Print Assumptions C70_others_untouched.
Print Assumptions C70_world_only.
Print Assumptions C70_parameters.
Print Assumptions C70_bad_parameter.
Print Assumptions C70_world_code.
Print Assumptions C70_world_names.

(** ** A small graph *)

(** The world, /a with /a/b and a disabled /a/c, and /d, which executes after
    /a; /a/b and /d are start points. *)
Definition nd (parent name : string) (order : list string) (en : option bool) (ex : option string) : Layer.cnode :=
  {| Layer.n_name := lit name; Layer.n_parent := lit parent; Layer.n_order := map lit order;
     Layer.n_enabled := en; Layer.n_exec_in := option_map lit ex |}.
Definition g_nodes (world_on : option bool) : dict Layer.cnode :=
  [ (lit "/", nd "" "/" [] world_on None);
    (lit "/a", nd "/" "a" ["b"; "c"]%string None None);
    (lit "/a/b", nd "/a" "b" [] None None);
    (lit "/a/c", nd "/a" "c" [] (Some false) None);
    (lit "/d", nd "/" "d" [] (Some true) (Some "/a"%string)) ].
Definition g_layer (world_on : option bool) : Layer.layer :=
  {| Layer.nodes := g_nodes world_on; Layer.kids := []; Layer.implied := [] |}.
Definition g_node (p : pystr) : option (nat * list nat) :=
  if str_eqb p (lit "/") then Some (0, [0])
  else if str_eqb p (lit "/a") then Some (1, [1])
  else if str_eqb p (lit "/a/b") then Some (2, [2])
  else if str_eqb p (lit "/a/c") then Some (3, [3])
  else if str_eqb p (lit "/d") then Some (4, [4])
  else None.
Definition flag (b : bool) : dict pyval := [(lit "_start_point", VBool b)].
Definition g_own : list (dict pyval) :=
  [(lit "x", VInt 1) :: flag false; (lit "y", VInt 2) :: flag false; flag true; flag false; flag true].
Definition by_value := fun _ _ : pystr => true.
(** The world runs [w], /d runs [d], the others do nothing. *)
Definition g_run (world_on : option bool) (w d : prog) (s : start) (params : list (pyval * pyval)) (o : list (dict pyval)) :=
  StageRun.execute by_value by_value 9 (g_layer world_on) g_node (fun _ p => Ok [p])
    (fun lines => match lines with
                  | [p] => Some (if str_eqb p (lit "/") then w else if str_eqb p (lit "/d") then d else Stop None)
                  | _ => None end)
    (fun _ _ _ _ v => Ok v) (fun v => Ok (Some v)) (fun v => match v with VInt 7%Z => lit "7" | _ => lit "?" end) [] 5 s params o.
Definition skip := Stop None.
Definition entered (st : rt) : list pystr :=
  flat_map (fun e => match e with Enter p => [p] | _ => [] end) (log st).

(** Starting at /a: the parameter, the world, /a, /a/b and then /d, which sees
    the name the world's code made of the parameter. *)
Example C70_sample :
  let w := GetAttr (lit "x") (fun v => match v with
             | Some v => SetGlobal (lit "n") (GVal v) (SetAttr (lit "z") v skip)
             | None => Stop (Some ExitGraph) end) in
  let d := GetGlobal (lit "n") (fun v => match v with
             | Some (GVal v) => SetAttr (lit "_start_point") v skip | _ => Stop (Some ExitGraph) end) in
  let r := g_run None w d (From (lit "/a")) [(VStr (lit "/.x"), VInt 7)] g_own in
  snd r = Normal /\
  log (fst r) = [Assign (lit "/") (lit "x"); Enter (lit "/"); Leave (lit "/"); Enter (lit "/a"); Leave (lit "/a");
                 Enter (lit "/a/b"); Leave (lit "/a/b"); Enter (lit "/d"); Leave (lit "/d")] /\
  dget (lit "n") (gl (fst r)) = Some (GVal (VStr (lit "7"))) /\
  nth 0 (own (fst r)) [] = [(lit "x", VStr (lit "7")); (lit "_start_point", VBool false); (lit "z", VStr (lit "7"))].
Proof. vm_compute. repeat split. Qed.
(** Its parameter is one C70_parameters is about; one C70_bad_parameter is about. *)
Example C70_parameters_sample :
  (forall q c m, g_node q = Some (c, m) -> c < length g_own) /\
  addresses g_node (VStr (lit "/.x")) 0 (lit "x") /\ ~ no_attribute g_node (VStr (lit "/.x")) /\
  no_attribute g_node (VStr (lit "/a")) /\
  log (fst (g_run None skip skip (From (lit "/a")) [(VStr (lit "/.x"), VInt 7); (VStr (lit "/a"), VInt 7)] g_own)) = [Assign (lit "/") (lit "x")].
Proof.
  split; [|split; [|split; [|split]]].
  - intros q c m H. unfold g_node in H. repeat (destruct (str_eqb q _); [injection H as <- _; cbn; lia|]). discriminate.
  - exists (lit "/"), [0]. repeat split; [discriminate|]. cbn. intuition discriminate.
  - intros (s & c & m & E & H & _). injection E as <-. discriminate H.
  - exists (lit "/a"), 1, [1]. repeat split. left. cbn. intuition discriminate.
  - reflexivity.
Qed.
(** Without a start: the first start point is /a/b. *)
Example C70_default_sample :
  begins g_node [lit "/a"; lit "/a/b"; lit "/a/c"; lit "/d"] g_own NoStart (lit "/a/b") /\
  snd (g_run None skip skip NoStart [] g_own) = Normal /\
  entered (fst (g_run None skip skip NoStart [] g_own)) = [lit "/"; lit "/a/b"; lit "/d"].
Proof.
  split; [|vm_compute; repeat split]. exists [lit "/a"], [lit "/a/c"; lit "/d"]. split; [reflexivity|]. split.
  - exists 2, [2], (VBool true). repeat split.
  - repeat constructor. exists 1, [1], (VBool false). repeat split.
Qed.
Example C70_no_start_sample :
  let o := [flag false; flag false; flag false; flag false; flag false] in
  Forall (fun p => start_flag g_node o p false) [lit "/a"; lit "/a/b"; lit "/a/c"; lit "/d"] /\
  snd (g_run None skip skip NoStart [] o) = Exc (Failure ValueError).
Proof.
  split; [|reflexivity]. repeat constructor; eexists _, _, (VBool false); (split; [reflexivity|split; reflexivity]).
Qed.
(** The layer meets the conditions of C70_whole_order. *)
Example C70_whole_order_sample :
  let d := g_nodes None in
  LayerSpec.wf_nodes d /\ LayerSpec.all_ready by_value (g_layer None) /\ LayerSpec.linked d [] [lit "a"] /\
  LayerSpec.exec_chain d (lit "/a") [lit "/d"].
Proof.
  intros d. split; [|split; [|split]].
  - split; [repeat constructor; cbn; intuition discriminate|]. intros k n H. cbn [g_nodes In d] in H.
    assert (HW : forall l nm, Forall component l -> component nm -> component nm) by auto.
    repeat (destruct H as [H|H]; [injection H as <- <-|]); [..|destruct H].
    + left. repeat split.
    + right. exists [], (lit "a"). repeat split; repeat constructor; cbn; intuition discriminate.
    + right. exists [lit "a"], (lit "b"). repeat split; repeat constructor; cbn; intuition discriminate.
    + right. exists [lit "a"], (lit "c"). repeat split; repeat constructor; cbn; intuition discriminate.
    + right. exists [], (lit "d"). repeat split; repeat constructor; cbn; intuition discriminate.
  - exact (ChildCacheProofs.cold_ready (g_layer None)).
  - intros r1 r2 E Hn. destruct r1 as [|x [|y r1]]; [congruence| |discriminate]. injection E as <- _. right. now left.
  - apply (LayerSpec.chain_next d (lit "/a") (firstn 4 d) (lit "/d") (nd "/" "d" [] (Some true) (Some "/a"%string)) []); try reflexivity.
    + intros k n H _. cbn in H. repeat (destruct H as [H|H]; [injection H as <- <-; discriminate|]). destruct H.
    + apply LayerSpec.chain_end. intros k n H _. cbn [d g_nodes In] in H.
      repeat (destruct H as [H|H]; [injection H as <- <-; vm_compute; discriminate|]). destruct H.
Qed.
Example C70_world_code_sample :
  let w := GetAttr (lit "x") (fun v => match v with
             | Some v => SetGlobal (lit "n") (GVal v) (DelAttr (lit "x") (Stop (Some ExitGraph))) | None => skip end) in
  let r := g_run None w skip (From (lit "/")) [] g_own in
  tidy w /\ snd r = Exc ExitGraph /\ dget (lit "n") (gl (fst r)) = Some (GVal (VInt 1)) /\ nth 0 (own (fst r)) [] = flag false.
Proof.
  split; [|vm_compute; repeat split]. constructor. intros [v|]; repeat constructor. discriminate.
Qed.
Example C70_world_names_sample :
  let w := SetGlobal (lit "n") (GVal VNone) skip in
  let d := SetGlobal (lit "other") (GVal VNone) (Stop (Some ExitGraph)) in
  snd (g_run None w d (From (lit "/")) [] g_own) = Normal /\
  snd (g_run None w d (From (lit "/a")) [] g_own) = Exc ExitGraph /\ spares (lit "n") d /\
  dget (lit "n") (gl (fst (g_run None w d (From (lit "/a")) [] g_own))) = Some (GVal VNone).
Proof. split; [reflexivity|]. split; [reflexivity|]. split; [repeat constructor; discriminate|reflexivity]. Qed.

(** ** What a user may expect but does not hold *)

(** The documented start point index is not used: any index begins at the first
    start point, also one that is out of range. *)
Theorem C70_index_refuted :
  forall i fuel params o, 
  let run s := StageRun.execute by_value by_value 9 (g_layer None) g_node (fun _ p => Ok [p]) (fun _ => Some skip)
                 (fun _ _ _ _ v => Ok v) (fun v => Ok (Some v)) (fun _ => []) [] fuel s params o in
  run (Other (VInt i)) = run NoStart.
Proof. reflexivity. Qed.
Print Assumptions C70_index_refuted.
Theorem C70_index_out_of_range_refuted :
  entered (fst (g_run None skip skip (Other (VInt 1)) [] g_own)) = [lit "/"; lit "/a/b"; lit "/d"] /\
  entered (fst (g_run None skip skip (From (lit "/d")) [] g_own)) = [lit "/"; lit "/d"] /\
  snd (g_run None skip skip (Other (VInt 5)) [] g_own) = Normal.
Proof. vm_compute. repeat split. Qed.
Print Assumptions C70_index_out_of_range_refuted.

(** Leaving the world's node early leaves the graph: the exception reaches the
    caller and no node runs. *)
Theorem C70_exit_node_refuted :
  let r := g_run None (Stop (Some ExitNode)) skip (From (lit "/a")) [] g_own in
  snd r = Exc ExitNode /\ entered (fst r) = [lit "/"].
Proof. vm_compute. repeat split. Qed.
Print Assumptions C70_exit_node_refuted.

(** A disabled world node runs all the same. *)
Theorem C70_disabled_world_refuted :
  LayerSpec.off (g_nodes (Some false)) (lit "/") = true /\
  entered (fst (g_run (Some false) skip skip (From (lit "/d")) [] g_own)) = [lit "/"; lit "/d"].
Proof. vm_compute. repeat split. Qed.
Print Assumptions C70_disabled_world_refuted.

(** A start that is itself disabled: nothing under it and nothing it leads to
    but the roots after it is run, and that without an error. *)
Theorem C70_disabled_start_refuted :
  let r := g_run None skip skip (From (lit "/a/c")) [] g_own in
  snd r = Normal /\ entered (fst r) = [lit "/"; lit "/d"].
Proof. vm_compute. repeat split. Qed.
Print Assumptions C70_disabled_start_refuted.
