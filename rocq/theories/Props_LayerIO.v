(** C23: saving and loading a layer. *)

From Coq Require Import String List NArith ZArith Bool Sorted.
From Verif Require Import PyStr PyStrFacts NxtPath PathSpec PathProofs Dict DictFacts PyVal PyValFacts
  NodeIO NodeIOSpec NodeIOProofs LayerIO LayerIOSpec NodeTableProofs LayerIOProofs.
Import ListNotations.

(** Saving a layer and loading what was saved, from a file at [fp] ([rp] once
    expanded): the paths are the same, every node is the one that was saved (up
    to what C22 says a node loses), and its child order is the saved one
    followed by the children it does not name.  The layer's own data comes back
    as well, except that it is neither muted, soloed nor locked. *)
Theorem C23_layer_round_trip :
  forall bi active fp rp L,
  nodes_ok (l_nodes L) ->
  (forall k f, In (k, f) [ (lit "positions", l_positions L); (lit "collapse", l_collapse L);
                           (lit "aliases", l_aliases L); (lit "colors", l_colors L);
                           (lit "locks", l_locks L) ] -> meta_agrees (l_input_meta L) k f) ->
  exists L',
  load_layer bi active (dset (lit "real_path") rp (dset (lit "filepath") fp (get_save_data bi L))) = Ok L' /\
  (forall p, In p (dkeys (l_nodes L')) <-> In p (dkeys (l_nodes L))) /\
  (forall p n ns co, dget p (l_nodes L) = Some n -> Forall component ns -> p = abs_path ns ->
     node_ok n (own_name ns) co ->
     exists n' ks o, dget p (l_nodes L') = Some n' /\ reloaded bi (ns = []) rp p n n' /\
       child_names (dkeys (l_nodes L)) ns ks /\
       first_occ ((match ns with [] => [] | _ => co end) ++ ks) o /\
       node_ok n' (own_name ns) o /\
       dget (lit "_parent_path") n' = Some (VStr (get_parent_path p)) /\
       dget (lit "_source_layer") n' = Some rp /\ dget (lit "_proxy") n' = Some (VBool false)) /\
  (empty_container (l_alias L) = false -> l_alias L' = l_alias L) /\
  (empty_container (l_color L) = false -> l_color L' = l_color L) /\
  l_refs L' = filter (fun r => negb (is_empty r)) (l_refs L) /\
  l_overrides L' = sort_items (l_overrides L) /\
  l_positions L' = sort_items (l_positions L) /\ l_collapse L' = sort_items (l_collapse L) /\
  l_aliases L' = sort_items (l_aliases L) /\ l_colors L' = sort_items (l_colors L) /\
  l_locks L' = sort_items (l_locks L) /\
  (forall k, ~ In k (map lit ["positions"; "collapse"; "aliases"; "colors"; "locks"]%string) ->
     dget k (l_input_meta L') = dget k (l_input_meta L)) /\
  l_mute L' = VBool false /\ l_solo L' = VBool false /\ l_lock L' = VBool false /\
  l_filepath L' = fp /\ l_real_path L' = rp.
Proof. exact layer_round_trip. Qed.
Print Assumptions C23_layer_round_trip.

(** Saving the loaded layer again gives the same data, when the layer was not
    muted or soloed, refers to no empty path and each child order names every
    existing child. *)
Theorem C23_save_again :
  forall bi active fp rp L L',
  nodes_ok (l_nodes L) ->
  (forall k f, In (k, f) [ (lit "positions", l_positions L); (lit "collapse", l_collapse L);
                           (lit "aliases", l_aliases L); (lit "colors", l_colors L);
                           (lit "locks", l_locks L) ] -> meta_agrees (l_input_meta L) k f) ->
  NoDup (dkeys (l_overrides L)) -> NoDup (dkeys (l_input_meta L)) ->
  empty_container (l_alias L) = false -> empty_container (l_color L) = false ->
  l_mute L = VBool false -> l_solo L = VBool false -> ~ In [] (l_refs L) -> complete (l_nodes L) ->
  load_layer bi active (dset (lit "real_path") rp (dset (lit "filepath") fp (get_save_data bi L))) = Ok L' ->
  get_save_data bi L' = get_save_data bi L.
Proof. exact layer_save_again. Qed.
Print Assumptions C23_save_again.

(** Whatever was loaded once is stable: save, load, save gives the same data. *)
Theorem C23_stable_after_one_trip :
  forall bi act1 act2 fp rp fp2 rp2 L L1 L2,
  nodes_ok (l_nodes L) ->
  (forall k f, In (k, f) [ (lit "positions", l_positions L); (lit "collapse", l_collapse L);
                           (lit "aliases", l_aliases L); (lit "colors", l_colors L);
                           (lit "locks", l_locks L) ] -> meta_agrees (l_input_meta L) k f) ->
  NoDup (dkeys (l_overrides L)) -> NoDup (dkeys (l_input_meta L)) ->
  load_layer bi act1 (dset (lit "real_path") rp (dset (lit "filepath") fp (get_save_data bi L))) = Ok L1 ->
  load_layer bi act2 (dset (lit "real_path") rp2 (dset (lit "filepath") fp2 (get_save_data bi L1))) = Ok L2 ->
  get_save_data bi L2 = get_save_data bi L1.
Proof. exact layer_stable_after_one. Qed.
Print Assumptions C23_stable_after_one_trip.

(** Reading the saved data back from JSON gives the saved data of the layer
    whose values went through JSON, so the theorems above hold of files. *)
Theorem C23_through_file :
  forall bi L,
  NoDup (dkeys (l_nodes L)) ->
  (forall p n a, In (p, n) (l_nodes L) ->
     In a (map lit ["_start_point"; "_instance"; "_execute_in"; "_child_order"; "_enabled"; "_comment"; "_code"]%string) ->
     attr n a <> VTuple []) ->
  get_save_data bi (layer_json L) = through_json (get_save_data bi L).
Proof. exact save_json. Qed.
Print Assumptions C23_through_file.

(** The file lists the layer's parts in a fixed order, leaves out empty ones,
    and carries the current version. *)
Theorem C23_saved_data :
  forall bi L,
  get_save_data bi L =
  filter (fun kv => negb match snd kv with
                          | VTuple [] | VList [] | VDict [] => true
                          | _ => false
                          end)
    [ (lit "version", VStr (lit "1.17"));
      (lit "alias", l_alias L); (lit "color", l_color L); (lit "mute", l_mute L); (lit "solo", l_solo L);
      (lit "references", VList (map VStr (l_refs L)));
      (lit "comp_overrides", VDict (sort_items (l_overrides L)));
      (lit "meta_data", VDict (get_meta_data L));
      (lit "nodes", VDict (get_nodes_save_data bi L)) ].
Proof. exact save_form. Qed.
Print Assumptions C23_saved_data.

(** Where a loaded layer's own fields come from: the key of that name, and what
    is taken when it is missing.  Mute and solo always start as false. *)
Theorem C23_loaded_fields :
  forall bi active data L, load_layer bi active data = Ok L ->
  let field k default := match dget (lit k) data with Some v => v | None => default end in
  let table k sub :=
    match field k (VDict []) with
    | VDict m => match dget (lit sub) m with Some (VDict t) => t | _ => [] end
    | _ => []
    end in
  l_color L = field "color"%string VNone /\
  l_lock L = field "lock"%string (VBool false) /\
  l_mute L = VBool false /\ l_solo L = VBool false /\
  l_filepath L = field "filepath"%string VNone /\
  l_real_path L = field "real_path"%string VNone /\
  VDict (l_overrides L) = field "comp_overrides"%string (VDict []) /\
  (exists refs, VList (map VStr refs) = field "references"%string (VList []) /\
     l_refs L = filter (fun r => match r with [] => false | _ => true end) refs) /\
  l_positions L = table "meta_data"%string "positions"%string /\
  l_collapse L = table "meta_data"%string "collapse"%string /\
  l_aliases L = table "meta_data"%string "aliases"%string /\
  l_colors L = table "meta_data"%string "colors"%string /\
  l_locks L = table "meta_data"%string "locks"%string /\
  (forall a, dget (lit "alias") data = Some a -> l_alias L = a).
Proof. exact loaded_fields. Qed.
Print Assumptions C23_loaded_fields.

(** [save] writes that data, or nothing when some value cannot be written; the
    alias of an untitled layer becomes the file's name, also when nothing is
    written. *)
Theorem C23_save_writes :
  forall bi g L,
  let L1 := fst (save_layer bi g L) in
  snd (save_layer bi g L) = (if json_ok (VDict (get_save_data bi L1)) then Some (get_save_data bi L1) else None) /\
  l_alias L1 = (match l_alias L with VStr a => if str_eqb a (lit "untitled") then VStr g else l_alias L | v => v end) /\
  l_nodes L1 = l_nodes L /\ l_refs L1 = l_refs L /\ l_input_meta L1 = l_input_meta L.
Proof. exact save_layer_spec. Qed.
Print Assumptions C23_save_writes.

(** A layer with a world node, a group and two children, one of them missing
    from the child order. *)
Definition lnode (nm : string) (co : list string) : node :=
  [ (lit "x", VInt 3); (lit "_name", VStr (lit nm)); (lit "_child_order", VList (map VStr (map lit co)));
    (lit "_code", VList [VStr (lit "pass")]) ].
Definition ex_layer (mute : bool) : layer :=
  {| l_alias := VStr (lit "top"); l_color := VNone; l_mute := VBool mute; l_solo := VBool false;
     l_lock := VBool false; l_filepath := VNone; l_real_path := VNone; l_refs := [lit "b.nxt"; lit "a.nxt"];
     l_overrides := []; l_positions := [(lit "/g", VList [VInt 1; VInt 2]); (lit "/a", VList [VInt 0; VInt 0])];
     l_collapse := []; l_aliases := []; l_colors := []; l_locks := []; l_input_meta := [];
     l_nodes := [ (lit "/", lnode "/" ["g"]%string); (lit "/g", lnode "g" ["q"]%string);
                  (lit "/g/q", lnode "q" []); (lit "/g/p", lnode "p" []) ] |}.

Lemma str_nodup l : (fix go l := match l with [] => true | x :: r => negb (str_in x r) && go r end) l = true ->
  NoDup (l : list pystr).
Proof.
  induction l as [|x r IH]; intros H; [constructor|]. apply andb_prop in H as [H1 H2].
  constructor; [|now apply IH]. intros Hx. apply str_in_In in Hx. rewrite Hx in H1. discriminate.
Qed.
Lemma comps_ok l : forallb (fun n => negb (is_empty n) && negb (existsb (N.eqb SLASH) n)) l = true ->
  Forall component l.
Proof.
  intros H. apply Forall_forall. intros n Hn. rewrite forallb_forall in H. specialize (H n Hn).
  apply andb_prop in H as [H1 H2]. split; [now intros ->|]. intros Hx.
  apply negb_true_iff in H2. rewrite (proj2 (existsb_exists _ _)) in H2; [discriminate|].
  exists SLASH. split; [exact Hx|reflexivity].
Qed.
Ltac place ns co := exists ns, co; split; [apply comps_ok; vm_compute; reflexivity|];
  split; [vm_compute; reflexivity|]; split; [apply str_nodup; vm_compute; reflexivity|];
  split; vm_compute; reflexivity.

Example C23_ex_hyps : forall mute,
  nodes_ok (l_nodes (ex_layer mute)) /\
  (forall k f, In (k, f) [ (lit "positions", l_positions (ex_layer mute)); (lit "collapse", l_collapse (ex_layer mute));
                           (lit "aliases", l_aliases (ex_layer mute)); (lit "colors", l_colors (ex_layer mute));
                           (lit "locks", l_locks (ex_layer mute)) ] -> meta_agrees (l_input_meta (ex_layer mute)) k f).
Proof.
  intros mute. split.
  - split; [apply str_nodup; vm_compute; reflexivity|]. intros p n H. cbn [ex_layer l_nodes In] in H.
    destruct H as [H|[H|[H|[H|[]]]]]; injection H as <- <-.
    + place (@nil pystr) [lit "g"].
    + place [lit "g"] [lit "q"].
    + place [lit "g"; lit "q"] (@nil pystr).
    + place [lit "g"; lit "p"] (@nil pystr).
  - intros k f H. cbn [In] in H.
    repeat (destruct H as [H|H];
      [injection H as <- <-; split; [apply str_nodup; vm_compute; reflexivity|vm_compute; auto]|]).
    destruct H.
Qed.

Example C23_ex_loaded :
  match load_layer [] true (dset (lit "real_path") (VStr (lit "/d/t.nxt"))
          (dset (lit "filepath") (VStr (lit "t.nxt")) (get_save_data [] (ex_layer false)))) with
  | Ok L' => map fst (l_nodes L') = map lit ["/"; "/g"; "/g/p"; "/g/q"]%string /\
             option_map (dget (lit "_child_order")) (dget (lit "/g") (l_nodes L'))
             = Some (Some (VList [VStr (lit "q"); VStr (lit "p")])) /\
             l_alias L' = VStr (lit "top") /\ l_refs L' = [lit "b.nxt"; lit "a.nxt"]
  | Raise _ => False
  end.
Proof. vm_compute. auto. Qed.

(** A muted layer is saved as muted but loads unmuted, so saving it again
    changes the file. *)
Theorem C23_muted_layer_refuted :
  exists bi active fp rp L L',
    nodes_ok (l_nodes L) /\
    load_layer bi active (dset (lit "real_path") rp (dset (lit "filepath") fp (get_save_data bi L))) = Ok L' /\
    l_mute L = VBool true /\ l_mute L' = VBool false /\
    get_save_data bi L' <> get_save_data bi L.
Proof.
  exists [], true, VNone, VNone, (ex_layer true).
  destruct (load_layer [] true (dset (lit "real_path") VNone (dset (lit "filepath") VNone
     (get_save_data [] (ex_layer true))))) as [L'|] eqn:E; [|vm_compute in E; discriminate].
  exists L'. vm_compute in E. injection E as <-. split; [apply C23_ex_hyps|].
  split; [reflexivity|]. split; [reflexivity|]. split; [reflexivity|]. vm_compute. discriminate.
Qed.
Print Assumptions C23_muted_layer_refuted.
