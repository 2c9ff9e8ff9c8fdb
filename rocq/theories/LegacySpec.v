(** Specification vocabulary for opening files and converting old ones. *)

From Coq Require Import String List NArith ZArith Bool Sorted.
From Verif Require Import PyStr Dict PyVal.
Import ListNotations.

(** Every dict inside has each key once (true of every Python value). *)
Fixpoint proper (v : pyval) : Prop :=
  match v with
  | VList l | VTuple l => (fix all l := match l with [] => True | x :: t => proper x /\ all t end) l
  | VDict d => NoDup (map fst d) /\
               (fix all d := match d with [] => True | (_, x) :: t => proper x /\ all t end) d
  | _ => True
  end.

(** The value with the entries of every dict inside sorted by key. *)
Fixpoint canon (v : pyval) : pyval :=
  match v with
  | VList l => VList (map canon l)
  | VTuple l => VTuple (map canon l)
  | VDict d => VDict (sort_items (map (fun kv => (fst kv, canon (snd kv))) d))
  | _ => v
  end.
(** Equal in Python: dicts compare without regard to order. *)
Definition same (v w : pyval) : Prop := canon v = canon w.
Definition osame (v w : option pyval) : Prop := option_map canon v = option_map canon w.

(** The name of a file without its folder is [b ++ "." ++ x]. *)
Definition slash : N := 47.
Definition dot : N := 46.
Definition has_ext (p : pystr) (x : string) : Prop :=
  exists dir b, p = dir ++ b ++ lit x /\ (dir = [] \/ exists d, dir = d ++ [slash]) /\
  ~ In slash b /\ exists c, In c b /\ c <> dot.

(** A file's version, the current one when it says nothing. *)
Definition said (d : dict pyval) (s : pystr) : Prop :=
  (exists v, dget (lit "version") d = Some v /\ truthy v = true /\ v = VStr s) \/
  ((dget (lit "version") d = None \/ exists v, dget (lit "version") d = Some v /\ truthy v = false) /\
   s = lit "1.17").
(** [x.y] or [x.y.anything]; [num] is how Python's [int] reads a text. *)
Definition two_numbers (num : pystr -> option Z) (s : pystr) (x y : Z) : Prop :=
  exists a b r, s = a ++ dot :: b ++ r /\ (r = [] \/ exists r', r = dot :: r') /\
  ~ In dot a /\ ~ In dot b /\ num a = Some x /\ num b = Some y.
Definition newer (x y : Z) : Prop := (x > 1 \/ x = 1 /\ y > 17)%Z.

(** What a node may have in a file, in the order of the file. *)
Definition node_parts : list pystr :=
  map lit ["start_point"; "instance"; "execute_in"; "child_order"; "enabled"; "comment";
           "attrs"; "code"]%string.
(** A node with its parts unchanged, in order, and nothing else. *)
Definition node_kept (v w : pyval) : Prop :=
  exists d e, v = VDict d /\ w = VDict e /\
  (forall k, In k node_parts -> osame (dget k d) (dget k e)) /\
  map fst e = filter (fun k => match dget k d with Some _ => true | None => false end) node_parts.

(** Every node path has a '/'. *)
Definition rooted (n : dict pyval) : Prop := forall p, In p (map fst n) -> In slash p.

Definition rooted_file (d : dict pyval) : Prop :=
  forall n, dget (lit "nodes") d = Some (VDict n) -> rooted n.

(** *** The references of files up to 1.9 *)

(** The dict under a key, empty when there is none. *)
Definition dict_at (k : pystr) (d : dict pyval) : dict pyval :=
  match dget k d with Some (VDict e) => e | _ => [] end.

(** A reference that has a path, as (path, data). *)
Definition ref_of (r : pyval) : list (pystr * dict pyval) :=
  match r with
  | VDict d => match dget (lit "path") d with
               | Some (VStr (c :: p)) => [(c :: p, d)]
               | _ => []
               end
  | _ => []
  end.
(** What it says about [f]. *)
Definition told (f : string) (r : dict pyval) : option pyval :=
  match dget (lit f) r with Some VNone | None => None | Some v => Some v end.
(** What the last reference to [p] that says something about [f] says. *)
Definition last_said (f : string) (p : pystr) (rs : list (pystr * dict pyval)) : option pyval :=
  fold_left (fun acc '(q, r) => if str_eqb q p then match told f r with Some v => Some v | None => acc end
                                else acc) rs None.
Definition or_old (o old : option pyval) : option pyval := match o with Some v => Some v | None => old end.
(** The references of a file that are still in the old form. *)
Definition old_refs (d : dict pyval) : list (pystr * dict pyval) :=
  match dget (lit "references") d with Some (VList l) => flat_map ref_of l | _ => [] end.

(** [new] takes over the value of [old] if that says something. *)
Definition renamed (old new : string) (m : dict pyval) (k : pystr) : option pyval :=
  match dget (lit old) m with
  | Some v => if truthy v then if str_eqb k (lit new) then Some v
                               else if str_eqb k (lit old) then None else dget k m
              else dget k m
  | None => dget k m
  end.

(** What a file up to 1.9 becomes: references are paths, what they said about
    muting, soloing, aliases and colors is in the overrides and the meta data,
    and two parts of the meta data have new names. *)
Definition upgraded_1_9 (d d' : dict pyval) : Prop :=
  let rs := old_refs d in
  let overs := dict_at (lit "comp_overrides") d in
  let overs' := dict_at (lit "comp_overrides") d' in
  let meta := dict_at (lit "meta_data") d in
  let meta' := dict_at (lit "meta_data") d' in
  (match dget (lit "references") d with
   | Some v => if truthy v then osame (match map fst rs with [] => None | ps => Some (VList (map VStr ps)) end)
                                      (dget (lit "references") d')
               else osame (Some v) (dget (lit "references") d')
   | None => dget (lit "references") d' = None
   end) /\
  (forall p, osame (or_old (last_said "alias" p rs) (dget p (dict_at (lit "aliases") meta)))
                   (dget p (dict_at (lit "aliases") meta'))) /\
  (forall p, osame (or_old (last_said "color" p rs) (dget p (dict_at (lit "colors") meta)))
                   (dget p (dict_at (lit "colors") meta'))) /\
  (forall p, ~ In p (map fst rs) -> osame (dget p overs) (dget p overs')) /\
  (forall p, In p (map fst rs) ->
     osame (or_old (last_said "mute" p rs) (dget (lit "mute") (dict_at p overs)))
           (dget (lit "mute") (dict_at p overs')) /\
     osame (or_old (last_said "solo" p rs) (dget (lit "solo") (dict_at p overs)))
           (dget (lit "solo") (dict_at p overs')) /\
     forall k, k <> lit "mute" -> k <> lit "solo" ->
       osame (dget k (dict_at p overs)) (dget k (dict_at p overs'))) /\
  (forall k, In k [lit "position_data"; lit "positions"] ->
     osame (renamed "position_data" "positions" meta k) (dget k meta')) /\
  (forall k, In k [lit "collapse_data"; lit "collapse"] ->
     osame (renamed "collapse_data" "collapse" meta k) (dget k meta')) /\
  (forall k, ~ In k (map lit ["aliases"; "colors"; "position_data"; "positions"; "collapse_data"; "collapse"]%string) ->
     osame (dget k meta) (dget k meta')) /\
  (forall k, ~ In k (map lit ["references"; "comp_overrides"; "meta_data"]%string) ->
     osame (dget k d) (dget k d')).

(** *** Files of 0.39 to 0.45: nodes are nested *)

(** [old_node pre l p d]: [d] is a node at path [p], somewhere in the list of
    nodes [l] whose paths begin with [pre]. *)
Inductive old_node : pystr -> list pyval -> pystr -> dict pyval -> Prop :=
| on_here pre l d name :
    In (VDict d) l -> dget (lit "name") d = Some (VStr name) -> old_node pre l (pre ++ name) d
| on_below pre l d name l' p e :
    In (VDict d) l -> dget (lit "name") d = Some (VStr name) ->
    dget (lit "children") d = Some (VList l') ->
    old_node (pre ++ name ++ [slash]) l' p e -> old_node pre l p e.

(** None, [] and {} say nothing. *)
Definition not_empty (v : option pyval) : option pyval :=
  match v with Some VNone | Some (VList []) | Some (VDict []) | None => None | Some v => Some v end.
Definition not_none (v : option pyval) : option pyval :=
  match v with Some VNone | None => None | Some v => Some v end.
(** What the old node [d] at [path] is in the new form. *)
Definition flattened (starts : list pyval) (path : pystr) (d e : dict pyval) : Prop :=
  let data := dict_at (lit "data") d in
  dget (lit "widget_type") e = not_empty (dget (lit "widget_type") data) /\
  dget (lit "execute_in") e = not_empty (dget (lit "execute_in") d) /\
  dget (lit "instance") e = not_empty (dget (lit "instance") data) /\
  dget (lit "enabled") e = not_none (dget (lit "enabled") data) /\
  dget (lit "code") e = not_empty (dget (lit "compute") data) /\
  dget (lit "comment") e = not_empty (dget (lit "comment") d) /\
  dget (lit "attrs") e = not_empty (dget (lit "attributes") data) /\
  dget (lit "child_order") e = not_empty (dget (lit "execute_order") d) /\
  (In (VStr path) starts -> dget (lit "start_point") e = Some (VBool true)) /\
  (~ In (VStr path) starts -> dget (lit "start_point") e = None) /\
  (forall k, ~ In k (map lit ["widget_type"; "execute_in"; "instance"; "enabled"; "code"; "comment";
                              "attrs"; "child_order"; "start_point"]%string) -> dget k e = None).

(** The parent of [p] has data but does not list [p]'s name. *)
Definition unlisted (n : dict pyval) (p : pystr) : Prop :=
  exists par name e, p = par ++ slash :: name /\ ~ In slash name /\ dget par n = Some (VDict e) /\ e <> [] /\
  ~ exists co, dget (lit "child_order") e = Some (VList co) /\ In (VStr name) co.

Definition upgraded_pre (d d' : dict pyval) : Prop :=
  let kids := match dget (lit "children") d with Some (VList l) => l | _ => [] end in
  let starts := match dget (lit "start_nodes") (dict_at (lit "data") d) with Some (VList l) => l | _ => [] end in
  let old := dict_at (lit "nodes") d in
  dget (lit "version") d' = Some (VStr (lit "1.0.0")) /\
  dget (lit "children") d' = None /\ dget (lit "data") d' = None /\
  osame (match dget (lit "data") d with Some v => Some v | None => dget (lit "meta_data") d end)
        (dget (lit "meta_data") d') /\
  (forall k, ~ In k (map lit ["version"; "children"; "data"; "meta_data"; "nodes"]%string) ->
     osame (dget k d) (dget k d')) /\
  (kids = [] -> dget (lit "nodes") d = None -> dget (lit "nodes") d' = None) /\
  (kids <> [] \/ dget (lit "nodes") d <> None -> exists all n',
     (forall p v, dget p all = Some v ->
        (exists o e, old_node [slash] kids p o /\ v = VDict e /\ flattened starts p o e) \/
        (dget p old = Some v /\ forall o, ~ old_node [slash] kids p o)) /\
     (forall p, (exists o, old_node [slash] kids p o) \/ In p (map fst old) -> In p (map fst all)) /\
     dget (lit "nodes") d' = Some (VDict n') /\
     forall p, (unlisted all p -> dget p n' = None) /\
               (~ unlisted all p -> osame (dget p all) (dget p n'))).

(** *** Every older file *)

(** What a file of 1.10 to 1.15 becomes; files up to 1.14 drop a [false] for
    mute or solo. *)
Definition reordered (drop : bool) (d d' : dict pyval) : Prop :=
  NoDup (map fst d') /\
  dget (lit "version") d' = Some (VStr (lit "1.16")) /\
  (dget (lit "nodes") d = None -> dget (lit "nodes") d' = None) /\
  (forall n, dget (lit "nodes") d = Some (VDict n) ->
     exists n', dget (lit "nodes") d' = Some (VDict n') /\
     StronglySorted (fun p q => str_ltb p q = true) (map fst n') /\
     (forall p, In p (map fst n) <-> In p (map fst n')) /\
     forall p v, dget p n = Some v -> exists w, dget p n' = Some w /\ node_kept v w) /\
  (forall k, k <> lit "version" -> k <> lit "nodes" ->
     (drop = true /\ In k [lit "mute"; lit "solo"] /\ dget k d = Some (VBool false) /\ dget k d' = None) \/
     (~ (drop = true /\ In k [lit "mute"; lit "solo"] /\ dget k d = Some (VBool false)) /\
      osame (dget k d) (dget k d'))).

(** What conversion makes of a file that says it has version [1.v]. *)
Definition upgraded (v : Z) (d d' : dict pyval) : Prop :=
  ((v <= 9)%Z /\ exists d1, upgraded_1_9 d d1 /\ reordered true d1 d') \/
  ((9 < v <= 14)%Z /\ reordered true d d') \/
  (v = 15%Z /\ reordered false d d') \/
  ((15 < v)%Z /\ d' = d).

(** Data with the shape every version of the program writes. *)
Definition is_dict (v : pyval) : Prop := exists d, v = VDict d.
Definition nodes_shape (o : option pyval) : Prop := forall v, o = Some v -> exists n, v = VDict n /\
  forall p x, dget p n = Some x -> exists e, x = VDict e /\
  forall a, dget (lit "attrs") e = Some a -> exists t, a = VDict t /\ forall k y, dget k t = Some y -> is_dict y.
Definition meta_shape (o : option pyval) : Prop := forall v, o = Some v -> exists m, v = VDict m /\
  forall k x, In k (map lit ["aliases"; "colors"; "positions"; "collapse"; "position_data"; "collapse_data"]%string) ->
  dget k m = Some x -> is_dict x.
Definition overs_shape (o : option pyval) : Prop := forall v, o = Some v -> exists c, v = VDict c /\
  forall k x, dget k c = Some x -> is_dict x.
Definition old_refs_shape (o : option pyval) : Prop := forall v, o = Some v -> exists l, v = VList l /\
  forall r, In r l -> exists d, r = VDict d /\ forall x, dget (lit "path") d = Some x -> exists s, x = VStr s.
Definition file_shape (v : Z) (d : dict pyval) : Prop :=
  nodes_shape (dget (lit "nodes") d) /\ meta_shape (dget (lit "meta_data") d) /\
  overs_shape (dget (lit "comp_overrides") d) /\
  ((v <= 9)%Z -> old_refs_shape (dget (lit "references") d)).

(** What opening a file adds to its data. *)
Definition stamped (filepath real_path : pystr) (d d' : dict pyval) : Prop :=
  dget (lit "filepath") d' = Some (VStr filepath) /\ dget (lit "real_path") d' = Some (VStr real_path) /\
  (forall v, dget (lit "name") d = Some v -> dget (lit "name") d' = Some v) /\
  (dget (lit "name") d = None -> exists s, dget (lit "name") d' = Some (VStr s) /\
     forall dir b x, filepath = dir ++ b ++ lit x -> (dir = [] \/ exists e, dir = e ++ [slash]) ->
       In x [".nxt"; ".nxtb"]%string -> ~ In slash b -> (exists c, In c b /\ c <> dot) -> s = b) /\
  (forall k, ~ In k (map lit ["filepath"; "real_path"; "name"]%string) -> dget k d' = dget k d) /\
  (exists rest, map fst d' = map fst d ++ rest).
