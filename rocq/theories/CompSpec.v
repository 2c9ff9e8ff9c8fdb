(** What composition means, independent of how it is computed. *)

From Coq Require Import String List NArith ZArith Bool.
From Verif Require Import PyStr NxtPath PathSpec Dict PyVal NodeIO.
Import ListNotations.

(** A node in a layer: its path and its attributes. *)
Definition data := dict pyval.
Definition placed := (pystr * data)%type.

(** The nodes at a path, strongest first, in all the nodes of a stack of
    layers, strongest layer first. *)
Definition stack (p : pystr) (all : list placed) : list data :=
  map snd (filter (fun r => str_eqb (fst r) p) all).

(** Strings in the order in which they are first met. *)
Definition firsts (l : list pystr) : list pystr :=
  fold_left (fun acc x => if in_dec (list_eq_dec N.eq_dec) x acc then acc else acc ++ [x]) l [].

Definition value (n : data) (a : pystr) : pyval :=
  match dget a n with Some v => v | None => VNone end.

(** A value that says something: neither None nor an empty list. *)
Definition says (v : pyval) : Prop := v <> VNone /\ v <> VList [].

(** [n] is the first of the nodes that says something about [a]. *)
Definition speaks_first (a : pystr) (sps : list data) (n : data) : Prop :=
  exists stronger weaker, sps = stronger ++ n :: weaker /\ says (value n a) /\
    forall m, In m stronger -> ~ says (value m a).
Definition silent (a : pystr) (sps : list data) : Prop := forall m, In m sps -> ~ says (value m a).
(** [n] is the first of the nodes that has [a]. *)
Definition has_first (a : pystr) (sps : list data) (v : pyval) : Prop :=
  exists stronger n weaker, sps = stronger ++ n :: weaker /\ dget a n = Some v /\
    forall m, In m stronger -> dget a m = None.

(** The value of an attribute along a chain of sources: a node's own when it
    says something, else that of its source, else whatever it has. *)
Inductive along (source : pystr -> option pystr) (val : pystr -> pyval) : pystr -> pyval -> Prop :=
| along_own p : says (val p) -> along source val p (val p)
| along_source p q v : ~ says (val p) -> source p = Some q -> along source val q v -> along source val p v
| along_end p : ~ says (val p) -> source p = None -> along source val p (val p).

(** [ds] names the closest of the ancestors of [cs] that are there. *)
Definition closest (there : list pystr -> Prop) (cs ds : list pystr) : Prop :=
  exists k, k < length cs /\ ds = firstn k cs /\ there ds /\
    forall j, k < j < length cs -> ~ there (firstn j cs).

(** Names of nodes: not empty, without '/' and without '.'. *)
Definition plain_name (c : pystr) : Prop := component c /\ ~ In PERIOD c.
Definition names (ns : list pystr) : Prop := Forall plain_name ns.

(** *** Stacks of layers *)

(** A layer as the composition reads it: for every node the list of names that
    leads to it (the world's is one empty name) and its attributes.  A stack of
    layers is a list of layers, strongest first. *)
Definition layer_row := (list pystr * data)%type.
Definition ns_of (cs : list pystr) : list pystr := match cs with [] => [[]] | _ => cs end.
(** What the layers have at [cs], strongest first. *)
Definition opinions (cs : list pystr) (layers : list (list layer_row)) : list data :=
  map snd (filter (fun r => if list_eq_dec (list_eq_dec N.eq_dec) (fst r) (ns_of cs) then true else false) (concat layers)).

(** The attributes nxt itself gives to every node of a layer. *)
Definition internal_keys : list pystr := ALL_INTERNAL ++ map (fun a => a ++ META_SOURCE) TRACKED.
(** A node of a layer as loading or editing makes it: name and parent as its
    place says, all internal attributes present, an instance path that is
    missing, empty or absolute, and none for the world. *)
Definition fits (r : layer_row) : Prop :=
  exists cs, names cs /\ fst r = ns_of cs /\ (forall a, In a internal_keys -> dget a (snd r) <> None) /\
    match rev cs with
    | [] => value (snd r) PARENT_PATH = VStr [] /\ value (snd r) INSTANCE_PATH = VNone
    | nm :: up => value (snd r) NAME = VStr nm /\ value (snd r) PARENT_PATH = VStr (abs_path (rev up)) /\
        (value (snd r) INSTANCE_PATH = VNone \/ value (snd r) INSTANCE_PATH = VStr [] \/
         exists rs, names rs /\ value (snd r) INSTANCE_PATH = VStr (abs_path rs))
    end.
Definition well_formed (layers : list (list layer_row)) : Prop := forall l r, In l layers -> In r l -> fits r.

(** Every node that is not a root has its parent in some layer. *)
Definition gapless (layers : list (list layer_row)) : Prop := forall ps nm, names (ps ++ [nm]) ->
  opinions (ps ++ [nm]) layers <> [] -> ps = [] \/ opinions ps layers <> [].
(** The strongest instance path of a node in the layers. *)
Definition source_in (layers : list (list layer_row)) (cs rs : list pystr) : Prop :=
  exists n, speaks_first INSTANCE_PATH (opinions cs layers) n /\ value n INSTANCE_PATH = VStr (abs_path rs).
(** No layer has a node below a node that instances another. *)
Definition pure (layers : list (list layer_row)) : Prop := forall a b rs, names (a ++ b) -> b <> [] ->
  opinions (a ++ b) layers <> [] -> names rs -> rs <> [] -> ~ source_in layers a rs.
