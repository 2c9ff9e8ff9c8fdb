(** Independent specification of file tokens with fallbacks: where a file is
    looked for, and what a text with references reads in the layers from a
    certain one on. *)

From Coq Require Import String List NArith Bool.
From Verif Require Import PyStr NxtPath PyVal TokenSpec ResolveSpec Fallbacks.
Import ListNotations.

(** The first ones of a list, each once. *)
Fixpoint once_each (l : list pystr) : list pystr :=
  match l with
  | [] => []
  | x :: t => x :: filter (fun y => negb (str_eqb x y)) (once_each t)
  end.
Definition found (r : pystr) : bool := negb (str_eqb r (lit "")).

(** The layers of a stack that take part: the ones that are not muted and, when
    some are soloed, soloed. *)
Definition taking_part (ls : list sub_layer) : list sub_layer :=
  filter (fun l => negb (sl_muted l) && (sl_soloed l || negb (existsb sl_soloed ls))) ls.

(** Contents of a token that refer to an attribute. *)
Definition refers (b : pystr) : Prop :=
  b <> [] /\ contains (lit "${") b = false /\ contains (lit "}") b = false /\
  (forall r, b <> lit "file::" ++ r) /\ (forall r, b <> lit "filelist::" ++ r) /\ (forall r, b <> lit "path::" ++ r) /\
  (forall r, b <> lit "contents::" ++ r) /\ b <> lit "_nxtpath" /\ b <> lit "_nxtcolor".

Section Meaning.
Context {node : Type}.
Variable w : files node.

(** The directories a file is looked for in: those of NXT_FILE_ROOTS that are
    there, then the layer's own if it is there. *)
Definition places (dir : pystr) : list pystr :=
  filter (on_disk w) (match env_roots w with Some s => split (path_sep w) s | None => [] end) ++
  filter (fun d => found d && on_disk w d) [dir].

(** [f] is looked for in the directories one after the other; the answer is the
    first full path that is there, or nothing. *)
Inductive located (f : pystr) : list pystr -> pystr -> Prop :=
| located_nowhere : located f [] []
| located_here d ds x : expand_at w f d = Ok x -> on_disk w x = true -> located f (d :: ds) x
| located_next d ds x r : expand_at w f d = Ok x -> on_disk w x = false -> located f ds r -> located f (d :: ds) r.

Section Layers.
(** The layers that take part, and the number of the one the stack starts at. *)
Variables (active : list sub_layer) (depth : nat).

(** A node as these layers have it. *)
Definition as_of (m m' : node) : Prop :=
  match depth with O => m' = m | S _ => lower_comp w active m = Some m' end.

(** At node [m], [ref] names attribute [a] of the node with path [q]. *)
Inductive points (m : node) (ref : pystr) : pystr -> pystr -> Prop :=
| points_there p a q : splits ref p a -> expand_relative_node_path p (where_is w m) = Some q -> points m ref q a
| points_here r : (forall p a, ~ splits ref p a) -> where_is w m = lit "/" ++ r -> points m ref (where_is w m) ref.

(** The text a reference leads to; an attribute that is missing or has no value
    is the empty text. *)
Definition says (m : node) (ref v : pystr) : Prop :=
  exists q a k k', points m ref q a /\ node_at w q = Some k /\ as_of k k' /\
  (value_at w k' a = Some (VStr v) \/ v = [] /\ (value_at w k' a = None \/ value_at w k' a = Some VNone)).

(** A text without value is no file name. *)
Definition usable (c f : pystr) : pystr := if found c && negb (found f) then lit "<invalid>" else f.

(** [filled m s o]: [s] with its references, as seen at node [m], filled in is
    [o]; [brings m ref o]: what a reference brings. *)
Inductive filled (m : node) : pystr -> pystr -> Prop :=
| filled_nil : filled m [] []
| filled_char c s o : not_opening c s -> filled m s o -> filled m (c :: s) (c :: o)
| filled_ref b s r o : refers b -> brings m b r -> filled m s o -> filled m (tok b ++ s) (r ++ o)
with brings (m : node) : pystr -> pystr -> Prop :=
| brings_text b v o : says m b v -> filled m v o -> contains (lit "${") o = false -> brings m b o
| brings_file b c f r : says m b (tok (lit "file::" ++ c)) -> body c -> filled m c f -> contains (lit "${") f = false ->
    located (usable c f) (places (layer_dir active)) r -> brings m b r.

Scheme filled_mut := Minimality for filled Sort Prop
with brings_mut := Minimality for brings Sort Prop.
Combined Scheme filled_brings_ind from filled_mut, brings_mut.

Definition reads (m : node) (c f : pystr) : Prop := filled m c f /\ contains (lit "${") f = false.
End Layers.

(** What the layers number [d] to [last] (without [last]) make of the text of a
    file token at a node: a file that is there, or nothing. *)
Inductive candidate (last : nat) (n : node) (c : pystr) (d : nat) : pystr -> Prop :=
| candidate_none : taking_part (firstn (last - d) (skipn d (sub_layers w))) = [] -> candidate last n c d []
| candidate_some l ls m f r : taking_part (firstn (last - d) (skipn d (sub_layers w))) = l :: ls ->
    as_of (l :: ls) d n m -> reads (l :: ls) d m c f -> located (usable c f) (places (sl_dir l)) r ->
    candidate last n c d r.
End Meaning.
