(** Model of the edits that update a composed stage in place: setting a node's
    enabled state (Stage.node_setattr_data with the attribute enabled and
    Stage.set_node_enabled, nxt/stage.py 1406-1488 and 3887-3922). *)

From Coq Require Import String List NArith ZArith Bool Arith.
From Verif Require Import PyStr NxtPath Dict Layer PyVal NodeIO PyClass NodeEdit Comp.
From Verif Require Runtime.
Import ListNotations.

(** getattr(class, a) for an attribute every node has. *)
Definition ref_attr (H : heap) (r : ref) (a : pystr) : pyval :=
  match r with
  | Sp i => match nth_error (specs H) i with Some n => attr_or_none n a | None => VNone end
  | Co p => attr H p a
  end.
Definition str_of (v : pyval) : pystr := match v with VStr s => s | _ => [] end.
(** nxt_node.py 310-316 get_node_path; names and parent paths that are no
    strings are not modelled. *)
Definition path_of (H : heap) (r : ref) : pystr :=
  join_node_paths (str_of (ref_attr H r PARENT_PATH)) (str_of (ref_attr H r NAME)).

(** setattr on the spec node number [i]: layers and stage share it. *)
Definition with_spec (H : heap) (i : nat) (n : node) : heap :=
  {| specs := firstn i (specs H) ++ n :: skipn (S i) (specs H); comps := comps H; dirty := dirty H |}.

(** stage.py 3905-3916: does the class [r] of the MRO stop the update? *)
Definition stops (H : heap) (i : nat) (node_path : pystr) (state : pyval) (r : ref) : bool :=
  if ref_eqb r (Sp i) || contains (path_of H r) node_path then false
  else match ref_attr H r ENABLED with
       | VNone => false
       | v => negb (Runtime.py_eqb v state)
       end.
(** stage.py 3918-3921: the loop over the dirty nodes; setattr on None raises
    AttributeError. *)
Fixpoint set_all (H : heap) (ps : list pystr) (state : pyval) : heap * res unit :=
  match ps with
  | [] => (H, Ok tt)
  | p :: rest =>
      if here H p then set_all (set_attr H p ENABLED state) rest state
      else (H, Raise AttributeError)
  end.
(** stage.py 3887-3922.  The answer is the stage and the list of dirty nodes or
    the exception. *)
Definition set_node_enabled (H : heap) (i : nat) (state : pyval) : heap * res (list pystr) :=
  let node_path := path_of H (Sp i) in
  if negb (here H node_path) then (H, Ok [])
  else
    let mro := match mro_of H (Co node_path) with Some l => l | None => [] end in
    if existsb (stops H i node_path state) (tl mro) then (H, Ok [])
    else
      let ds := dirties H node_path in
      let '(H, r) := set_all (set_attr H node_path ENABLED state) ds state in
      (H, bind r (fun _ => Ok ds)).

Section Edit.
Variables uni_digit uni_word : N -> bool.
Variable builtins : list pystr.
Variable literal_eval : pystr -> literal.

(** stage.py 1406-1488 for the attribute enabled, the keyword value and the
    spec node number [i]; [None] = no such node. *)
Definition setattr_enabled (H : heap) (pl : place) (i : nat) (state : pyval)
  : option (heap * res (list pystr)) :=
  match nth_error (specs H) i with
  | None => None
  | Some n =>
      let values := [(META_VALUE, state)] in
      match set_subs uni_digit uni_word builtins literal_eval pl ENABLED false values
                     (local_names builtins pl n) values n with
      | None => None
      | Some (n, Raise e) => Some (with_spec H i n, Raise e)
      | Some (n, Ok _) => Some (set_node_enabled (with_spec H i n) i (clean_value state))
      end
  end.
End Edit.
