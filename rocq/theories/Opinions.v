(** Model of the questions about opinions: nxt_node.has_stronger_opinion
    (nxt/nxt_node.py 187-236), Stage.get_layers_with_opinion and
    get_historical_opinions (nxt/stage.py 3519-3546, 4173-4206). *)

From Coq Require Import String List NArith ZArith Bool Arith.
From Verif Require Import PyStr NxtPath Dict Layer PyVal NodeIO PyClass NodeEdit Comp Live Arcs.
From Verif Require Runtime.
Import ListNotations.

(** nxt_node.py 183-184 and 187-196: getattr(class, a, None); the opinion is
    the value and has_opinion of it. *)
Definition get (H : heap) (r : ref) (a : pystr) : pyval :=
  match getattr H r a with Some (_, v) => v | None => VNone end.

(** nxt_node.py 226-233: the last value looked at, and the result.  The result
    is False whenever the loop goes on. *)
Fixpoint scan (H : heap) (a : pystr) (target : pyval) (bs : list ref) (val : pyval) : pyval * bool :=
  match bs with
  | [] => (val, false)
  | b :: rest =>
      let v := get H b a in
      if Runtime.py_eqb (get H b SOURCE_LAYER) target then (v, false)
      else if has_opinion v then (v, true)
      else scan H a target rest v
  end.
(** nxt_node.py 212-236 for the comp node at a path (None.__bases__ raises);
    the target is the real path of a layer (stage.py 1511-1513). *)
Definition has_stronger_opinion (H : heap) (p a : pystr) (target : pyval) : res bool :=
  if here H p then
    let '(val, result) := scan H a target (bases_in (comps H) (Co p)) VNone in
    Ok (if Runtime.py_eqb (get H (Co p) a) val then false else result)
  else Raise AttributeError.

(** A layer is known by a number and its nodes by their paths. *)
Definition numbered_layer := (nat * dict node)%type.
(** list.remove of a layer object. *)
Fixpoint remove_layer (i : nat) (l : list numbered_layer) : list numbered_layer :=
  match l with
  | [] => []
  | x :: t => if Nat.eqb (fst x) i then t else x :: remove_layer i t
  end.
(** stage.py 3534-3546; no list and an empty list both stand for all layers. *)
Definition get_layers_with_opinion (sub_layers layer_list : list numbered_layer) (p a : pystr) : list numbered_layer :=
  let layer_list := match layer_list with [] => sub_layers | _ => layer_list end in
  let found := filter (fun l => dmem p (snd l)) layer_list in
  if is_empty a then found
  else fold_left (fun acc l =>
         if has_opinion (match dget p (snd l) with Some n => attr_or_none n a | None => VNone end)
         then acc else remove_layer (fst l) acc) found found.

(** stage.py 4187-4192: is the class [r] of the MRO looked at?  Node and object
    are not modelled; they define no user attribute. *)
Definition looked_at (H : heap) (p a : pystr) (r : ref) : bool :=
  if str_in a ALL_INTERNAL then
    match get_arc H p r with
    | Some Reference => str_in a TRACKED
    | Some Instance => true
    | _ => false
    end
  else true.
(** An entry: the source and the value; dictionaries compare by ==. *)
Definition entry := (pyval * pyval)%type.
Definition entry_eqb (x y : entry) : bool := Runtime.py_eqb (fst x) (fst y) && Runtime.py_eqb (snd x) (snd y).
(** stage.py 4186-4198. *)
Fixpoint history_loop (H : heap) (p a : pystr) (mro : list ref) (acc : list entry) : res (list entry) :=
  match mro with
  | [] => Ok acc
  | b :: rest =>
      if looked_at H p a b && has_opinion (get H b a) then
        match getattr H b (a ++ META_SOURCE) with
        | None => Raise AttributeError
        | Some (_, src) =>
            let e := (src, get H b a) in
            history_loop H p a rest (if existsb (entry_eqb e) acc then acc else acc ++ [e])
        end
      else history_loop H p a rest acc
  end.
(** stage.py 4173-4206. *)
Definition get_historical_opinions (H : heap) (p a : pystr) (include_local : bool) : res (list entry) :=
  let mro := match mro_of H (Co p) with Some l => l | None => [] end in
  bind (history_loop H p a mro []) (fun l =>
  if truthy (get H (Co p) PROXY) || include_local then Ok l
  else match l with [_] => Ok [] | _ => Ok (tl l) end).
