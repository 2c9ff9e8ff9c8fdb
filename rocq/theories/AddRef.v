(** Model of adding references to a layer: SpecLayer.__init__ (nxt/nxt_layer.py
    123-129), add_reference (664-690), get_references (692-696), and what is
    asked of the loader for a saved reference (nxt/stage.py 353-375).

    A reference is a path or None, as a layer that was never saved has no path.
    A layer object is its number and its real path. *)

From Coq Require Import String List NArith ZArith Bool.
From Verif Require Import PyStr Dict PyVal.
Import ListNotations.

Definition ref := option pystr.
(** sub_layer_paths and sub_layers (nxt_layer.py 123-124): of an entry its path
    and, if given, its layer. *)
Record refs := { sub_layer_paths : list ref; sub_layers : list (ref * option nat) }.

Definition truthy (p : ref) : bool := match p with Some (_ :: _) => true | _ => false end.

(** nxt_layer.py 125-129 *)
Definition new_refs (references : list ref) : refs :=
  {| sub_layer_paths := filter truthy references; sub_layers := map (fun p => (p, None)) (filter truthy references) |}.

(** [l.insert(i, x)] *)
Definition insert {A} (i : Z) (x : A) (l : list A) : list A :=
  let n := if (i <? 0)%Z then Z.to_nat (Z.of_nat (length l) + i) else Nat.min (Z.to_nat i) (length l) in
  firstn n l ++ x :: skipn n l.

(** What a call is given: a path, a layer with its real path, an index. *)
Record call := { c_path : ref; c_layer : option (nat * ref); c_idx : option Z }.

(** nxt_layer.py 680-690 *)
Definition add_reference (r : refs) (c : call) : res refs :=
  match truthy (c_path c), c_layer c with
  | false, None => Raise ValueError
  | _, layer =>
      let i := match c_idx c with Some i => i | None => Z.of_nat (length (sub_layer_paths r)) end in
      let p := match c_path c, layer with Some p, _ => Some p | None, Some (_, real) => real | None, None => None end in
      Ok {| sub_layer_paths := insert i p (sub_layer_paths r);
            sub_layers := insert i (p, match layer with Some (l, _) => Some l | None => None end) (sub_layers r) |}
  end.

(** nxt_layer.py 692-696 and 879: the references that are saved. *)
Definition get_references (r : refs) : list ref := map fst (sub_layers r).
