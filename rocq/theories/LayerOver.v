(** Model of the per-layer flags and overrides, nxt/nxt_layer.py 628-662,
    698-818 and 1071-1162.

    Layers are addressed by index.  An entry of [comp_overrides] is a dict
    object that several layers may share (set_mute_over copies references), so
    entries live in a heap [objs]. *)

From Coq Require Import List NArith Bool.
From Verif Require Import PyStr Dict.
Import ListNotations.

(** One comp_overrides entry: the optional keys 'mute' and 'solo'. *)
Record over := { o_mute : option bool; o_solo : option bool }.

(** The fields of SpecLayer.__init__ (nxt_layer.py 99-145) used here.
    [parent_layer] is an index. *)
Record slayer := {
  l_filepath : pystr;
  l_mute : bool;
  l_solo : bool;
  l_alias : option pystr;
  l_color : option pystr;
  l_lock : option bool;
  l_over : dict nat;          (* comp_overrides: path -> object *)
  l_aliases : dict pystr;
  l_colors : dict pystr;
  l_locks : dict bool;
  l_parent : option nat
}.

Record store := { layers : list slayer; objs : list over }.

(** The chain of parent_layer links starting from [p], nearest first; [None]
    when the chain is longer than [fuel] (an endless loop in the code). *)
Fixpoint parents (fuel : nat) (ls : list slayer) (p : option nat)
  : option (list nat) :=
  match p with
  | None => Some []
  | Some j =>
      match fuel with
      | O => None
      | S f => match nth_error ls j with
               | None => None
               | Some l => option_map (cons j) (parents f ls (l_parent l))
               end
      end
  end.

(** Layers at the given indices. *)
Fixpoint fetch (ls : list slayer) (js : list nat) : option (list slayer) :=
  match js with
  | [] => Some []
  | j :: t => match nth_error ls j, fetch ls t with
              | Some l, Some r => Some (l :: r)
              | _, _ => None
              end
  end.

(** Layer [i] followed by its parents up to the root. *)
Definition chain_of (fuel : nat) (ls : list slayer) (i : nat)
  : option (list slayer) :=
  match nth_error ls i with
  | None => None
  | Some l => match parents fuel ls (l_parent l) with
              | None => None
              | Some js => fetch ls (i :: js)
              end
  end.

(** nxt_layer.py 1146-1153 get_comped_layer_overs over a chain. *)
Definition comped {V} (over_dict : slayer -> dict V) (chain : list slayer)
  : dict V :=
  fold_left (fun acc l => dupdate acc (over_dict l)) chain [].

Definition get_comped_layer_overs {V} (fuel : nat) (s : store) (i : nat)
           (over_dict : slayer -> dict V) : option (dict V) :=
  option_map (comped over_dict) (chain_of fuel (layers s) i).

(** nxt_layer.py 1156-1162 get_root_parent: [Some None] when there is no
    parent. *)
Definition get_root_parent (fuel : nat) (s : store) (i : nat)
  : option (option nat) :=
  match nth_error (layers s) i with
  | None => None
  | Some l => option_map (fun js => last (map Some js) None)
                         (parents fuel (layers s) (l_parent l))
  end.

Definition no_over : over := {| o_mute := None; o_solo := None |}.

Definition entry_for (s : store) (d : dict nat) (path : pystr) : over :=
  match dget path d with
  | Some a => nth a (objs s) no_over
  | None => no_over
  end.

(** nxt_layer.py 628-634 get_muted. *)
Definition get_muted (fuel : nat) (s : store) (local : bool) (i : nat)
  : option bool :=
  match nth_error (layers s) i with
  | None => None
  | Some l =>
      if local then Some (l_mute l)
      else match get_comped_layer_overs fuel s i l_over with
           | None => None
           | Some d => match o_mute (entry_for s d (l_filepath l)) with
                       | Some b => Some b
                       | None => Some (l_mute l)
                       end
           end
  end.

(** nxt_layer.py 646-652 get_soloed. *)
Definition get_soloed (fuel : nat) (s : store) (local : bool) (i : nat)
  : option bool :=
  match nth_error (layers s) i with
  | None => None
  | Some l =>
      if local then Some (l_solo l)
      else match get_comped_layer_overs fuel s i l_over with
           | None => None
           | Some d => match o_solo (entry_for s d (l_filepath l)) with
                       | Some b => Some b
                       | None => Some (l_solo l)
                       end
           end
  end.

(** In-place update of list element [i]. *)
Fixpoint set_nth {A} (i : nat) (x : A) (l : list A) : list A :=
  match l, i with
  | [], _ => []
  | _ :: t, O => x :: t
  | y :: t, S i' => y :: set_nth i' x t
  end.

Definition with_over (l : slayer) (d : dict nat) : slayer :=
  {| l_filepath := l_filepath l; l_mute := l_mute l; l_solo := l_solo l;
     l_alias := l_alias l; l_color := l_color l; l_lock := l_lock l;
     l_over := d; l_aliases := l_aliases l; l_colors := l_colors l;
     l_locks := l_locks l; l_parent := l_parent l |}.
Definition with_aliases (l : slayer) (d : dict pystr) : slayer :=
  {| l_filepath := l_filepath l; l_mute := l_mute l; l_solo := l_solo l;
     l_alias := l_alias l; l_color := l_color l; l_lock := l_lock l;
     l_over := l_over l; l_aliases := d; l_colors := l_colors l;
     l_locks := l_locks l; l_parent := l_parent l |}.
Definition with_colors (l : slayer) (d : dict pystr) : slayer :=
  {| l_filepath := l_filepath l; l_mute := l_mute l; l_solo := l_solo l;
     l_alias := l_alias l; l_color := l_color l; l_lock := l_lock l;
     l_over := l_over l; l_aliases := l_aliases l; l_colors := d;
     l_locks := l_locks l; l_parent := l_parent l |}.
Definition with_locks (l : slayer) (d : dict bool) : slayer :=
  {| l_filepath := l_filepath l; l_mute := l_mute l; l_solo := l_solo l;
     l_alias := l_alias l; l_color := l_color l; l_lock := l_lock l;
     l_over := l_over l; l_aliases := l_aliases l; l_colors := l_colors l;
     l_locks := d; l_parent := l_parent l |}.

(** nxt_layer.py 639-644 set_mute_over and 657-662 set_solo_over, by the
    change [f] made to the entry: the entry object found through the parents
    is modified in place, or a new one is made; then this layer's table
    becomes the merged table. *)
Definition set_over (f : over -> over) (fuel : nat) (s : store) (i : nat)
           (path : pystr) : option store :=
  match nth_error (layers s) i, get_comped_layer_overs fuel s i l_over with
  | Some l, Some d =>
      let '(a, os) := match dget path d with
                      | Some a => (a, objs s)
                      | None => (length (objs s), objs s ++ [no_over])
                      end in
      Some {| layers := set_nth i (with_over l (dset path a d)) (layers s);
              objs := set_nth a (f (nth a os no_over)) os |}
  | _, _ => None
  end.
Definition set_mute_over fuel s i path (state : bool) : option store :=
  set_over (fun o => {| o_mute := Some state; o_solo := o_solo o |}) fuel s i path.
Definition set_solo_over fuel s i path (state : bool) : option store :=
  set_over (fun o => {| o_mute := o_mute o; o_solo := Some state |}) fuel s i path.

(** nxt_layer.py 698-723 _get_meta_attr for an attribute [own] with override
    tables [overs]; the over_dict_attr is always given (725-784). *)
Definition get_meta_attr {V} (own : slayer -> option V) (overs : slayer -> dict V)
           (local fallback_to_local : bool) (fuel : nat) (s : store) (i : nat)
  : option (option V) :=
  match nth_error (layers s) i with
  | None => None
  | Some l =>
      if local then Some (own l)
      else match get_comped_layer_overs fuel s i overs with
           | None => None
           | Some d => match dget (l_filepath l) d with
                       | Some v => Some (Some v)
                       | None => Some (if fallback_to_local then own l else None)
                       end
           end
  end.

(** nxt_layer.py 725, 758, 786. *)
Definition get_alias := get_meta_attr l_alias l_aliases.
Definition get_color := get_meta_attr l_color l_colors.
Definition get_locked local fb fuel s i : option bool :=
  option_map (fun v => match v with Some b => b | None => false end)
             (get_meta_attr l_lock l_locks local fb fuel s i).

(** nxt_layer.py 744-756 set_alias_over, 772-784 set_color_over: on the root
    parent; [None] covers the AttributeError raised when there is none. *)
Definition set_on_root {V} (get : slayer -> dict V)
           (put : slayer -> dict V -> slayer)
           (fuel : nat) (s : store) (i : nat) (v : option V) : option store :=
  match nth_error (layers s) i, get_root_parent fuel s i with
  | Some l, Some (Some r) =>
      match nth_error (layers s) r with
      | None => None
      | Some root =>
          let d := match v with
                   | None => if dmem (l_filepath l) (get root)
                             then ddel (l_filepath l) (get root) else get root
                   | Some x => dset (l_filepath l) x (get root)
                   end in
          Some {| layers := set_nth r (put root d) (layers s); objs := objs s |}
      end
  | _, _ => None
  end.
Definition set_alias_over := set_on_root l_aliases with_aliases.
Definition set_color_over := set_on_root l_colors with_colors.

(** nxt_layer.py 806-818 set_locked_over: line 815 looks into the colours
    before popping the lock ([None] also covers the KeyError of 816). *)
Definition set_locked_over (fuel : nat) (s : store) (i : nat) (v : option bool)
  : option store :=
  match nth_error (layers s) i, get_root_parent fuel s i with
  | Some l, Some (Some r) =>
      match nth_error (layers s) r with
      | None => None
      | Some root =>
          let put d := Some {| layers := set_nth r (with_locks root d) (layers s);
                               objs := objs s |} in
          match v with
          | None => if dmem (l_filepath l) (l_colors root)
                    then if dmem (l_filepath l) (l_locks root)
                         then put (ddel (l_filepath l) (l_locks root))
                         else None
                    else Some s
          | Some b => put (dset (l_filepath l) b (l_locks root))
          end
      end
  | _, _ => None
  end.

(** nxt_layer.py 1071-1112: the active, soloed and muted layers among the
    given ones; [muted] and [soloed] are the layers' get_muted() and
    get_soloed(). *)
Definition get_soloed_layers {L} (soloed : L -> bool) (ls : list L) : list L :=
  filter soloed ls.
Definition get_muted_layers {L} (muted : L -> bool) (ls : list L) : list L :=
  filter muted ls.
Definition get_active_layers {L} (muted soloed : L -> bool) (ls : list L)
  : list L :=
  let soloed_layers := get_soloed_layers soloed ls in
  let potential := match soloed_layers with [] => ls | _ => soloed_layers end in
  fold_left (fun acc l => if muted l then acc else acc ++ [l]) potential [].
