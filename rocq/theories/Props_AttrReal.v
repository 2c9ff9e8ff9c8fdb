(** C73: attribute values as code sees them. *)

From Coq Require Import String List NArith ZArith Bool Arith Lia.
From Verif Require Import PyStr PyStrFacts Dict DictFacts NxtPath PyVal NodeIO Runtime RuntimeSpec RuntimeProofs MergeProofs.
From Verif Require AttrNamesSpec Props_Runtime.
From Verif Require Import AttrReal AttrRealSpec.
Import ListNotations.

Section Props.
Variables (literal_eval : pystr -> reading) (eval : dict gval -> pystr -> res pyval)
          (resolve : list (dict pyval) -> pystr -> pystr -> res pystr).
Let real := AttrReal.real literal_eval eval resolve.

(** A text that is not a literal stays a text, a value that is no text stays as
    it is, and a text that is a literal is that literal: always the same value,
    whatever globals earlier code left. *)
Theorem C73_value :
  python literal_eval eval ->
  forall o p a,
  (forall g v, (forall s, v <> VStr s) -> real o g p a v = Ok v) /\
  (forall s t g v, resolve o p s = Ok t -> (real o g p a (VStr s) = Ok v <-> stands_for literal_eval t v)).
Proof.
  intros P o p a. split.
  - intros g v H. destruct v; try reflexivity. now destruct (H s).
  - intros s t g v H. unfold real, AttrReal.real. rewrite H. cbn [bind]. unfold determine_nxt_type. destruct (literal_eval t) as [ty w| |e] eqn:E; cbn [bind].
    + destruct (P _ _ _ E) as (Hraw & He). rewrite He. destruct (str_in ty [lit "raw"; lit "str"]) eqn:In.
      * apply str_in_In in In. destruct In as [F|[F|[]]]; [congruence|subst ty]. split.
        -- intros [= <-]. now apply AsQuoted with w.
        -- intros S. inversion S; congruence.
      * assert (ty <> lit "str") by (intros ->; vm_compute in In; discriminate In). split.
        -- intros [= <-]. now apply AsLiteral with ty.
        -- intros S. inversion S; congruence.
    + cbn. split; [intros [= <-]; now apply AsText|intros S; inversion S; congruence].
    + split; [discriminate|intros S; inversion S; congruence].
Qed.

(** Reading an attribute runs no code: what eval does with texts that are not
    literals makes no difference, and neither do the globals. *)
Theorem C73_runs_no_code :
  forall eval' o g g' p a v,
  (forall t ty w, literal_eval t = Reads ty w -> eval g t = eval' g' t) ->
  real o g p a v = AttrReal.real literal_eval eval' resolve o g' p a v.
Proof.
  intros eval' o g g' p a v H. destruct v; try reflexivity. cbn. destruct (resolve o p s) as [t|]; [cbn|reflexivity].
  unfold determine_nxt_type. destruct (literal_eval t) as [ty w| |e] eqn:E; cbn; try reflexivity.
  rewrite (H _ _ _ E). reflexivity.
Qed.

(** When it raises, resolving the text raised or reading the literal raised
    something it is not expected to. *)
Theorem C73_raises :
  python literal_eval eval ->
  forall o g p a v e, real o g p a v = Raise e ->
  exists s, v = VStr s /\ (resolve o p s = Raise e \/ exists t, resolve o p s = Ok t /\ literal_eval t = Breaks e).
Proof.
  intros P o g p a v e H. destruct v; try discriminate. exists s. split; [reflexivity|]. unfold real, AttrReal.real in H.
  destruct (resolve o p s) as [t|x]; [right; exists t; split; [reflexivity|]|left; cbn in H; congruence]. cbn [bind] in H.
  unfold determine_nxt_type in H. destruct (literal_eval t) as [ty w| |x] eqn:E; cbn [bind] in H.
  - destruct (P _ _ _ E) as (_ & He). rewrite He in H. destruct (str_in _ _); discriminate.
  - discriminate.
  - congruence.
Qed.

(** What code finds on self: every user attribute of the node and of what it
    inherits from; a text with its tokens resolved and read as above, anything
    else as it is; a copy when it can be copied. *)
Theorem C73_on_self :
  python literal_eval eval ->
  forall deepcopy builtins o g p mro f,
  load_attrs real deepcopy o g p mro (names_of builtins o mro) [] = Ok f ->
  forall a x, dget a f = Some x ->
  AttrNamesSpec.user_attr builtins a /\
  exists v w c, attr_of o mro a = Some v /\ deepcopy w = Ok c /\ x = match c with Some y => y | None => w end /\
    ((exists s t, v = VStr s /\ resolve o p s = Ok t /\ stands_for literal_eval t w) \/ ((forall s, v <> VStr s) /\ w = v)).
Proof.
  intros P deepcopy builtins o g p mro f H a x Hx.
  destruct (Props_Runtime.C36_frame (fun _ => None) (fun _ => true) (fun _ => []) (fun _ => None) real deepcopy builtins o g p mro f H) as (_ & G). specialize (G a). rewrite Hx in G.
  destruct G as (U & v & r & c & Hv & Hr & Hd & ->). split; [exact U|]. exists v, r, c. repeat split; try assumption.
  destruct (C73_value P o p a) as (V1 & V2).
  assert (D : (exists s, v = VStr s) \/ forall s, v <> VStr s) by (destruct v; eauto; right; discriminate).
  destruct D as [(s & ->)|D].
  - left. destruct (resolve o p s) as [t|e] eqn:Et.
    + exists s, t. split; [reflexivity|]. split; [exact Et|]. now apply (proj1 (V2 _ _ g r Et)).
    + unfold real, AttrReal.real in Hr. rewrite Et in Hr. discriminate.
  - right. split; [exact D|]. rewrite (V1 g v D) in Hr. congruence.
Qed.
End Props.

(** ** Samples *)

Definition s_literal (t : pystr) : reading :=
  if str_eqb t (lit "5") then Reads (lit "int") (VInt 5)
  else if str_eqb t (lit "'x'") then Reads (lit "str") (VStr (lit "x"))
  else if str_eqb t (lit "{[]: 1}") then Breaks TypeError
  else NotLiteral.
Definition s_eval (g : dict gval) (t : pystr) : res pyval :=
  if str_eqb t (lit "5") then Ok (VInt 5) else if str_eqb t (lit "'x'") then Ok (VStr (lit "x"))
  else match dget t g with Some (GVal v) => Ok v | _ => Raise ValueError end.
(** The token of the sample resolves to 5. *)
Definition s_resolve (_ : list (dict pyval)) (_ t : pystr) : res pystr :=
  Ok (if str_eqb t (lit "${n}") then lit "5" else t).

Example C73_sample :
  python s_literal s_eval /\
  forall o g p a, let r v := AttrReal.real s_literal s_eval s_resolve o g p a v in
  r (VStr (lit "${n}")) = Ok (VInt 5) /\ r (VStr (lit "'x'")) = Ok (VStr (lit "'x'")) /\
  r (VStr (lit "x")) = Ok (VStr (lit "x")) /\ r (VList [VStr (lit "5")]) = Ok (VList [VStr (lit "5")]).
Proof.
  split; [|intros; repeat split]. intros t ty v H. unfold s_literal in H. unfold s_eval.
  destruct (str_eqb t (lit "5")); [injection H as <- <-; split; [discriminate|reflexivity]|].
  destruct (str_eqb t (lit "'x'")); [injection H as <- <-; split; [discriminate|reflexivity]|].
  destruct (str_eqb t (lit "{[]: 1}")); discriminate.
Qed.
Example C73_on_self_sample :
  load_attrs (AttrReal.real s_literal s_eval s_resolve) (fun v => Ok (Some v)) [[(lit "k", VStr (lit "${n}"))]] [] (lit "/n") [0]
    (names_of [] [[(lit "k", VStr (lit "${n}"))]] [0]) [] = Ok [(lit "k", VInt 5)].
Proof. reflexivity. Qed.

(** ** What a user may expect but does not hold *)

(** A text of an attribute can stop a node from running with an error that is no
    graph error: one that is an unhashable dict key or set element in Python. *)
Theorem C73_any_text_refuted :
  ~ (forall literal_eval eval, python literal_eval eval -> forall t o g p a,
     exists v, AttrReal.real literal_eval eval (fun _ _ t => Ok t) o g p a (VStr t) = Ok v).
Proof.
  intros H. destruct (H s_literal s_eval (proj1 C73_sample) (lit "{[]: 1}") [] [] (lit "/n") (lit "a")) as (v & E). discriminate E.
Qed.

Print Assumptions C73_value.
Print Assumptions C73_runs_no_code.
Print Assumptions C73_raises.
Print Assumptions C73_on_self.
Print Assumptions C73_any_text_refuted.
