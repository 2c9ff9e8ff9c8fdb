(** Property theorems C42: parameters on the command line. *)

From Coq Require Import String List NArith Bool Arith Lia.
From Verif Require Import PyStr Dict PyVal Cli CliSpec CliProofs.
Import ListNotations.

(** "/node.attr value" pairs become exactly those parameters; the last value
    given for an attribute counts. *)
Theorem C42_pairs :
  forall isfile load ps, (forall k, In k (map fst ps) -> is_key k) ->
  exists d, parse_parameters isfile load (written ps) = Given d /\ holds_exactly d ps.
Proof. exact parse_pairs. Qed.
Print Assumptions C42_pairs.
Example C42_pairs_ex :
  let ps := [(lit "/a.x", lit "1"); (lit "/b.y", lit "2"); (lit "/a.x", lit "3")] in
  (forall k, In k (map fst ps) -> is_key k) /\
  parse_parameters (fun _ => false) (fun _ => Raise IOError) (written ps)
  = Given [(lit "/a.x", VStr (lit "3")); (lit "/b.y", VStr (lit "2"))].
Proof.
  split; [|reflexivity]. intros k [<-|[<-|[<-|[]]]]; eexists; reflexivity.
Qed.

(** The first key that is no attribute path is refused. *)
Theorem C42_bad_key :
  forall isfile load before k v after, (forall k, In k (map fst before) -> is_key k) -> ~ is_key k ->
  parse_parameters isfile load (written (before ++ (k, v) :: after)) = BadKey k.
Proof. exact parse_bad_key. Qed.
Print Assumptions C42_bad_key.

(** An odd number of arguments other than one is refused. *)
Theorem C42_odd :
  forall isfile load args n, length args = 2 * n + 1 -> n <> 0 -> parse_parameters isfile load args = BadCount.
Proof. exact parse_odd. Qed.
Print Assumptions C42_odd.

(** One argument is the name of a file: its contents are taken as they are. *)
Theorem C42_file :
  forall isfile load f,
  (isfile f = false -> parse_parameters isfile load [f] = NoFile) /\
  (forall v, isfile f = true -> load f = Ok v -> parse_parameters isfile load [f] = FromFile v) /\
  (forall e, isfile f = true -> load f = Raise e -> parse_parameters isfile load [f] = Unreadable e).
Proof.
  intros isfile load f. unfold parse_parameters. cbn.
  split; [intros ->; reflexivity|]. split; [intros v -> ->; reflexivity|intros e -> ->; reflexivity].
Qed.
Print Assumptions C42_file.

(** Nothing else can be given. *)
Theorem C42_exhaustive :
  forall args, (exists ps, args = written ps) \/ (exists f, args = [f]) \/ (exists n, length args = 2 * n + 1 /\ n <> 0).
Proof. exact three_forms. Qed.
Print Assumptions C42_exhaustive.
Example C42_refused_ex :
  ~ is_key (lit "a.x") /\
  parse_parameters (fun _ => false) (fun _ => Raise IOError) (written ([(lit "/a.x", lit "1")] ++ (lit "a.x", lit "1") :: []))
  = BadKey (lit "a.x") /\
  parse_parameters (fun _ => false) (fun _ => Raise IOError) [lit "/a.x"; lit "1"; lit "/b.x"] = BadCount.
Proof. split; [|split; reflexivity]. intros (r & E). discriminate. Qed.
