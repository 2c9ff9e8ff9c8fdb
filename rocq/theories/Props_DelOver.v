(** C77: deleting one layer's node, where other layers have a node at the same
    place, agrees with composing the layers without it. *)

From Coq Require Import String List NArith ZArith Bool Arith Lia.
From Verif Require Import PyStr PyStrFacts NxtPath PathSpec PathProofs Dict DictFacts ListMerger SortRows Layer PyVal NodeIO NodeIOProofs PyClass Comp CompSpec CompProofs CompTreeProofs CompStageProofs
  StageView StageViewProofs DirtyStageSpec Props_Comp Props_CompCases Props_Dirty LocalSpec LocalProofs Props_Local Live AddNode AddNodeSpec AddNodeProofs Props_AddNode SetInstSpec Props_SetInst DelNode DelNodeProofs
  DelOver DelOverSpec DelOverProofs.
Import ListNotations.

(** Take regular layers, several of which have a node at [ps ++ [nm]], none with
    an instance path; their stage; and the stage of the layers without the node
    that the layer [real] has there.  Let the node have no children, let no node
    name it as its source and let its parent instance nothing.  Deleting that
    layer's node, which is number [i], succeeds and gives a stage with the nodes
    of a new composition, each with the same instances, identity, code, enabled
    state, comment and user attributes.  The node's order of children has the
    names that the remaining layers list (its own name may be missing).  In the nodes of the layers
    only the parent's, number [home], changes, by the name leaving the order of
    its children. *)
Theorem C77_reverted :
  forall layers layers' H H' ps nm d real stronger weaker i, regular layers -> regular layers' -> stage_of layers H -> stage_of layers' H' ->
  (forall m, In m (opinions [] layers) -> value m NAME = VStr (lit "/")) ->
  names (ps ++ [nm]) -> one_less (ps ++ [nm]) d stronger weaker layers layers' -> stronger ++ weaker <> [] ->
  value d SOURCE_LAYER = VStr real -> (forall m, In m (stronger ++ weaker) -> exists s, value m SOURCE_LAYER = VStr s /\ s <> real) ->
  silent INSTANCE_PATH (opinions (ps ++ [nm]) layers) -> plainly_said (stronger ++ weaker) ->
  (forall xs, names xs -> xs <> [] -> ~ in_stage H ((ps ++ [nm]) ++ xs)) -> (forall es, ~ points H es (ps ++ [nm])) ->
  reads H ps INSTANCE_PATH <> Some (VStr (lit "/")) ->
  nth_error (bases_in (comps H) (Co (abs_path (ps ++ [nm])))) (length stronger) = Some (Sp i) ->
  forall home, exists X, delete_opinion H home i real (abs_path (ps ++ [nm])) = Some (Ok (X, [abs_path (ps ++ [nm])])) /\
    (forall cs, names cs -> in_stage X cs <-> in_stage H' cs) /\
    (forall cs, names cs -> in_stage X cs ->
       (forall a, asked a -> reads X cs a = reads H' cs a) /\ forall rs, instances X cs rs <-> instances H' cs rs) /\
    (forall x, In x (listed (reads X (ps ++ [nm]) CHILD_ORDER)) -> exists m, In m (stronger ++ weaker) /\ In x (listed (dget CHILD_ORDER m))) /\
    (forall x, x <> nm -> (exists m, In m (stronger ++ weaker) /\ In x (listed (dget CHILD_ORDER m))) -> In x (listed (reads X (ps ++ [nm]) CHILD_ORDER))) /\
    (forall j n, nth_error (specs H) j = Some n -> exists n', nth_error (specs X) j = Some n' /\
       (home <> Some j -> n' = n) /\ (forall a, a <> CHILD_ORDER -> dget a n' = dget a n) /\
       (home = Some j -> NoDup (listed (dget CHILD_ORDER n)) ->
          forall x, In x (listed (dget CHILD_ORDER n')) <-> x <> nm /\ In x (listed (dget CHILD_ORDER n)))).
Proof.
  intros layers layers' H H' ps nm d real st wk i Rg Rg' B B' World Hc M more Er Eoth Sil Pl leaf unseen Aw Enth home. destruct (less_said _ _ _ _ _ _ M) as (Eo & Eo').
  destruct (stage_parts layers H (r_fits _ Rg) B) as (H1 & F & P). destruct (stage_parts layers' H' (r_fits _ Rg') B') as (H1' & F' & P').
  pose proof (less_elsewhere _ _ _ _ _ _ Hc M) as Else. apply (over_final layers layers' H H' ps nm d st wk) with (H1 := H1) (F := F) (H1' := H1') (F' := F'); assumption.
Qed.
Print Assumptions C77_reverted.

(** ** Examples *)
Local Ltac name_ok := repeat (constructor; [split; [split; [discriminate|vm_compute; intuition discriminate]|vm_compute; intuition discriminate]|]); constructor.
Local Ltac fits_two l := intros l0 r0 Hl Hr; unfold l in Hl; repeat destruct Hl as [<-|Hl]; try contradiction; cbn [In] in Hr; repeat destruct Hr as [<-|Hr]; try contradiction; try apply world_fits; (apply row_fits; [name_ok| |reflexivity]; try (left; reflexivity)); right.
Local Ltac regular_by tac := constructor; [tac|apply gap_free_gapless; vm_compute; reflexivity|apply pure_rows_pure; vm_compute; reflexivity|apply low_sources_spec; vm_compute; reflexivity].
Local Ltac built_ok := exists 9, (VStr (lit "top")), false; vm_compute; reflexivity.
Definition code_ (l : string) : dict pyval := [(lit "code", VList [VStr (lit l)])].

(** Three layers with a node n below r: the top one comments it, the middle one
    has code and an attribute for it, and so has the bottom one. *)
Definition n3 : layer_row := row "mid" [r_] "n" (code_ "B" ++ user "x" "2").
Definition three (mid : list layer_row) : list (list layer_row) :=
  [[world_row "top"; row "top" [] "r" []; row "top" [r_] "n" (comment "first")];
   [world_row "mid"; row "mid" [] "r" (user "y" "3")] ++ mid ++ [row "mid" [] "v" []];
   [world_row "low"; row "low" [] "r" []; row "low" [r_] "n" (code_ "C" ++ comment "last" ++ user "x" "1")]].
Definition n_row (l : nat) : data := hd [] (map snd (filter (fun r => if list_eq_dec (list_eq_dec N.eq_dec) (fst r) [r_; n_] then true else false) (nth l (three []) []))).
Lemma same_rows (l : list layer_row) : Forall2 row_alike l l.
Proof. induction l; constructor; [split; [reflexivity|auto]|assumption]. Qed.
Example C77_three : regular (three [n3]) /\ regular (three []) /\ stage_of (three [n3]) (stage_at (three [n3])) /\ stage_of (three []) (stage_at (three [])) /\
  (forall m, In m (opinions [] (three [n3])) -> value m NAME = VStr (lit "/")) /\ names [r_; n_] /\
  one_less [r_; n_] (snd n3) [n_row 0] [n_row 2] (three [n3]) (three []) /\ value (snd n3) SOURCE_LAYER = VStr (lit "mid") /\
  (forall m, In m [n_row 0; n_row 2] -> exists s, value m SOURCE_LAYER = VStr s /\ s <> lit "mid") /\
  silent INSTANCE_PATH (opinions [r_; n_] (three [n3])) /\ plainly_said [n_row 0; n_row 2] /\
  (forall xs, names xs -> xs <> [] -> ~ in_stage (stage_at (three [n3])) ([r_; n_] ++ xs)) /\ (forall es, ~ points (stage_at (three [n3])) es [r_; n_]) /\
  reads (stage_at (three [n3])) [r_] INSTANCE_PATH <> Some (VStr (lit "/")) /\
  exists i, nth_error (bases_in (comps (stage_at (three [n3]))) (Co (abs_path [r_; n_]))) 1 = Some (Sp i).
Proof.
  split; [regular_by ltac:(fits_two three)|]. split; [regular_by ltac:(fits_two three)|]. split; [built_ok|]. split; [built_ok|].
  split. { intros m Hm. vm_compute in Hm. repeat destruct Hm as [<-|Hm]; try destruct Hm; reflexivity. } split; [name_ok|].
  split. { apply (one_less_in _ _ _ _ _ _ [nth 0 (three []) []] [world_row "mid"; row "mid" [] "r" (user "y" "3")] [row "mid" [] "v" []] [world_row "mid"; row "mid" [] "r" (user "y" "3")] [row "mid" [] "v" []] [nth 2 (three []) []]); try reflexivity; apply same_rows. }
  split; [reflexivity|]. split. { intros m [<-|[<-|[]]]; eexists; (split; [vm_compute; reflexivity|vm_compute; discriminate]). }
  split. { intros m Hm S. vm_compute in Hm. repeat destruct Hm as [<-|Hm]; try destruct Hm; now destruct S. }
  split. { intros m a [<-|[<-|[]]] Ha; repeat destruct Ha as [<-|Ha]; try destruct Ha; vm_compute; ((right; reflexivity) || (left; split; discriminate)). }
  split. { apply childless_spec; [name_ok|discriminate|vm_compute; reflexivity]. } split; [apply unpointed_spec; vm_compute; reflexivity|].
  split; [vm_compute; discriminate|]. eexists. vm_compute. reflexivity.
Qed.
(** Deleting the middle layer's n. *)
Definition three_less : option (res (heap * list pystr)) := Eval vm_compute in delete_opinion (stage_at (three [n3])) None
  (match nth_error (bases_in (comps (stage_at (three [n3]))) (Co (abs_path [r_; n_]))) 1 with Some (Sp i) => i | _ => 0 end) (lit "mid") (lit "/r/n").
Example C77_three_shows : exists X, three_less = Some (Ok (X, [lit "/r/n"])) /\
  reads (stage_at (three [n3])) [r_; n_] COMPUTE = Some (VList [VStr (lit "B")]) /\ reads X [r_; n_] COMPUTE = Some (VList [VStr (lit "C")]) /\
  reads (stage_at (three [n3])) [r_; n_] (lit "x") = Some (VStr (lit "2")) /\ reads X [r_; n_] (lit "x") = Some (VStr (lit "1")) /\
  reads X [r_; n_] COMMENT = Some (VStr (lit "first")) /\ reads X [r_; n_] (lit "y") = Some (VStr (lit "3")).
Proof. eexists. repeat split; vm_compute; reflexivity. Qed.

(** ** Where the two differ *)
Definition over (code : string) : layer_row := row "top" [] "s" (code_ code).
Definition pair_of (top : list layer_row) (more : list layer_row) : list (list layer_row) := [[world_row "top"] ++ top; [world_row "low"; row "low" [] "s" (code_ "B")] ++ more].

(** After the deletion the code is still said to come from the layer whose node
    is gone. *)
Theorem C77_source_refuted :
  exists layers layers' H H' ps nm d st wk i X ds, regular layers /\ regular layers' /\ stage_of layers H /\ stage_of layers' H' /\
  names (ps ++ [nm]) /\ one_less (ps ++ [nm]) d st wk layers layers' /\ st ++ wk <> [] /\ value d SOURCE_LAYER = VStr (lit "top") /\
  nth_error (bases_in (comps H) (Co (abs_path (ps ++ [nm])))) (length st) = Some (Sp i) /\
  delete_opinion H None i (lit "top") (abs_path (ps ++ [nm])) = Some (Ok (X, ds)) /\
  reads X (ps ++ [nm]) (source_of COMPUTE) = Some (VTuple [VStr (lit "top"); VStr (abs_path (ps ++ [nm]))]) /\
  reads H' (ps ++ [nm]) (source_of COMPUTE) = Some (VTuple [VStr (lit "low"); VStr (abs_path (ps ++ [nm]))]).
Proof.
  destruct (delete_opinion (stage_at (pair_of [over "A"] [])) None 1 (lit "top") (abs_path ([] ++ [s_]))) as [[[X ds]|e]|] eqn:Ea; [|vm_compute in Ea; discriminate..].
  exists (pair_of [over "A"] []), (pair_of [] []), (stage_at (pair_of [over "A"] [])), (stage_at (pair_of [] [])), [], s_, (snd (over "A")), [], [snd (row "low" [] "s" (code_ "B"))], 1, X, ds.
  split; [regular_by ltac:(fits_two pair_of)|]. split; [regular_by ltac:(fits_two pair_of)|]. split; [built_ok|]. split; [built_ok|]. split; [name_ok|].
  split. { apply (one_less_in _ _ _ _ _ _ [] [world_row "top"] [] [world_row "top"] [] [[world_row "low"; row "low" [] "s" (code_ "B")]]); try reflexivity; apply same_rows. }
  split; [discriminate|]. split; [reflexivity|]. split; [vm_compute; reflexivity|]. split; [exact Ea|]. vm_compute in Ea. injection Ea as <- <-. split; vm_compute; reflexivity.
Qed.
Print Assumptions C77_source_refuted.

(** A node that instances the one deleted keeps the deleted code, although it is
    among the nodes reported as changed. *)
Theorem C77_instance_refuted :
  exists layers layers' H H' ps nm d st wk i X ds ts, regular layers /\ regular layers' /\ stage_of layers H /\ stage_of layers' H' /\
  names (ps ++ [nm]) /\ one_less (ps ++ [nm]) d st wk layers layers' /\ st ++ wk <> [] /\ value d SOURCE_LAYER = VStr (lit "top") /\
  nth_error (bases_in (comps H) (Co (abs_path (ps ++ [nm])))) (length st) = Some (Sp i) /\
  delete_opinion H None i (lit "top") (abs_path (ps ++ [nm])) = Some (Ok (X, ds)) /\ In (abs_path ts) ds /\
  instances X ts (ps ++ [nm]) /\ instances H' ts (ps ++ [nm]) /\
  reads X (ps ++ [nm]) COMPUTE = Some (VList [VStr (lit "B")]) /\ reads H' ts COMPUTE = Some (VList [VStr (lit "B")]) /\
  reads X ts COMPUTE = Some (VList [VStr (lit "A")]).
Proof.
  pose (T := [row "low" [] "t" (instance "/s")]).
  destruct (delete_opinion (stage_at (pair_of [over "A"] T)) None 1 (lit "top") (abs_path ([] ++ [s_]))) as [[[X ds]|e]|] eqn:Ea; [|vm_compute in Ea; discriminate..].
  exists (pair_of [over "A"] T), (pair_of [] T), (stage_at (pair_of [over "A"] T)), (stage_at (pair_of [] T)), [], s_, (snd (over "A")), [], [snd (row "low" [] "s" (code_ "B"))], 1, X, ds, [t_].
  split; [regular_by ltac:(fits_two pair_of); exists [s_]; (split; [name_ok|reflexivity])|]. split; [regular_by ltac:(fits_two pair_of); exists [s_]; (split; [name_ok|reflexivity])|]. split; [built_ok|]. split; [built_ok|]. split; [name_ok|].
  split. { apply (one_less_in _ _ _ _ _ _ [] [world_row "top"] [] [world_row "top"] [] [[world_row "low"; row "low" [] "s" (code_ "B")] ++ T]); try reflexivity; apply same_rows. }
  split; [discriminate|]. split; [reflexivity|]. split; [vm_compute; reflexivity|]. split; [exact Ea|]. vm_compute in Ea. injection Ea as <- <-. split; [vm_compute; auto|].
  split; [split; [name_ok|]; split; [discriminate|split; vm_compute; reflexivity]|]. split; [split; [name_ok|]; split; [discriminate|split; vm_compute; reflexivity]|]. repeat split; vm_compute; reflexivity.
Qed.
Print Assumptions C77_instance_refuted.
