(** Histories of edits. *)

From Coq Require Import String List NArith Bool Arith Lia Permutation.
From Verif Require Import PyStr PyStrFacts NxtPath PathSpec PathProofs Dict DictFacts Layer PyVal
  Names NamesSpec NamesProofs SpecOps SpecOpsSpec SpecBase SpecMove SpecParent SpecClosed SpecReparent SpecRename
  SpecDelete SpecAdd.
Import ListNotations.

Lemma closed_gapless L ns : closed L -> Forall plain ns -> gapless L ns.
Proof.
  intros Hc Hns r Hr Hne (s & Hs & Hh). revert Hs Hh. induction s as [|x s IH] using rev_ind; intros Hs Hh.
  - now rewrite app_nil_r in Hh.
  - apply IH; [exact (Forall_app_l _ _ _ Hs)|]. rewrite app_assoc in Hh.
    destruct (Hc ((ns ++ r) ++ s) x) as [H|H]; [| |apply app_eq_nil in H as [H _]; apply app_eq_nil in H; tauto|exact H].
    + rewrite <- !app_assoc. apply Forall_app. split; [exact Hns|]. apply Forall_app. split; [exact Hr|exact Hs].
    + exact Hh.
Qed.

Lemma delete_closed L i ns rd wd :
  consistent L -> closed L -> composed L -> Forall plain ns -> path_of L i = Some (abs_path ns) ->
  (wd = true \/ ns <> [] /\ forall r, Forall plain r -> r <> [] -> ~ holds L (ns ++ r)) ->
  exists L' ps, delete_node L i rd wd = (L', Done ps) /\ consistent L' /\ closed L' /\ composed L'.
Proof.
  intros HC Hc [Hm Hh] Hns Hp Hwd.
  destruct (delete_spec L i ns rd wd HC Hp Hns (fun _ => closed_gapless L ns Hc Hns))
    as (L' & ps & E & HC' & _ & Hps & Lk & _ & _ & M1 & M2 & _).
  exists L', ps. split; [exact E|]. split; [exact HC'|]. split; [|split; congruence].
  intros ms x Hms (k & Ek). rewrite Lk in Ek. destruct (str_in (abs_path (ms ++ [x])) ps) eqn:E1; [discriminate|].
  assert (Hn1 : ~ In (abs_path (ms ++ [x])) ps) by (intros H; apply str_in_In in H; congruence).
  destruct (Hc ms x Hms) as [H|(j & Ej)]; [now exists k|now left|].
  destruct (str_in (abs_path ms) ps) eqn:E2.
  - exfalso. apply str_in_In in E2. pose proof (Forall_app_l _ _ _ Hms) as Hms'.
    apply Hps in E2 as [E2|(Ew & r & Hr & E2 & _)].
    + apply abs_inj in E2; [|assumption..]. subst ms. destruct Hwd as [Hwd|[_ Hwd]].
      * apply Hn1, Hps. right. split; [exact Hwd|]. exists [x]. split; [exact (Forall_app_r _ _ _ Hms)|].
        split; [reflexivity|now exists k].
      * apply (Hwd [x]); [exact (Forall_app_r _ _ _ Hms)|discriminate|now exists k].
    + apply abs_inj in E2; [|exact Hms'|apply Forall_app; auto]. subst ms.
      apply Hn1, Hps. right. split; [exact Ew|]. exists (r ++ [x]). rewrite app_assoc.
      split; [|split; [reflexivity|now exists k]].
      apply Forall_app. split; [exact Hr|]. exact (Forall_app_r _ _ _ Hms).
  - right. exists j. rewrite Lk, E2. exact Ej.
Qed.

Section History.
Variables (ud uw : N -> bool) (extra : slayer -> list pystr).

Lemma edit_keeps L e : consistent L -> closed L -> composed L -> sensible L e ->
  returns ud uw extra L e /\ consistent (apply_edit ud uw extra L e) /\ closed (apply_edit ud uw extra L e) /\
  composed (apply_edit ud uw extra L e).
Proof.
  intros HC Hc Hcomp Hs. destruct e as [t name parent fx|i rd wd|ids parent cn|i name force]; cbn [sensible] in Hs;
    cbn [returns apply_edit].
  - destruct Hs as (-> & Hn & Ht & par & Hp & -> & Hpar).
    destruct (add_node_ok ud uw extra true t L name par HC Hp) as (L' & nm & ds & E & _ & _ & _ & _ & _ & HA & _).
    { split; [exact Hcomp|]. auto. }
    rewrite E. split; [eexists; reflexivity|]. split; [exact (a_consistent _ _ _ _ _ HA)|].
    split; [exact (a_closed _ _ _ _ _ HA Hc Hpar)|]. destruct (a_rest _ _ _ _ _ HA) as (R1 & R2 & _), Hcomp as [C1 C2].
    split; cbn; congruence.
  - destruct Hs as (ns & Hns & Hp & Hwd).
    destruct (delete_closed L i ns rd wd HC Hc Hcomp Hns Hp Hwd) as (L' & ps & E & H). rewrite E.
    split; [eexists; reflexivity|exact H].
  - destruct Hs as (-> & Hnd & par & Hp & -> & Hpar & Hids). destruct ids as [|i0 ids].
    + cbn. split; [eexists; reflexivity|]. auto.
    + destruct (parent_nodes_closed ud uw extra L (i0 :: ids) par HC Hc Hcomp Hp Hpar Hnd)
        as (L' & res & E & H1 & H2 & H3 & _); [discriminate|exact Hids|].
      rewrite E. split; [eexists; reflexivity|]. auto.
  - destruct Hs as (-> & Hn & ns & nm & Hp & Hpo).
    assert (Hl : lookup L (abs_path (ns ++ [nm])) = Some i) by now apply (c_inverse L HC).
    destruct (c_spells L HC _ _ Hl) as (n & En & _).
    destruct (set_node_name_closed ud uw extra L i ns nm n name HC Hc Hcomp Hpo Hp En Hn)
      as (L' & nm' & xs & E & _ & _ & _ & H1 & H2 & H3 & _).
    rewrite E. split; [eexists; reflexivity|]. auto.
Qed.

Lemma history_keeps : forall es L, consistent L -> closed L -> composed L -> history ud uw extra L es ->
  consistent (fold_left (apply_edit ud uw extra) es L) /\ closed (fold_left (apply_edit ud uw extra) es L) /\
  composed (fold_left (apply_edit ud uw extra) es L) /\
  forall done e rest, es = done ++ e :: rest -> returns ud uw extra (fold_left (apply_edit ud uw extra) done L) e.
Proof.
  induction es as [|e es IH]; intros L HC Hc Hcomp HH.
  - split; [exact HC|]. split; [exact Hc|]. split; [exact Hcomp|]. intros done e rest E. now apply app_cons_not_nil in E.
  - destruct HH as [Hs HH]. destruct (edit_keeps L e HC Hc Hcomp Hs) as (R & K1 & K2 & K3).
    destruct (IH _ K1 K2 K3 HH) as (J1 & J2 & J3 & J4). split; [exact J1|]. split; [exact J2|]. split; [exact J3|].
    intros [|d done] e' rest E; cbn [app] in E; injection E as -> E.
    + exact R.
    + cbn [fold_left]. exact (J4 done e' rest E).
Qed.
End History.

Lemma blank_good : consistent blank /\ closed blank /\ composed blank.
Proof.
  split; [|split; [|split; reflexivity]].
  - constructor; cbn; try constructor; try discriminate.
    + intros [].
    + intros (p & E). discriminate.
    + intros [].
    + intros [(_ & _ & E)|(_ & E)]; discriminate.
  - intros ns nm _ (k & E). discriminate.
Qed.
