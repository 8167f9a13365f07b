(** C19: last time indexes.  C03: training windows and last time indexes. *)
From Verif Require Import Base BaseFacts M_Schema S_Schema M_Table M_Query S_Query M_LastTime S_LastTime L_LastTime S_View L_View.
Local Open Scope string_scope.

(** C19, full recomputation.  On every well-formed acyclic entity set with at most one relationship per
    pair of entities, times after 1800 and no mixed children, [add_last_time_indexes] terminates, changes
    nothing but the last time indexes, and records for every instance of every entity exactly the latest
    event at or below it (null if there is none), whatever was recorded before. *)
Theorem C19_last_time_exact_partial es fuel order :
  wf_es es -> acyclic es -> single_links es -> times_after_1800 es -> no_mixed_children es ->
  lti_bound es <= fuel ->
  exists es', add_last_time_indexes fuel order es [] = Ok es' /\ same_but_lti es es' /\
    forall e', In e' (es_ents es') -> has_last_times es e'.
Proof. exact (fun A B C D E => alti_full es A B C D E fuel order). Qed.

(** C19, partial update, for every iteration order of the set of ancestors: if the entities that are
    neither updated nor an ancestor of an updated one had correct last times (or none), then afterwards
    all entities have, except those that had none and still have none. *)
Theorem C19_last_time_updated_partial es fuel order updated :
  wf_es es -> acyclic es -> single_links es -> times_after_1800 es -> no_mixed_children es ->
  updated <> [] -> incl updated (map e_id (es_ents es)) ->
  (forall l, Permutation (order l) l) ->
  lti_bound es <= fuel -> List.length updated + List.length (es_rels es) <= fuel ->
  (forall e, In e (es_ents es) -> ~ self_or_ancestor es updated (e_id e) -> e_lti e = None \/ has_last_times es e) ->
  exists es', add_last_time_indexes fuel order es updated = Ok es' /\ same_but_lti es es' /\
    forall e', In e' (es_ents es') ->
      has_last_times es e' \/
      (~ self_or_ancestor es updated (e_id e') /\ In e' (es_ents es) /\ e_lti e' = None).
Proof. exact (fun A B C D E => alti_updated es A B C D E fuel order updated). Qed.

(** Repeating the call changes nothing: on every entity set on which it succeeds. *)
Theorem C19_idempotent fuel order es es' :
  add_last_time_indexes fuel order es [] = Ok es' -> add_last_time_indexes fuel order es' [] = Ok es'.
Proof. exact (alti_idempotent fuel order es es'). Qed.

(** *** a concrete three-level entity set meeting the hypotheses *)
Definition lt_row (i p t : val) : row := [("id", i); ("p", p); ("t", t)].
Definition lt_ent (name : string) (time : option string) (rs : list row) : entity :=
  mkEntity name "id" time [] None (mkDf ["id"; "p"; "t"] rs).
Definition ex_lt_es : entityset :=
  mkES [lt_ent "a" None [lt_row (VNum 1) VNull VNull; lt_row (VNum 2) VNull VNull; lt_row (VNum 3) VNull VNull];
        lt_ent "b" (Some "t") [lt_row (VNum 10) (VNum 1) (VNum 5); lt_row (VNum 11) (VNum 2) (VNum 7)];
        lt_ent "c" (Some "t") [lt_row (VNum 20) (VNum 10) (VNum 9); lt_row (VNum 21) (VNum 10) (VNum 8); lt_row (VNum 22) (VNum 11) (VNum 6)]]
       [mkRel "a" "id" "b" "p"; mkRel "b" "id" "c" "p"].

Ltac in_cases H := repeat (destruct H as [H|H]; [|]); try (destruct H; fail).

Lemma timed_children_not_mixed es :
  (forall rel c r, In rel (es_rels es) -> In c (es_ents es) -> e_id c = r_ce rel -> In r (rows (e_df c)) ->
     exists ti t, e_time c = Some ti /\ cell ti r = VNum t) -> no_mixed_children es.
Proof.
  intros H rel c r1 r2 t Hrel Hc Hid _ Hr2 _ _. destruct (H rel c r2 Hrel Hc Hid Hr2) as (ti & t' & H1 & H2).
  exists t'. rewrite <- Hid. eapply event_own; eassumption.
Qed.

(** chains in a graph whose relationships strictly increase a rank cannot be cycles *)
Lemma ranked_acyclic es (rank : string -> nat) :
  (forall r, In r (es_rels es) -> rank (r_pe r) < rank (r_ce r)) -> acyclic es.
Proof.
  intros H a (b & p & q & _ & Hq & Hc).
  assert (forall x l y, chain r_pe r_ce (es_rels es) x l y -> rank x + List.length l <= rank y) as Hlen.
  { induction 1 as [x|r l y Hr Hc' IH]; simpl; [lia|]. specialize (H r Hr). lia. }
  specialize (Hlen _ _ _ Hc). destruct q; [congruence | simpl in Hlen; lia].
Qed.

Lemma lt_ent_wf name time rs :
  (time = None \/ time = Some "t") ->
  Forall (fun r => map fst r = ["id"; "p"; "t"]) rs -> NoDup (map (cell "id") rs) -> wf_entity (lt_ent name time rs).
Proof.
  intros Ht Hf Hnd. split; [split|split; [|split; [|split]]].
  - cbn. repeat constructor; simpl; intuition discriminate.
  - cbn. rewrite Forall_forall in Hf. exact Hf.
  - simpl; auto.
  - cbn. intros t E. destruct Ht as [->| ->]; [discriminate|]. injection E as <-. simpl; auto.
  - intros s cs [].
  - exact Hnd.
Qed.

Ltac nodup_tac := repeat constructor; simpl; intuition discriminate.

Example C19_hypotheses_met :
  wf_es ex_lt_es /\ acyclic ex_lt_es /\ single_links ex_lt_es /\ times_after_1800 ex_lt_es /\ no_mixed_children ex_lt_es.
Proof.
  split; [|split; [|split; [|split]]].
  - split; [nodup_tac|]. split; [nodup_tac|]. split.
    + intros e H. repeat (destruct H as [<-|H]; [apply lt_ent_wf; [auto | repeat constructor | nodup_tac]|]). destruct H.
    + intros r H. destruct H as [<-|[<-|[]]]; cbn.
      * split; [exists (nth 0 (es_ents ex_lt_es) (lt_ent "" None [])) | exists (nth 1 (es_ents ex_lt_es) (lt_ent "" None []))]; simpl; auto 10.
      * split; [exists (nth 1 (es_ents ex_lt_es) (lt_ent "" None [])) | exists (nth 2 (es_ents ex_lt_es) (lt_ent "" None []))]; simpl; auto 10.
  - apply (ranked_acyclic _ (fun x => if String.eqb x "a" then 0 else if String.eqb x "b" then 1 else 2)).
    intros r H. destruct H as [<-|[<-|[]]]; cbn; lia.
  - intros r1 r2 H1 H2 _ E. destruct H1 as [<-|[<-|[]]], H2 as [<-|[<-|[]]]; try reflexivity; discriminate.
  - intros e ti r He Hti Hr. right.
    repeat (destruct He as [<-|He]; [cbn in Hti; try discriminate; injection Hti as <-;
      cbn in Hr; repeat (destruct Hr as [<-|Hr]; [eexists; split; [reflexivity | lia]|]); destruct Hr|]). destruct He.
  - apply timed_children_not_mixed. intros rel c r Hrel Hc Hid Hr.
    repeat (destruct Hc as [<-|Hc]; [destruct Hrel as [<-|[<-|[]]]; cbn in Hid; try discriminate; clear Hid;
      cbn in Hr; repeat (destruct Hr as [<-|Hr]; [eexists; eexists; split; reflexivity|]); destruct Hr|]). destruct Hc.
Qed.

Example C19_example :
  exists es', add_last_time_indexes 1000 (fun l => l) ex_lt_es [] = Ok es' /\
    map e_lti (es_ents es') =
      [Some [(VNum 1, VNum 9); (VNum 2, VNum 7); (VNum 3, VNull)];
       Some [(VNum 10, VNum 9); (VNum 11, VNum 7)];
       Some [(VNum 20, VNum 9); (VNum 21, VNum 8); (VNum 22, VNum 6)]].
Proof. eexists. split; vm_compute; reflexivity. Qed.

(** *** refutations of the unrestricted property *)

(** An instance with two children, one of which has no time: the missing time sorts last and wins, so
    the instance has no last time although a child has one. *)
Definition mixed_es : entityset :=
  mkES [lt_ent "a" None [lt_row (VNum 1) VNull VNull];
        lt_ent "b" (Some "t") [lt_row (VNum 10) (VNum 1) (VNum 5); lt_row (VNum 11) (VNum 1) VNull]]
       [mkRel "a" "id" "b" "p"].
Theorem C19_missing_child_time_refuted :
  exists es es' e', acyclic es /\ single_links es /\ times_after_1800 es /\
    add_last_time_indexes 1000 (fun l => l) es [] = Ok es' /\ In e' (es_ents es') /\
    e_id e' = "a" /\ event es "a" (VNum 1) 5 /\ e_lti e' = Some [(VNum 1, VNull)].
Proof.
  exists mixed_es. eexists. eexists. split; [|split; [|split; [|split; [vm_compute; reflexivity|split; [left; reflexivity|]]]]].
  - apply (ranked_acyclic _ (fun x => if String.eqb x "a" then 0 else 1)). intros r [<-|[]]; cbn; lia.
  - intros r1 r2 [<-|[]] [<-|[]] _ _; reflexivity.
  - intros e ti r He Hti Hr. destruct He as [<-|[<-|[]]]; cbn in Hti; [discriminate|]. injection Hti as <-.
    destruct Hr as [<-|[<-|[]]]; [right; exists 5%Z; split; [reflexivity | lia] | left; reflexivity].
  - split; [reflexivity|]. split; [|reflexivity].
    apply (event_child mixed_es (mkRel "a" "id" "b" "p") (nth 1 (es_ents mixed_es) (lt_ent "" None [])) (lt_row (VNum 10) (VNum 1) (VNum 5)) 5%Z);
      try (simpl; auto; fail).
    apply (event_own mixed_es (nth 1 (es_ents mixed_es) (lt_ent "" None [])) "t" (lt_row (VNum 10) (VNum 1) (VNum 5)) 5%Z); simpl; auto.
Qed.

(** Two relationships between the same entities: only the one added last counts. *)
Definition par_row (i p q t : val) : row := [("id", i); ("p", p); ("q", q); ("t", t)].
Definition par_es : entityset :=
  mkES [lt_ent "a" None [lt_row (VNum 1) VNull VNull; lt_row (VNum 2) VNull VNull];
        mkEntity "b" "id" (Some "t") [] None (mkDf ["id"; "p"; "q"; "t"] [par_row (VNum 10) (VNum 1) (VNum 2) (VNum 5)])]
       [mkRel "a" "id" "b" "p"; mkRel "a" "id" "b" "q"].
Theorem C19_parallel_relationships_refuted :
  exists es es' e', acyclic es /\ times_after_1800 es /\ no_mixed_children es /\
    add_last_time_indexes 1000 (fun l => l) es [] = Ok es' /\ In e' (es_ents es') /\
    e_id e' = "a" /\ event es "a" (VNum 1) 5 /\ e_lti e' = Some [(VNum 1, VNull); (VNum 2, VNum 5)].
Proof.
  exists par_es. eexists. eexists. split; [|split; [|split; [|split; [vm_compute; reflexivity|split; [left; reflexivity|]]]]].
  - apply (ranked_acyclic _ (fun x => if String.eqb x "a" then 0 else 1)). intros r [<-|[<-|[]]]; cbn; lia.
  - intros e ti r He Hti Hr. destruct He as [<-|[<-|[]]]; cbn in Hti; [discriminate|]. injection Hti as <-.
    destruct Hr as [<-|[]]. right; exists 5%Z; split; [reflexivity | lia].
  - intros rel c r1 r2 t Hrel Hc Hid Hr1 Hr2 _ Hev. exists t.
    destruct Hc as [<-|[<-|[]]].
    + destruct Hrel as [<-|[<-|[]]]; discriminate.
    + destruct Hr1 as [<-|[]], Hr2 as [<-|[]]; exact Hev.
  - split; [reflexivity|]. split; [|reflexivity].
    apply (event_child par_es (mkRel "a" "id" "b" "p") (nth 1 (es_ents par_es) (lt_ent "" None [])) (par_row (VNum 10) (VNum 1) (VNum 2) (VNum 5)) 5%Z);
      try (simpl; auto; fail).
    apply (event_own par_es (nth 1 (es_ents par_es) (lt_ent "" None [])) "t" (par_row (VNum 10) (VNum 1) (VNum 2) (VNum 5)) 5%Z); simpl; auto.
Qed.

(** A time before 1800-01-01 is replaced by a missing time. *)
Definition old_es : entityset :=
  mkES [lt_ent "a" (Some "t") [lt_row (VNum 1) VNull (VNum (-6000000000000000000))];
        lt_ent "b" (Some "t") []] [mkRel "a" "id" "b" "p"].
Theorem C19_before_1800_refuted :
  exists es es' e', acyclic es /\ single_links es /\ no_mixed_children es /\
    add_last_time_indexes 1000 (fun l => l) es [] = Ok es' /\ In e' (es_ents es') /\
    e_id e' = "a" /\ event es "a" (VNum 1) (-6000000000000000000) /\ e_lti e' = Some [(VNum 1, VNull)].
Proof.
  exists old_es. eexists. eexists. split; [|split; [|split; [|split; [vm_compute; reflexivity|split; [left; reflexivity|]]]]].
  - apply (ranked_acyclic _ (fun x => if String.eqb x "a" then 0 else 1)). intros r [<-|[]]; cbn; lia.
  - intros r1 r2 [<-|[]] [<-|[]] _ _; reflexivity.
  - intros rel c r1 r2 t Hrel Hc Hid Hr1. destruct Hrel as [<-|[]].
    destruct Hc as [<-|[<-|[]]]; [discriminate | destruct Hr1].
  - split; [reflexivity|]. split; [|reflexivity].
    apply (event_own old_es (nth 0 (es_ents old_es) (lt_ent "" None [])) "t" (lt_row (VNum 1) VNull (VNum (-6000000000000000000)))); simpl; auto.
Qed.

(** On a cyclic relationship graph the call does not terminate. *)
Definition cyc_es : entityset :=
  mkES [lt_ent "a" None [lt_row (VNum 1) (VNum 1) VNull]; lt_ent "b" None [lt_row (VNum 1) (VNum 1) VNull]]
       [mkRel "a" "id" "b" "p"; mkRel "b" "id" "a" "p"].
Lemma cyc_loop fuel : forall lt q,
  (q = ["a"; "b"] \/ q = ["b"; "a"]) -> lti_loop fuel cyc_es ["a"; "b"] lt q [] = Err OutOfFuel.
Proof.
  induction fuel as [|fuel IH]; intros lt q Hq; [reflexivity|].
  destruct Hq as [-> | ->]; cbn [lti_loop subset_str forallb mem_str existsb es_get cyc_es find es_ents lt_ent e_id
    String.eqb Ascii.eqb Bool.eqb andb bind]; (rewrite IH; [reflexivity|]); vm_compute; auto.
Qed.
Theorem C19_cycle_diverges_refuted :
  exists es, wf_es es /\ forall fuel order, add_last_time_indexes fuel order es [] = Err OutOfFuel.
Proof.
  exists cyc_es. split.
  - split; [nodup_tac|]. split; [nodup_tac|]. split.
    + intros e H. repeat (destruct H as [<-|H]; [apply lt_ent_wf; [auto | repeat constructor | nodup_tac]|]). destruct H.
    + intros r H. destruct H as [<-|[<-|[]]]; cbn.
      * split; [exists (nth 0 (es_ents cyc_es) (lt_ent "" None [])) | exists (nth 1 (es_ents cyc_es) (lt_ent "" None []))]; simpl; auto 10.
      * split; [exists (nth 1 (es_ents cyc_es) (lt_ent "" None [])) | exists (nth 0 (es_ents cyc_es) (lt_ent "" None []))]; simpl; auto 10.
  - intros fuel order. unfold add_last_time_indexes. cbn [bind].
    change (map e_id (es_ents cyc_es)) with ["a"; "b"]. rewrite cyc_loop by auto. reflexivity.
Qed.

(** *** C03 *)

(** Without last time indexes (or without a training window) a query at cutoff [T] depends only on the
    data known at [T]: changing, adding or removing later data changes nothing. *)
Theorem C03_query_ignores_future_partial es1 es2 eid e1 e2 vals var columns T tw incl :
  es_get es1 eid = Ok e1 -> es_get es2 eid = Ok e2 -> wf_entity e1 -> wf_entity e2 ->
  independent_secondaries e1 -> NoDup (map fst (e_sec e1)) -> win_time tw ->
  In (qvar e1 var) (cols (e_df e1)) ->
  never_hidden e1 (e_index e1) -> never_hidden e1 (qvar e1 var) -> (forall ti, e_time e1 = Some ti -> never_hidden e1 ti) ->
  (tw = None \/ e_lti e1 = e_lti e2) ->
  same_known T incl e1 e2 ->
  query_by_values es1 eid vals var columns (Some T) tw incl = query_by_values es2 eid vals var columns (Some T) tw incl.
Proof. exact (query_same_known es1 es2 eid e1 e2 vals var columns T tw incl). Qed.

(** With last time indexes the property fails: a child event after the cutoff puts an old parent row
    into the training window.  The two entity sets differ only in a row stamped after the cutoff. *)
Definition fut_es (child : list row) : entityset :=
  mkES [lt_ent "a" (Some "t") [lt_row (VNum 1) VNull (VNum 0)]; lt_ent "b" (Some "t") child] [mkRel "a" "id" "b" "p"].
Theorem C03_future_child_refuted :
  exists es1 es2 es1' es2' (T w : Z),
    Forall2 (same_known T true) (es_ents es1) (es_ents es2) /\ es_rels es1 = es_rels es2 /\
    add_last_time_indexes 1000 (fun l => l) es1 [] = Ok es1' /\
    add_last_time_indexes 1000 (fun l => l) es2 [] = Ok es2' /\
    query_by_values es1' "a" None None None (Some T) (Some (WTime (fun t => t - w)%Z)) true
    <> query_by_values es2' "a" None None None (Some T) (Some (WTime (fun t => t - w)%Z)) true.
Proof.
  exists (fut_es [lt_row (VNum 10) (VNum 1) (VNum 100)]), (fut_es []). eexists. eexists. exists 50%Z, 10%Z.
  split; [|split; [reflexivity|split; [vm_compute; reflexivity|split; [vm_compute; reflexivity|vm_compute; discriminate]]]].
  constructor; [|constructor; [|constructor]].
  - repeat split. cbn. apply sr_both; [| | |constructor].
    + intros ti [= <-]. exists 0%Z. split; [reflexivity | lia].
    + intros ti [= <-]. exists 0%Z. split; [reflexivity | lia].
    + split; [reflexivity|]. intros c _. split; [reflexivity | reflexivity].
  - repeat split. cbn. apply sr_left; [|constructor].
    intros H. destruct (H "t" eq_refl) as (t & Ht & Hle). cbn in Ht. injection Ht as <-. lia.
Qed.

Example C03_hypotheses_met :
  exists es1 es2 e1 e2, es_get es1 "b" = Ok e1 /\ es_get es2 "b" = Ok e2 /\ wf_entity e1 /\ wf_entity e2 /\
    same_known 50 true e1 e2 /\ rows (e_df e1) <> rows (e_df e2) /\
    never_hidden e1 "id" /\ never_hidden e1 "t".
Proof.
  exists (fut_es [lt_row (VNum 10) (VNum 1) (VNum 100)]), (fut_es []). eexists. eexists.
  split; [reflexivity|]. split; [reflexivity|].
  split; [apply lt_ent_wf; [auto | repeat constructor | nodup_tac]|].
  split; [apply lt_ent_wf; [auto | repeat constructor | nodup_tac]|].
  split; [repeat split; cbn; apply sr_left; [|constructor]|].
  - intros H. destruct (H "t" eq_refl) as (t & Ht & Hle). cbn in Ht. injection Ht as <-. lia.
  - split; [discriminate|]. split; intros s cs [].
Qed.

Print Assumptions C19_last_time_exact_partial.
Print Assumptions C19_last_time_updated_partial.
Print Assumptions C19_idempotent.
Print Assumptions C19_missing_child_time_refuted.
Print Assumptions C19_parallel_relationships_refuted.
Print Assumptions C19_before_1800_refuted.
Print Assumptions C19_cycle_diverges_refuted.
Print Assumptions C03_query_ignores_future_partial.
Print Assumptions C03_future_child_refuted.
