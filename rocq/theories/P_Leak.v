(** C01: no data after the cutoff reaches a feature value. *)
From Verif Require Import Base M_Schema M_Table M_Query S_Schema S_Query S_View M_Trie M_Feature M_FeatureSet M_Calc S_Calc L_CalcExt X_Demo.
Local Open Scope string_scope.

(** [win_time tw]: the training window, if any, is a time span (an observation window is rejected,
    C05_observation_window_rejected). *)

(** The whole calculation of a feature matrix at cutoff [T] (whatever the features, instances,
    approximated features, precalculated frames, set iteration order): two entity sets that agree on what
    is known at [T] give the same matrix, or the same exception. *)
Theorem C01_no_leakage es1 es2 idvars ord fs appr pre T tw incl ids :
  good_es es1 -> good_es es2 -> win_time tw ->
  same_es_known T incl tw es1 es2 ->
  (forall f, In f fs -> wt (es_rels es1) f /\ ~ is_slice f /\
                        fentity f = match fs with f0 :: _ => fentity f0 | [] => "" end) ->
  run es1 idvars ord fs appr pre T tw incl ids = run es2 idvars ord fs appr pre T tw incl ids.
Proof. exact (run_same_known es1 es2 idvars ord fs appr pre T tw incl ids). Qed.

(** The two entity sets differ (one has an event after the cutoff), the matrix is not an exception. *)
Example C01_hypotheses_met :
  let es1 := demo_es [] in let es2 := demo_es [demo_event 104 10 60 1000] in
  good_es es1 /\ good_es es2 /\ es1 <> es2 /\ same_es_known 50 true None es1 es2 /\
  (forall f, In f demo_fs -> wt (es_rels es1) f /\ ~ is_slice f /\ fentity f = "cust") /\
  exists m, run es1 demo_idvars (fun l => l) demo_fs no_appr no_pre 50 None true [VNum 1; VNum 2; VNum 3; VNum 9] = Ok m.
Proof.
  cbn zeta. split; [|split; [|split; [|split; [|split]]]].
  - apply demo_good; [intros r [] | cbn; nodup_tac].
  - apply demo_good; [intros r [<-|[]]; reflexivity | cbn; nodup_tac].
  - discriminate.
  - split; [reflexivity|]. intros eid. unfold es_get, demo_es. cbn [es_ents find e_id].
    destruct (String.eqb "cust" eid); [|destruct (String.eqb "sess" eid); [|destruct (String.eqb "event" eid); [|reflexivity]]].
    + split; [|left; reflexivity]. repeat split. cbn [rows e_df].
      repeat (apply sr_both; [intros ti; discriminate|intros ti; discriminate|split; [reflexivity|intros c _; split; [reflexivity|reflexivity]]|]). constructor.
    + split; [|left; reflexivity]. repeat split. cbn [rows e_df].
      repeat (apply sr_both; [intros ti [= <-]; eexists; split; [reflexivity|lia]|intros ti [= <-]; eexists; split; [reflexivity|lia]|split; [reflexivity|intros c _; split; [reflexivity|reflexivity]]|]). constructor.
    + split; [|left; reflexivity]. repeat split. cbn [rows e_df app].
      do 4 (apply sr_both; [intros ti [= <-]; eexists; split; [reflexivity|lia]|intros ti [= <-]; eexists; split; [reflexivity|lia]|split; [reflexivity|intros c _; split; [reflexivity|reflexivity]]|]).
      apply sr_right; [|constructor]. intros H. destruct (H "t" eq_refl) as (t & Ht & Hle). cbn in Ht. injection Ht as <-. lia.
  - exact demo_wt.
  - eexists. vm_compute. reflexivity.
Qed.

(** The hypothesis that link columns are not hidden by a secondary time index is needed: the rows of a
    child table are selected by the raw link column, before the values not yet known are hidden.  Here
    the link of the only log row is not known at the cutoff; whether it points to customer 1 or 2 decides
    between the default value 0 and a missing value for customer 1. *)
Definition leak_es (cid : Z) : entityset :=
  mkES [mkEntity "cust" "id" None [] None (mkDf ["id"] [[("id", VNum 1)]; [("id", VNum 2)]]);
        mkEntity "log" "id" (Some "t") [("t2", ["t2"; "cid"])] None
          (mkDf ["id"; "cid"; "t"; "t2"; "x"]
             [[("id", VNum 100); ("cid", VNum cid); ("t", VNum 5); ("t2", VNum 20); ("x", VNum 7)]])]
       [mkRel "cust" "id" "log" "cid"].
Definition leak_feat : feat :=
  FAgg p_wsum [FIdent "log" "x" None; FIdent "log" "id" None] [mkRel "cust" "id" "log" "cid"] true None None None.

Theorem C01_hidden_link_refuted :
  exists es1 es2 idvars fs T ids m1 m2,
    same_es_known T true None es1 es2 /\
    (forall e, In e (es_ents es1) \/ In e (es_ents es2) -> wf_entity e) /\
    (forall f, In f fs -> wt (es_rels es1) f) /\
    run es1 idvars (fun l => l) fs no_appr no_pre T None true ids = Ok m1 /\
    run es2 idvars (fun l => l) fs no_appr no_pre T None true ids = Ok m2 /\ m1 <> m2.
Proof.
  exists (leak_es 1), (leak_es 2), (fun e => if String.eqb e "cust" then ["id"] else ["id"; "cid"; "t"]), [leak_feat], 10%Z, [VNum 1; VNum 9].
  eexists. eexists.
  split; [|split; [|split; [|split; [vm_compute; reflexivity|split; [vm_compute; reflexivity|vm_compute; discriminate]]]]].
  - split; [reflexivity|]. intros eid. unfold es_get, leak_es. cbn [es_ents find e_id].
    destruct (String.eqb "cust" eid); [|destruct (String.eqb "log" eid); [|reflexivity]].
    + split; [|left; reflexivity]. repeat split. cbn [rows e_df].
      repeat (apply sr_both; [intros ti; discriminate|intros ti; discriminate|split; [reflexivity|intros c _; split; [reflexivity|reflexivity]]|]). constructor.
    + split; [|left; reflexivity]. repeat split. cbn [rows e_df].
      apply sr_both; [intros ti [= <-]; eexists; split; [reflexivity|lia]|intros ti [= <-]; eexists; split; [reflexivity|lia]| |constructor].
      split; [reflexivity|]. intros c Hc.
      split; [split; intros (s & cs & t & [[= <- <-]|[]] & Hx & Ht); exists "t2", ["t2"; "cid"], t; (split; [left; reflexivity|split; [exact Hx|exact Ht]])|]. intros Hh. cbn in Hc.
      destruct Hc as [<-|[<-|[<-|[<-|[<-|[]]]]]]; try reflexivity.
      exfalso. apply Hh. exists "t2", ["t2"; "cid"], 20%Z. split; [left; reflexivity|]. split; [right; left; reflexivity|].
      split; [reflexivity | lia].
  - intros e [He|He]; cbn in He; in_cases He; unfold wf_entity, wf_df; cbn [e_df e_sec e_index e_time cols rows].
    all: repeat split; try (intros t [= <-]); try discriminate; try (cbn; tauto).
    all: try (match goal with H : In _ [] |- _ => destruct H end).
    all: try match goal with H : In (_, _) [_] |- _ => destruct H as [[= <- <-]|[]] end.
    all: try (cbn; tauto).
    all: try (intros r Hr; cbn in Hr; in_cases Hr; reflexivity).
    all: try (intros x Hx; cbn in *; tauto).
    all: nodup_tac.
  - intros f [<-|[]]. apply wt_agg with "log"; try discriminate.
    + apply (chain_cons r_pe r_ce _ (mkRel "cust" "id" "log" "cid") [] "log"); [left; reflexivity | apply chain_nil].
    + intros b [<-|[<-|[]]]; constructor.
    + intros b [<-|[<-|[]]]; split; reflexivity.
Qed.

Print Assumptions C01_no_leakage.
Print Assumptions C01_hidden_link_refuted.
