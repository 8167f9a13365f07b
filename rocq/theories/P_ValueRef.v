(** Where C06, C07, C08 and C52 fail: concrete requests on the demonstration entity set. *)
From Verif Require Import Base BaseFacts M_Schema S_Schema M_Trie M_Table M_Query M_Feature M_FeatureSet M_Calc S_Calc S_Group S_Sem S_Value
  P_Value P_ValueUse X_Demo P_Group.
Local Open Scope string_scope.
Local Open Scope list_scope.

Definition demo_run (fs : list feat) (ids : list val) : res matrix := run (demo_es []) demo_idvars (fun l => l) fs no_appr no_pre 9 None true ids.
Definition demo_sem (f : feat) (i : Z) : list val := value_of (demo_es []) 9 None true f (VNum i).

(** C06: a null result of the primitive is replaced by the default value (feature_set_calculator.py
    L728-736): the sum of positive amounts is null for a customer without one, and comes back as 0 *)
Definition p_big : prim := mkPrim "Big" 1 false false (VNum 0) false (fun _ => "")
  (fun bs rp _ wh pv => ("BIG(" ++ rp ++ "." ++ String.concat ", " bs ++ ")")%string)
  (fun _ _ => []) (fun _ cs => [match filter (fun v => Z.ltb 100 (num v)) (hd [] cs) with [] => VNull | l => sum_vals l end]).
Definition f_big : feat := FAgg p_big [f_amt] demo_rels true None None None.
Theorem C06_null_result_refuted :
  (** the amounts of the events of customer 1 *)
  map (cell "amt") (filter (fun c => val_eqb (owner (demo_es []) 9 None true demo_rels c) (VNum 1)) (rows_at (demo_es []) 9 None true "event")) = [VNum 7; VNum 8; VNum 9] /\
  p_agg p_big None [[VNum 7; VNum 8; VNum 9]] = [VNull] /\
  exists m, demo_run [f_big] [VNum 1] = Ok m /\ entry m (VNum 1) "BIG(event.amt)" (VNum 0).
Proof.
  split; [vm_compute; reflexivity|]. split; [reflexivity|]. eexists. split; [vm_compute; reflexivity|].
  exists [VNum 0], 0. split; [left; reflexivity | split; reflexivity].
Qed.

(** C52: use_previous of zero observations keeps every row (df.iloc[-0:], L626-630) *)
Definition td_zero : tdelta := mkTd [("o", 0%Z)] (fun t => t) "0 Observations".
Theorem C52_zero_observations_refuted :
  exists m, demo_run [FAgg p_sum [f_amt] demo_rels true None (Some td_zero) None] [VNum 1] = Ok m /\
    m_rows m = [(VNum 1, [VNum 24])].
Proof. eexists. split; vm_compute; reflexivity. Qed.

(** C06, C52: the condition as one of the inputs: the primitive receives the condition column only
    (_can_agg, L763-773, leaves the condition out; L646 takes the first input) *)
Definition p_isbig : prim := mkPrim "IsBig" 1 false false VNull false (fun bs => ("IS_BIG(" ++ String.concat ", " bs ++ ")")%string) (fun _ _ _ _ _ => "")
  (fun _ cs => [map (fun v => VBool (Z.ltb 7 (num v))) (hd [] cs)]) (fun _ _ => []).
Definition f_isbig : feat := FTrans p_isbig [f_amt] None.
(** the number of inputs it receives *)
Definition p_args : prim := mkPrim "Args" 1 false false (VNum 0) false (fun _ => "")
  (fun bs rp _ wh pv => ("ARGS(" ++ rp ++ "." ++ String.concat ", " bs ++ wh ++ ")")%string)
  (fun _ _ => []) (fun _ cs => [VNum (Z.of_nat (List.length cs))]).
Definition f_args : feat := FAgg p_args [f_isbig; f_amt] demo_rels true (Some f_isbig) None None.
Theorem C06_condition_input_refuted :
  demo_sem f_args 1 = [VNum 2] /\ exists m, demo_run [f_args] [VNum 1] = Ok m /\ m_rows m = [(VNum 1, [VNum 1])].
Proof. split; [vm_compute; reflexivity|]. eexists. split; vm_compute; reflexivity. Qed.

(** C06: an aggregation over two steps whose second relationship is one of two between its entities raises
    (get_relationship_variable_id takes entity ids, the link column the relationship name, L343-389) *)
Definition two_rels : list relationship := [mkRel "cust" "id" "sess" "cid"; mkRel "sess" "id" "event" "sid"; mkRel "sess" "id" "event" "prev"].
Definition two_es : entityset :=
  mkES [mkEntity "cust" "id" None [] None (mkDf ["id"] [[("id", VNum 1)]]);
        mkEntity "sess" "id" None [] None (mkDf ["id"; "cid"] [[("id", VNum 10); ("cid", VNum 1)]]);
        mkEntity "event" "id" None [] None (mkDf ["id"; "sid"; "prev"; "amt"] [[("id", VNum 100); ("sid", VNum 10); ("prev", VNum 10); ("amt", VNum 7)]])]
       two_rels.
Definition two_idvars (e : string) : list string :=
  if String.eqb e "cust" then ["id"] else if String.eqb e "sess" then ["id"; "cid"] else ["id"; "sid"; "prev"].
Definition f_two_sum : feat := FAgg p_sum [f_amt] demo_rels false None None None.
Theorem C06_two_relationships_refuted :
  wt two_rels f_two_sum /\ good_es two_es /\ good_idvars two_es two_idvars /\ index_present two_es /\
  value_of two_es 9 None true f_two_sum (VNum 1) = [VNum 7] /\
  run two_es two_idvars (fun l => l) [f_two_sum] no_appr no_pre 9 None true [VNum 1] = Err KeyError.
Proof.
  split.
  { apply wt_agg with "event"; try discriminate; try (intros b [<-|[]]; try constructor; split; reflexivity).
    unfold backward_chain, demo_rels.
    apply (chain_cons r_pe r_ce two_rels (mkRel "cust" "id" "sess" "cid") _ "event"); [left; reflexivity|].
    apply (chain_cons r_pe r_ce two_rels (mkRel "sess" "id" "event" "sid") _ "event"); [right; left; reflexivity|]. apply chain_nil. }
  split.
  { split.
    - intros e He. cbn in He. in_cases He; apply good_entity_simple; cbn [e_df e_sec e_index e_time cols e_id rows]; try reflexivity; try (cbn; tauto); try discriminate.
      all: try match goal with |- forall r, In r _ -> r_ce _ = _ -> _ => intros r Hr; cbn in Hr; in_cases Hr; cbn; intros E; try discriminate E; tauto end.
      all: try match goal with |- forall r, In r _ -> r_pe _ = _ -> _ => intros r Hr; cbn in Hr; in_cases Hr; cbn; intros E; try discriminate E; reflexivity end.
      all: try (intros r Hr; cbn in Hr; in_cases Hr; reflexivity).
      all: cbn; nodup_tac.
    - intros r Hr. cbn in Hr. in_cases Hr; split; eexists; reflexivity. }
  split.
  { intros e He. cbn in He. in_cases He; (split; [intros c Hc; cbn in *; tauto|]; split; [cbn; tauto|]; split; [discriminate|]; intros r Hr E; cbn in Hr; in_cases Hr; cbn in E; try discriminate E; cbn; tauto). }
  split.
  { intros e r He Hr. cbn in He. in_cases He; cbn in Hr; in_cases Hr; discriminate. }
  split; vm_compute; reflexivity.
Qed.

(** C07: a direct feature and a renamed copy of it: each can be calculated alone, both together raise
    (col_map has one entry per parent column, L546-562) *)
Definition f_sdev : feat := FDirect (mkRel "sess" "id" "event" "sid") (FIdent "sess" "dev" None) None.
Definition f_sdev2 : feat := FDirect (mkRel "sess" "id" "event" "sid") (FIdent "sess" "dev" None) (Some "device").
Theorem C07_renamed_direct_refuted :
  (exists m, demo_run [f_sdev] [VNum 102] = Ok m /\ m_rows m = [(VNum 102, [VNum 1])]) /\
  (exists m, demo_run [f_sdev2] [VNum 102] = Ok m /\ m_rows m = [(VNum 102, [VNum 1])]) /\
  demo_run [f_sdev; f_sdev2] [VNum 102] = Err KeyError.
Proof. split; [|split]; [eexists; split; vm_compute; reflexivity | eexists; split; vm_compute; reflexivity | vm_compute; reflexivity]. Qed.

(** C07: a count and a renamed copy of it: pandas is given the function name "count" twice and rejects it (L653-675) *)
Definition p_count1 : prim := mkPrim "Count" 1 false false (VNum 0) true (fun _ => "") (fun bs rp _ wh pv => ("COUNT(" ++ rp ++ wh ++ pv ++ ")")%string)
  (fun _ _ => []) (fun _ cs => [VNum (Z.of_nat (List.length (hd [] cs)))]).
Definition f_count (nm : option string) : feat := FAgg p_count1 [FIdent "event" "id" None] demo_rels true None None nm.
Theorem C07_two_counts_refuted :
  (exists m, demo_run [f_count None] [VNum 1] = Ok m /\ m_rows m = [(VNum 1, [VNum 3])]) /\
  (exists m, demo_run [f_count (Some "events")] [VNum 1] = Ok m /\ m_rows m = [(VNum 1, [VNum 3])]) /\
  demo_run [f_count None; f_count (Some "events")] [VNum 1] = Err ValueError.
Proof. split; [|split]; [eexists; split; vm_compute; reflexivity | eexists; split; vm_compute; reflexivity | vm_compute; reflexivity]. Qed.

(** C07: TimeSincePrevious (standard/transform_primitive.py L62-97) compares a row with the one before it
    but does not ask for the full entity (no uses_full_entity): the row before it is the one before it
    among the requested instances *)
Definition p_since : prim := mkPrim "TimeSincePrevious" 1 false false VNull false (fun bs => ("TIME_SINCE_PREVIOUS(" ++ String.concat ", " bs ++ ")")%string) (fun _ _ _ _ _ => "")
  (fun _ cs => [map (fun xy => match fst xy, snd xy with VNum a, VNum b => VNum (b - a) | _, _ => VNull end) (combine (VNull :: hd [] cs) (hd [] cs))]) (fun _ _ => []).
Definition f_since : feat := FTrans p_since [FIdent "event" "t" None] None.
Theorem C07_time_since_previous_refuted :
  (exists m, demo_run [f_since] [VNum 103] = Ok m /\ m_rows m = [(VNum 103, [VNull])]) /\
  (exists m, demo_run [f_since] [VNum 102; VNum 103] = Ok m /\ m_rows m = [(VNum 102, [VNull]); (VNum 103, [VNum 1])]) /\
  (exists m, demo_run [f_since] [VNum 100; VNum 103] = Ok m /\ m_rows m = [(VNum 100, [VNull]); (VNum 103, [VNum 3])]) /\
  demo_sem f_since 103 = [VNum 1].
Proof. split; [|split; [|split]]; [eexists; split; vm_compute; reflexivity.. | vm_compute; reflexivity]. Qed.

(** C08: an unknown instance listed twice: an error when some other instance is known (reindex on
    duplicate labels, L145), two rows when none is *)
Theorem C08_duplicate_refuted :
  demo_run [f_sum] [VNum 1; VNum 9; VNum 9] = Err ValueError /\
  (exists m, demo_run [f_sum] [VNum 9; VNum 9] = Ok m /\ m_rows m = [(VNum 9, [VNum 0]); (VNum 9, [VNum 0])]) /\
  (exists m, demo_run [f_sum] [VNum 1; VNum 1] = Ok m /\ m_rows m = [(VNum 1, [VNum 24])]).
Proof. split; [|split]; [vm_compute; reflexivity | eexists; split; vm_compute; reflexivity..]. Qed.

(** C06, C08: when use_previous leaves no row at all, an aggregation of two inputs has no column: an
    error, or null instead of the default value if an instance is unknown *)
Definition td_short : tdelta := mkTd [("s", 0%Z)] (fun t => t) "0 Seconds".
Definition f_wprev : feat := FAgg p_wsum [f_amt; f_amt] demo_rels true None (Some td_short) None.
Theorem C06_empty_window_refuted :
  demo_sem f_wprev 1 = [VNum 0] /\ demo_run [f_wprev] [VNum 1] = Err KeyError /\
  exists m, demo_run [f_wprev] [VNum 1; VNum 9] = Ok m /\ m_rows m = [(VNum 1, [VNull]); (VNum 9, [VNum 0])].
Proof. split; [vm_compute; reflexivity|]. split; [vm_compute; reflexivity|]. eexists; split; vm_compute; reflexivity. Qed.

(** C06: renaming an identity feature makes its calculation fail (the assertion of L425-432 looks for the new name) *)
Theorem C06_renamed_identity_refuted :
  demo_sem (FIdent "event" "amt" (Some "amount")) 100 = [VNum 7] /\ demo_run [FIdent "event" "amt" (Some "amount")] [VNum 100] = Err AssertionError.
Proof. split; vm_compute; reflexivity. Qed.
