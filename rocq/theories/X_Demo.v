(** A concrete entity set and concrete features, used by the examples that show hypotheses are met. *)
From Verif Require Import Base M_Schema M_Table M_Query S_Schema S_Query S_View M_Feature M_FeatureSet M_Calc S_Calc M_Trie.

Definition demo_cust (i a : Z) : row := [("id", VNum i); ("age", VNum a)]%string.
Definition demo_sess (i c t d : Z) : row := [("id", VNum i); ("cid", VNum c); ("t", VNum t); ("dev", VNum d)]%string.
Definition demo_event (i s t a : Z) : row := [("id", VNum i); ("sid", VNum s); ("t", VNum t); ("amt", VNum a)]%string.

Definition demo_rels : list relationship := [mkRel "cust" "id" "sess" "cid"; mkRel "sess" "id" "event" "sid"]%string.

(** customers, their sessions, the events of the sessions; [extra] events come at the end *)
Definition demo_es (extra : list row) : entityset :=
  mkES [mkEntity "cust" "id" None [] None (mkDf ["id"; "age"] [demo_cust 1 30; demo_cust 2 40; demo_cust 3 50]);
        mkEntity "sess" "id" (Some "t") [] None
          (mkDf ["id"; "cid"; "t"; "dev"] [demo_sess 10 1 5 0; demo_sess 11 1 6 1; demo_sess 12 2 7 0]);
        mkEntity "event" "id" (Some "t") [] None
          (mkDf ["id"; "sid"; "t"; "amt"]
             ([demo_event 100 10 5 7; demo_event 101 10 6 8; demo_event 102 11 7 9; demo_event 103 12 8 4] ++ extra))]%string
       demo_rels.

Definition demo_idvars (e : string) : list string :=
  if String.eqb e "cust" then ["id"]%string
  else if String.eqb e "sess" then ["id"; "cid"; "t"]%string else ["id"; "sid"; "t"]%string.

Definition num (v : val) : Z := match v with VNum z => z | _ => 0%Z end.
Definition sum_vals (l : list val) : val := VNum (fold_right Z.add 0%Z (map num l)).

(** Sum: a single input, a single output *)
Definition p_sum : prim := mkPrim "Sum" 1 false false (VNum 0) false
  (fun _ => ""%string)
  (fun bs rp _ wh pv => ("SUM(" ++ rp ++ "." ++ String.concat ", " bs ++ wh ++ pv ++ ")")%string)
  (fun _ _ => []) (fun _ cs => [sum_vals (hd [] cs)]).
(** a weighted sum of two inputs *)
Definition p_wsum : prim := mkPrim "WSum" 1 false false (VNum 0) false
  (fun _ => ""%string)
  (fun bs rp _ wh pv => ("WSUM(" ++ rp ++ "." ++ String.concat ", " bs ++ wh ++ pv ++ ")")%string)
  (fun _ _ => []) (fun _ cs => [VNum (fold_right Z.add 0%Z (map (fun xy => num (fst xy) * num (snd xy))%Z
                                         (combine (nth 0 cs []) (nth 1 cs []))))]).
(** the absolute value, row by row *)
Definition p_abs : prim := mkPrim "Absolute" 1 false false VNull false
  (fun bs => ("ABSOLUTE(" ++ String.concat ", " bs ++ ")")%string) (fun _ _ _ _ _ => ""%string)
  (fun _ cs => [map (fun v => VNum (Z.abs (num v))) (hd [] cs)]) (fun _ _ => []).
(** a running sum over the whole entity *)
Definition p_cumsum : prim := mkPrim "CumSum" 1 true false VNull false
  (fun bs => ("CUM_SUM(" ++ String.concat ", " bs ++ ")")%string) (fun _ _ _ _ _ => ""%string)
  (fun _ cs => [map (fun n => sum_vals (firstn (S n) (hd [] cs))) (seq 0 (List.length (hd [] cs)))]) (fun _ _ => []).

Definition f_amt : feat := FIdent "event" "amt" None.
Definition f_esid : feat := FIdent "event" "sid" None.
Definition f_cum : feat := FTrans p_cumsum [f_amt] None.
Definition f_cumby : feat := FGroup p_cumsum [f_amt] f_esid None.
Definition f_dev : feat := FDirect (mkRel "sess" "id" "event" "sid") (FIdent "sess" "dev" None) None.
Definition f_sum : feat := FAgg p_sum [f_amt] demo_rels true None None None.
Definition f_wsum : feat := FAgg p_wsum [f_cum; f_dev] demo_rels true None None None.
Definition f_sumby : feat := FAgg p_sum [f_cumby] [mkRel "cust" "id" "sess" "cid"; mkRel "sess" "id" "event" "sid"]%string true None None None.
Definition f_abs : feat := FTrans p_abs [f_sum] None.

Definition demo_fs : list feat := [f_sum; f_wsum; f_abs; f_sumby].

Definition no_appr : atrie := TNode [] [].
Definition no_pre : trie edge (option df) := TNode None [].

Ltac nodup_tac := repeat (constructor; [cbn; intuition discriminate|]); constructor.
Ltac in_cases H := repeat (destruct H as [<- | H]); try destruct H.

Lemma good_entity_simple rels e :
  e_sec e = [] -> NoDup (cols (e_df e)) -> (forall r, In r (rows (e_df e)) -> map fst r = cols (e_df e)) ->
  In (e_index e) (cols (e_df e)) -> (forall t, e_time e = Some t -> In t (cols (e_df e))) ->
  NoDup (map (cell (e_index e)) (rows (e_df e))) ->
  (forall r, In r rels -> r_ce r = e_id e -> In (r_cv r) (cols (e_df e))) ->
  (forall r, In r rels -> r_pe r = e_id e -> r_pv r = e_index e) ->
  good_entity rels e.
Proof.
  intros Hs H1 H2 H3 H4 H5 H6 H7. unfold good_entity, wf_entity, wf_df, independent_secondaries, never_hidden.
  rewrite Hs. repeat split; auto; try (intros; contradiction); try constructor.
  all: try (match goal with H : In _ [] |- _ => destruct H end).
  all: intros s cs []. 
Qed.

Lemma demo_good extra :
  (forall r, In r extra -> map fst r = ["id"; "sid"; "t"; "amt"]%string) ->
  NoDup (map (cell "id"%string) ([demo_event 100 10 5 7; demo_event 101 10 6 8; demo_event 102 11 7 9; demo_event 103 12 8 4] ++ extra)) ->
  good_es (demo_es extra).
Proof.
  intros Hx Hn. split.
  - intros e He. unfold demo_es in He. cbn [es_ents] in He.
    destruct He as [<-|[<-|[<-|[]]]]; apply good_entity_simple; cbn [e_df e_sec e_index e_time cols e_id rows es_rels demo_es]; try reflexivity; try (cbn; tauto).
    all: try (intros ? [= <-]; cbn; tauto); try discriminate; try exact Hn.
    all: try match goal with |- forall r, In r demo_rels -> _ => intros r Hr; cbn in Hr; in_cases Hr; cbn; intros E; try discriminate E; tauto end.
    all: try (intros r Hr; apply in_app_iff in Hr as [Hr|Hr]; [cbn in Hr; in_cases Hr; reflexivity | apply Hx; exact Hr]).
    all: try (intros r Hr; cbn in Hr; in_cases Hr; reflexivity).
    all: nodup_tac.
  - intros r Hr. cbn in Hr. in_cases Hr; split; eexists; reflexivity.
Qed.

Lemma demo_wt f : In f demo_fs -> wt demo_rels f /\ ~ is_slice f /\ fentity f = "cust"%string.
Proof.
  assert (wt demo_rels f_cum) as Hcum by (apply wt_trans with "event"%string; [discriminate | intros b [<-|[]]; constructor | intros b [<-|[]]; split; reflexivity]).
  assert (wt demo_rels f_cumby) as Hcumby by (apply wt_group; [discriminate | constructor | reflexivity | intros b [<-|[]]; constructor | intros b [<-|[]]; split; reflexivity]).
  assert (wt demo_rels f_dev) as Hdev by (constructor; [cbn; auto | constructor | reflexivity]).
  assert (forall p bs prev, bs <> [] -> (forall b, In b bs -> wt demo_rels b /\ fentity b = "event"%string /\ fnout b = 1) ->
            wt demo_rels (FAgg p bs demo_rels true None prev None)) as Hagg.
  { intros p bs prev Hne Hb. apply wt_agg with "event"%string; try discriminate; try (intros b Hin; apply Hb; exact Hin); [exact Hne|].
    unfold backward_chain, demo_rels at 2 3.
    apply (chain_cons r_pe r_ce demo_rels (mkRel "cust" "id" "sess" "cid") _ "event"); [left; reflexivity|].
    apply (chain_cons r_pe r_ce demo_rels (mkRel "sess" "id" "event" "sid") _ "event"); [right; left; reflexivity|]. apply chain_nil. }
  assert (wt demo_rels f_sum) as Hsum by (apply Hagg; [discriminate | intros b [<-|[]]; split; [constructor | split; reflexivity]]).
  intros [<-|[<-|[<-|[<-|[]]]]]; (split; [|split; [intros [] | reflexivity]]).
  - exact Hsum.
  - apply Hagg; [discriminate | intros b [<-|[<-|[]]]; (split; [assumption | split; reflexivity])].
  - apply wt_trans with "cust"%string; [discriminate | intros b [<-|[]]; exact Hsum | intros b [<-|[]]; split; reflexivity].
  - apply Hagg; [discriminate | intros b [<-|[]]; split; [exact Hcumby | split; reflexivity]].
Qed.
