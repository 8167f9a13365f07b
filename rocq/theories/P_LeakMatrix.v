(** C01 for the whole of calculate_feature_matrix: many cutoff times, chunks and workers. *)
From Verif Require Import Base BaseFacts M_Schema S_Schema M_Trie M_Table M_Query S_Query L_Query S_View L_View
  M_Feature M_FeatureSet M_Calc S_Calc S_Group S_Sem S_Value L_CalcExt L_Frame P_Value P_ValueUse X_Demo P_Leak M_CFM S_CFM L_CFM P_CFM P_EndToEnd.

Lemma mapM_ext_in {A B} (f g : A -> res B) l : (forall a, In a l -> f a = g a) -> mapM f l = mapM g l.
Proof. induction l as [|a l IH]; intros H; [reflexivity|]. cbn [mapM]. rewrite (H a (or_introl eq_refl)), IH; [reflexivity|]. intros b Hb. apply H. right; exact Hb. Qed.
Lemma bind_ext {A B} (x : res A) (f g : A -> res B) : (forall a, x = Ok a -> f a = g a) -> bind x f = bind x g.
Proof. destruct x as [a|e]; intros H; [apply H; reflexivity | reflexivity]. Qed.

(** the times asked for *)
Definition asked (cut : cutoffs) (t : Z) : Prop :=
  match cut with CSingle t' _ => t = t' | CFrame cs => exists c, In c cs /\ c_time c = Some t end.

Section Ext.
  Context {P : Type}.
  Variables (calc1 calc2 : option P -> option window -> Z -> list val -> res matrix) (approx : list cutoff -> res P)
            (sort_ids : list val -> list val) (now : Z) (tw : option window) (pass : list string) (na : bool).

  Lemma calc_chunk_ext size cut : (forall t ids, asked cut t -> calc1 None tw t ids = calc2 None tw t ids) ->
    calc_chunk calc1 approx sort_ids now tw pass false na size cut = calc_chunk calc2 approx sort_ids now tw pass false na size cut.
  Proof.
    intros H. destruct cut as [t ids|cs]; cbn [calc_chunk]; [rewrite H by reflexivity; reflexivity|]. f_equal. apply mapM_ext_in. intros [t g] Hg. cbn [bind snd fst]. rewrite andb_false_r. cbn iota.
    apply bind_ext. intros inner Hi. f_equal. apply mapM_ext_in. intros [t' g'] Hg'. cbn [fst snd]. rewrite H; [reflexivity|].
    assert (exists g2, In (t', g2) (groupby_time c_time g)) as (g2 & Hg2).
    { destruct size as [n|]; [|injection Hi as <-; eauto]. unfold chunk_groups in Hi. destruct (Nat.eqb n 0 && _); [discriminate|]. injection Hi as <-.
      apply in_flat_map in Hg' as ([t2 g2] & H1 & H2). apply in_map_iff in H2 as (s & [= <- <-] & _). eauto. }
    assert (In t' (time_keys c_time g)) as Hk by (unfold groupby_time in Hg2; apply in_map_iff in Hg2 as (x & [= <- _] & Hx); exact Hx).
    apply time_keys_In in Hk as (c & Hc & Et). exists c. split; [|exact Et]. apply (groupby_time_of _ _ _ _ c Hg Hc).
  Qed.

  Lemma cfm_ext m size cut0 cut : fair m -> (forall t ids, asked cut t -> calc1 None tw t ids = calc2 None tw t ids) ->
    cfm calc1 approx sort_ids now tw pass m false na size cut0 cut = cfm calc2 approx sort_ids now tw pass m false na size cut0 cut.
  Proof.
    intros Hf H. unfold cfm. apply bind_ext. intros sz _. f_equal. destruct m as [|n arrive]; [apply calc_chunk_ext; exact H|]. unfold par_chunks. apply bind_ext. intros k _. apply bind_ext. intros chunks Hc.
    f_equal. apply mapM_ext_in. intros c Hin. apply calc_chunk_ext. intros t ids Ha. apply H.
    apply (Permutation_in c (Hf chunks)) in Hin. destruct cut as [t' ids'|cs].
    - unfold chunk_single in Hc. destruct (Nat.eqb k 0); [discriminate|]. injection Hc as <-. apply in_map_iff in Hin as (s & <- & _). exact Ha.
    - apply bind_Ok in Hc as (gs & Hg & [= <-]). apply in_map_iff in Hin as ([t2 g2] & <- & Hin). cbn [snd] in Ha. destruct Ha as (x & Hx & Et). exists x. split; [|exact Et].
      unfold chunk_groups in Hg. destruct (Nat.eqb k 0 && _) eqn:Ek; [discriminate|]. injection Hg as <-. apply in_flat_map in Hin as ([t3 g3] & H1 & H2). apply in_map_iff in H2 as (s & [= <- <-] & Hs). cbn [snd] in Hs.
      apply (groupby_time_of _ _ _ _ x H1). refine (proj2 (proj2 (slices_In k g3 s _ Hs)) x Hx). destruct k as [|k]; [|lia]. exfalso.
      cbn [Nat.eqb andb] in Ek. apply negb_false_iff, Nat.eqb_eq in Ek. destruct (groupby_time c_time cs); [destruct H1 | discriminate].
  Qed.
End Ext.

(** Two entity sets that agree on everything known at each requested cutoff time give the same feature matrix (or the same
    exception), whatever is stamped later, for every chunk size, number of workers and order of arrival. *)
Theorem C01_matrix es1 es2 idvars ord fs sort_ids now tw incl pass m na size cut :
  good_es es1 -> good_es es2 -> win_time tw -> fair m ->
  (forall t, asked cut t -> same_es_known t incl tw es1 es2) ->
  (forall f, In f fs -> wt (es_rels es1) f /\ ~ is_slice f /\ fentity f = match fs with f0 :: _ => fentity f0 | [] => ""%string end) ->
  cfm (calculator es1 idvars ord fs incl) (fun _ => Ok tt) sort_ids now tw pass m false na size cut cut =
  cfm (calculator es2 idvars ord fs incl) (fun _ => Ok tt) sort_ids now tw pass m false na size cut cut.
Proof.
  intros G1 G2 Hw Hf Hs Hfs. apply cfm_ext; [exact Hf|]. intros t ids Ha. exact (C01_no_leakage es1 es2 idvars ord fs no_appr no_pre t tw incl ids G1 G2 Hw (Hs t Ha) Hfs).
Qed.

(** ** one row *)
Section Row.
  Variables (es1 es2 : entityset) (T : Z) (tw : option window) (incl : bool).
  Hypothesis G1 : good_es es1.
  Hypothesis G2 : good_es es2.
  Hypothesis Hw : win_time tw.
  Hypothesis Hs : same_es_known T incl tw es1 es2.

  Lemma rows_at_same eid : rows_at es1 T tw incl eid = rows_at es2 T tw incl eid /\ index_of es1 eid = index_of es2 eid /\ time_of es1 eid = time_of es2 eid.
  Proof.
    unfold rows_at, index_of, time_of. destruct Hs as [_ Hx]. specialize (Hx eid).
    destruct (es_get es1 eid) as [e1|x1] eqn:E1, (es_get es2 eid) as [e2|x2] eqn:E2; try contradiction.
    - destruct Hx as [Hk Hl]. pose proof Hk as (_ & Hi & Ht & _). split; [|auto].
      destruct (es_get_id _ _ _ E1) as [_ I1]. destruct (es_get_id _ _ _ E2) as [_ I2].
      destruct (proj1 G1 e1 I1) as (W1 & Hind & Hnd & Hni & Hnt & _). destruct (proj1 G2 e2 I2) as (W2 & _).
      rewrite (query_same_known es1 es2 eid e1 e2); try assumption; [reflexivity|]. exact (proj1 (proj2 W1)).
    - split; [|auto]. unfold query_by_values. rewrite E1, E2. reflexivity.
  Qed.

  Lemma owner_same path c : owner es1 T tw incl path c = owner es2 T tw incl path c.
  Proof.
    induction path as [|r path IH]; [reflexivity|]. cbn [owner]. destruct path as [|r' path]; [reflexivity|]. cbn [owner] in IH |- *.
    rewrite (proj1 (rows_at_same (r_ce r))), IH. reflexivity.
  Qed.

  Lemma sem_same : forall f r, sem es1 T tw incl f r = sem es2 T tw incl f r.
  Proof.
    intros f. remember (fsize f) as n eqn:En. revert f En. induction n as [n IH] using lt_wf_ind. intros f -> r.
    assert (forall d, In d (fdeps f) -> forall r', sem es1 T tw incl d r' = sem es2 T tw incl d r') as Hd by (intros d Hd r'; eapply IH; [apply L_FeatureSet.fsize_dep; exact Hd | reflexivity]).
    clear IH. destruct f as [e v nm|rel b nm|p bs path u wh prev nm|p bs nm|p bs g nm|b k nm]; cbn [sem].
    - reflexivity.
    - rewrite (proj1 (rows_at_same (r_pe rel))). destruct (row_with _ _ _) as [pr|]; [|reflexivity]. rewrite Hd by (cbn; auto). reflexivity.
    - set (ce := match bs with b :: _ => fentity b | [] => ""%string end). destruct (rows_at_same ce) as (-> & _ & ->). rewrite (proj1 (proj2 (rows_at_same (fentity (FAgg p bs path u wh prev nm))))).
      assert (forall rs, map (fun b => map (fun c => hd VNull (sem es1 T tw incl b c)) rs) bs = map (fun b => map (fun c => hd VNull (sem es2 T tw incl b c)) rs) bs) as Hb.
      { intros rs. apply map_ext_in. intros b Hb. apply map_ext. intros c. rewrite Hd; [reflexivity|]. cbn. apply in_or_app. left; exact Hb. }
      set (mine1 := filter _ (rows_at es2 T tw incl ce)). 
      assert (mine1 = filter (fun c => val_eqb (owner es2 T tw incl path c) (cell (index_of es2 (fentity (FAgg p bs path u wh prev nm))) r)) (rows_at es2 T tw incl ce)) as -> by (apply filter_ext; intros c; rewrite owner_same; reflexivity).
      destruct wh as [w|].
      + rewrite (filter_ext (fun c => match hd VNull (sem es1 T tw incl w c) with VBool b => b | _ => false end) (fun c => match hd VNull (sem es2 T tw incl w c) with VBool b => b | _ => false end)) by (intros c; rewrite Hd; [reflexivity | cbn; apply in_or_app; right; left; reflexivity]).
        destruct (previous _ _ _ _) as [|r0 rs]; [reflexivity|]. rewrite Hb. reflexivity.
      + destruct (previous _ _ _ _) as [|r0 rs]; [reflexivity|]. rewrite Hb. reflexivity.
    - destruct (rows_at_same (fentity (FTrans p bs nm))) as (-> & -> & _). f_equal. f_equal. apply map_ext_in. intros b Hb. apply map_ext. intros c. rewrite Hd; [reflexivity|]. cbn. rewrite app_nil_r. exact Hb.
    - rewrite (Hd g) by (cbn; rewrite app_nil_r; apply in_or_app; right; left; reflexivity). destruct (is_null _); [reflexivity|].
      destruct (rows_at_same (fentity (FGroup p bs g nm))) as (-> & -> & _).
      rewrite (filter_ext (fun r' => val_eqb (hd VNull (sem es1 T tw incl g r')) (hd VNull (sem es2 T tw incl g r))) (fun r' => val_eqb (hd VNull (sem es2 T tw incl g r')) (hd VNull (sem es2 T tw incl g r)))) by (intros c; rewrite (Hd g) by (cbn; rewrite app_nil_r; apply in_or_app; right; left; reflexivity); reflexivity).
      f_equal. f_equal. apply map_ext_in. intros b Hb. apply map_ext. intros c. rewrite Hd; [reflexivity|]. cbn. rewrite app_nil_r. apply in_or_app. left; exact Hb.
    - rewrite Hd by (cbn; auto). reflexivity.
  Qed.

  (** the meaning of a feature at a time depends only on what is known then *)
  Theorem C01_meaning f i : value_of es1 T tw incl f i = value_of es2 T tw incl f i.
  Proof.
    unfold value_of. destruct (rows_at_same (fentity f)) as (-> & -> & _). destruct (row_with _ _ _) as [r|]; [apply sem_same | reflexivity].
  Qed.
End Row.

(** The row of one (instance, time) pair depends only on what is known at that time, even if the entity sets differ at the
    times of other rows of the same matrix. *)
Theorem C01_rows_partial es1 es2 idvars ord fs eid sort_ids now tw incl pass m1 m2 na size1 size2 cs1 cs2 fm1 fm2 :
  valid_request es1 idvars ord tw fs eid -> valid_request es2 idvars ord tw fs eid -> no_silent_default fs -> (forall l, Permutation (sort_ids l) l) ->
  fair m1 -> fair m2 -> (forall n a, m1 = Workers n a -> 0 < n) -> (forall n a, m2 = Workers n a -> 0 < n) ->
  (forall num den, size1 = Some (num, den) -> (0 < den)%Z) -> (forall num den, size2 = Some (num, den) -> (0 < den)%Z) ->
  NoDup (map (fun c => (c_id c, c_time c)) cs1) -> NoDup (map (fun c => (c_id c, c_time c)) cs2) ->
  cfm (calculator es1 idvars ord fs incl) (fun _ => Ok tt) sort_ids now tw pass m1 false na size1 (CFrame cs1) (CFrame cs1) = Ok fm1 ->
  cfm (calculator es2 idvars ord fs incl) (fun _ => Ok tt) sort_ids now tw pass m2 false na size2 (CFrame cs2) (CFrame cs2) = Ok fm2 ->
  forall i t r1 r2 f n, same_es_known t incl tw es1 es2 -> In ((i, Some t), r1) fm1 -> In ((i, Some t), r2) fm2 ->
    In f fs -> In n (fnames (es_rels es1) f) -> ~ In n pass -> cell n r1 = cell n r2.
Proof.
  intros V1 V2 Hd Hso F1 F2 W1 W2 S1 S2 D1 D2 R1 R2 i t r1 r2 f n Hs I1 I2 Hf Hn Hp. apply In_nth_error in Hn as (j & Hj).
  pose proof (C59_matrix_partial es1 idvars ord tw incl fs eid sort_ids now pass V1 Hd Hso m1 na size1 cs1 fm1 F1 W1 S1 D1 R1) as A1.
  pose proof (C59_matrix_partial es2 idvars ord tw incl fs eid sort_ids now pass V2 Hd Hso m2 na size2 cs2 fm2 F2 W2 S2 D2 R2) as A2.
  destruct (Forall2_In_r _ _ _ _ A1 I1) as (c1 & _ & E1 & B1). destruct (Forall2_In_r _ _ _ _ A2 I2) as (c2 & _ & E2 & B2). cbn [fst snd] in *.
  injection E1 as Ei1 Et1. injection E2 as Ei2 Et2. rewrite <- Et1 in B1. rewrite <- Et2 in B2.
  pose proof (proj1 B1 f j n Hf Hj Hp) as X1. rewrite <- (proj1 Hs) in B2. pose proof (proj1 B2 f j n Hf Hj Hp) as X2.
  rewrite <- Ei1 in X1. rewrite <- Ei2 in X2. rewrite (C01_meaning es1 es2 t tw incl (vr_es _ _ _ _ _ _ V1) (vr_es _ _ _ _ _ _ V2) (vr_window _ _ _ _ _ _ V1) Hs) in X1. congruence.
Qed.

(** ** the hypotheses are met *)
Lemma valid_request_data es es' idvars ord tw fs eid : valid_request es idvars ord tw fs eid -> es_rels es' = es_rels es ->
  (forall x e', es_get es' x = Ok e' -> exists e, es_get es x = Ok e /\ cols (e_df e) = cols (e_df e')) ->
  good_es es' -> index_present es' -> good_idvars es' idvars -> valid_request es' idvars ord tw fs eid.
Proof.
  intros [H1 H2 H3 H4 H5 H6 H7 H8] Er Hc G Ip Iv. constructor; try assumption; [rewrite Er; exact H6 | | rewrite Er; exact H8].
  destruct H7 as [A1 A2 A3 A4 A5 A6]. constructor; rewrite ?Er; try assumption.
  - intros f e' n Hf He Hn Hin. destruct (Hc _ _ He) as (e & He' & Ec). rewrite <- Ec in Hin. exact (A3 f e n Hf He' Hn Hin).
  - intros x c Hl. destruct (A6 x c Hl) as [B1 B2]. split; [|exact B2]. intros e' He. destruct (Hc _ _ He) as (e & He' & Ec). rewrite <- Ec. exact (B1 e He').
Qed.
Definition late_es : entityset := demo_es [demo_event 104 10 8 1000].
Lemma late_request : valid_request late_es demo_idvars (fun l => l) None demo_fs3 "cust"%string.
Proof.
  apply (valid_request_data (demo_es [])); [exact (proj1 C59_nonvacuous) | reflexivity | | | |].
  - intros x e'. unfold es_get, late_es, demo_es. cbn [es_ents find e_id]. destruct (String.eqb "cust" x); [intros [= <-]; eexists; split; reflexivity|].
    destruct (String.eqb "sess" x); [intros [= <-]; eexists; split; reflexivity|]. destruct (String.eqb "event" x); [intros [= <-]; eexists; split; reflexivity | discriminate].
  - apply demo_good; [intros r [<-|[]]; reflexivity | cbn; nodup_tac].
  - intros e r He Hr. cbn in He. in_cases He; cbn in Hr; in_cases Hr; discriminate.
  - intros e He. cbn in He. in_cases He; cbn [e_id e_df e_index e_time cols demo_idvars String.eqb Ascii.eqb Bool.eqb].
    + split; [intros c Hc; cbn in *; tauto|]. split; [cbn; tauto|]. split; [discriminate|]. intros r Hr E. cbn in Hr. in_cases Hr; cbn in E; discriminate E.
    + split; [intros c Hc; cbn in *; tauto|]. split; [cbn; tauto|]. split; [intros ti [= <-]; cbn; tauto|]. intros r Hr E. cbn in Hr. in_cases Hr; cbn in E; try discriminate E; cbn; tauto.
    + split; [intros c Hc; cbn in *; tauto|]. split; [cbn; tauto|]. split; [intros ti [= <-]; cbn; tauto|]. intros r Hr E. cbn in Hr. in_cases Hr; cbn in E; try discriminate E; cbn; tauto.
Qed.
Definition two_times : list cutoff := [mkCutoff (VNum 1) (Some 8%Z) None []; mkCutoff (VNum 1) (Some 7%Z) None []].
(** the two entity sets differ at time 8 and agree at time 7; so do the matrices *)
Example C01_rows_nonvacuous :
  valid_request (demo_es []) demo_idvars (fun l => l) None demo_fs3 "cust"%string /\ valid_request late_es demo_idvars (fun l => l) None demo_fs3 "cust"%string /\
  no_silent_default demo_fs3 /\ same_es_known 7 true None (demo_es []) late_es /\
  let cfm es := cfm (calculator es demo_idvars (fun l => l) demo_fs3 true) (fun _ => Ok tt) (fun l => l) 0 None [] Sequential false false None (CFrame two_times) (CFrame two_times) in
  exists r8 r8' r7, cfm (demo_es []) = Ok [((VNum 1, Some 8%Z), r8); ((VNum 1, Some 7%Z), r7)] /\ cfm late_es = Ok [((VNum 1, Some 8%Z), r8'); ((VNum 1, Some 7%Z), r7)] /\
    cell "SUM(event.amt)"%string r8 = VNum 24 /\ cell "SUM(event.amt)"%string r8' = VNum 1024 /\ cell "SUM(event.amt)"%string r7 = VNum 24.
Proof.
  split; [exact (proj1 C59_nonvacuous)|]. split; [exact late_request|]. split; [exact (proj1 (proj2 C59_nonvacuous))|]. split.
  - split; [reflexivity|]. intros eid. unfold es_get, late_es, demo_es. cbn [es_ents find e_id].
    destruct (String.eqb "cust" eid); [|destruct (String.eqb "sess" eid); [|destruct (String.eqb "event" eid); [|reflexivity]]].
    + split; [|left; reflexivity]. repeat split. cbn [rows e_df].
      repeat (apply sr_both; [intros ti; discriminate|intros ti; discriminate|split; [reflexivity|intros c _; split; [reflexivity|reflexivity]]|]). constructor.
    + split; [|left; reflexivity]. repeat split. cbn [rows e_df].
      repeat (apply sr_both; [intros ti [= <-]; eexists; split; [reflexivity|lia]|intros ti [= <-]; eexists; split; [reflexivity|lia]|split; [reflexivity|intros c _; split; [reflexivity|reflexivity]]|]). constructor.
    + split; [|left; reflexivity]. repeat split. cbn [rows e_df app].
      do 3 (apply sr_both; [intros ti [= <-]; eexists; split; [reflexivity|lia]|intros ti [= <-]; eexists; split; [reflexivity|lia]|split; [reflexivity|intros c _; split; [reflexivity|reflexivity]]|]).
      apply sr_left; [|apply sr_right; [|apply sr_right; [|apply sr_nil]]]; intros H; destruct (H "t"%string eq_refl) as (t & Ht & Hle); cbn in Ht; injection Ht as <-; lia.
  - eexists. eexists. eexists. split; [vm_compute; reflexivity|]. split; [vm_compute; reflexivity|]. split; [reflexivity|]. split; reflexivity.
Qed.

Print Assumptions C01_matrix.
Print Assumptions C01_meaning.
Print Assumptions C01_rows_partial.
