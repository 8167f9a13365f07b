(** C63: a valid request is answered: the calculation does not fail. *)
From Verif Require Import Base BaseFacts M_Schema S_Schema M_Trie M_Table M_Query S_Query L_Query S_View L_View
  M_Feature M_FeatureSet M_Calc S_Calc S_Group S_Plan S_Sem S_Approx S_Value S_Total L_Trie L_Frame L_FeatureSet L_Plan L_Group P_Select L_Schema
  P_Serialize L_Value1 L_Value2 L_Value3 L_Value4 L_Value5 L_Value6 L_Value7 X_Demo P_Group M_Time M_CFM M_Approx L_Gather L_Total1 L_Total2 L_Total3 P_Value P_ValueUse.

Section Answered.
  Variables (es : entityset) (idvars : string -> list string) (ord : list string -> list string) (T : Z) (tw : option window) (incl : bool) (fs : list feat).
  Notation rels := (es_rels es).
  Notation R := (rows_at es T tw incl).

  Lemma entity_exists f : good_es es -> wt rels f -> (forall eid v nm, reaches f (FIdent eid v nm) -> exists e, es_get es eid = Ok e) -> exists e, es_get es (fentity f) = Ok e.
  Proof.
    intros Hes W. induction W as [e v nm|r b nm Hr Hb IHb Eb|p bs path u wh prev nm ce Hbs Hp Hch Hb IHb Eb Hw IHw Ew|p bs nm e Hbs Hb IHb Eb|p bs g nm Hbs Hg IHg Hng Hb IHb Eb|b n nm Hb IHb Hn H1]; intros H.
    - exact (H e v nm (reaches_refl _)).
    - apply child_get; assumption.
    - destruct path as [|r path]; [congruence|]. apply chain_cons_inv in Hch as (_ & Hr & _). cbn [fentity]. apply parent_get; assumption.
    - destruct bs as [|b bs]; [congruence|]. cbn [fentity]. apply (IHb b (or_introl eq_refl)). intros eid v nm' Hx. apply (H eid v nm'). eapply reaches_dep; [left; reflexivity | exact Hx].
    - destruct bs as [|b bs]; [congruence|]. cbn [fentity]. apply (IHb b (or_introl eq_refl)). intros eid v nm' Hx. apply (H eid v nm'). eapply reaches_dep; [left; reflexivity | exact Hx].
    - cbn [fentity]. apply IHb. intros eid v nm' Hx. apply (H eid v nm'). eapply reaches_dep; [left; reflexivity | exact Hx].
  Qed.

  Lemma apx_none p n : ~ apx no_appr p n.
  Proof. unfold apx, no_appr. destruct p as [|k p]; cbn [get_node children dget tvalue]; [intros []|]. change (@TNode edge (list string) [] []) with (@trie_new edge (list string) []). rewrite get_node_new. intros []. Qed.

  Lemma build_plan_deps : clear_names es fs -> (forall f, needed fs f -> wt rels f) -> (forall f, In f fs -> ~ is_slice f) ->
    plan_deps es fs (build_feature_trie rels fs no_appr).
  Proof.
    intros Hcn Hwt Hns p f C. pose proof (plan_exact rels fs no_appr p) as Hp. pose proof (plan_exact rels fs no_appr (p ++ fpath f)) as Hq.
    destruct (V (build_feature_trie rels fs no_appr) p) as [[full ff] nf]. destruct (V (build_feature_trie rels fs no_appr) (p ++ fpath f)) as [[full' ff'] nf'].
    destruct Hp as (P1 & P2 & _). destruct Hq as (Q1 & Q2 & _). cbn [nff nnf fst snd].
    assert (forall b g, planned rels (apx no_appr) fs p b g -> funique rels f = funique rels g -> planned rels (apx no_appr) fs p b f) as Heq.
    { intros b g Hg E. pose proof (planned_calculated es fs Hwt Hns no_appr _ _ _ Hg) as Cg. replace f with g; [exact Hg|]. symmetry. apply (cn_unique es fs Hcn); [apply C | apply Cg | exact E]. }
    split; [|split].
    - intros Hin d Hd. apply P1 in Hin as (g & Hg & E). apply Q1. exists (unslice d). split; [|reflexivity].
      exact (planned_dep rels (apx no_appr) fs p true f d (Heq _ _ Hg E) Hd (apx_none _ _)).
    - intros Hin d Hd. apply P2 in Hin as [(g & Hg & E) _]. pose proof (planned_dep rels (apx no_appr) fs p false f d (Heq _ _ Hg E) Hd (apx_none _ _)) as Hx. cbn [orb] in Hx.
      apply in_app_iff. destruct (in_dec string_dec (funique rels (unslice d)) ff') as [Hi|Hi]; [left; exact Hi|]. right. apply Q2.
      destruct (uses_full (unslice d)); [exfalso; apply Hi, Q1; eauto|]. split; [eauto|]. intros Hy. apply Hi, Q1. exact Hy.
    - intros H1 H2. apply P2 in H2 as [_ H2]. apply H2, P1. exact H1.
  Qed.

  (** Every valid request ([valid_request], the conditions of C06) that is [runnable] (S_Total.v: the variables read exist,
      transforms return a value per row, conditions are true or false on every row ...) is answered with a matrix. *)
  Theorem C63_answered_partial eid ids : valid_request es idvars ord tw fs eid -> runnable es T tw incl fs ->
    fs <> [] -> ids <> [] -> NoDup ids ->
    exists m, run es idvars ord fs no_appr no_pre T tw incl ids = Ok m.
  Proof.
    intros Hv Hrn Hfne Hine Hnd. pose proof (request_wt es idvars ord tw fs eid Hv) as Hwt. destruct Hv as [Hes Hip Hiv Hw Hord Hfs Hcn Hpf].
    unfold run. destruct fs as [|f0 fs'] eqn:Efs; [congruence|]. rewrite <- Efs in *. destruct ids as [|i0 ids'] eqn:Ei; [congruence|]. rewrite <- Ei in *. cbv zeta.
    assert (In f0 fs) as Hf0 by (rewrite Efs; left; reflexivity). assert (fentity f0 = eid) as E0 by (apply Hfs; exact Hf0).
    destruct (entity_exists f0 Hes) as (e & He); [apply (Hfs f0 Hf0)| |].
    { intros eid' v nm Hr. destruct (rn_variables es T tw incl fs Hrn eid' v nm) as (e & He & _); [exists f0; auto | eauto]. }
    rewrite E0 in He |- *. rewrite He. cbn [bind]. pose proof (index_of_eq es eid e He) as Eidx.
    assert (forall f, In f fs -> ~ is_slice f) as Hns by (intros f Hf; apply (Hfs f Hf)).
    assert (typed rels (node_names rels (calculated fs)) eid (build_feature_trie rels fs no_appr)) as Hty.
    { apply build_typed.
      - intros f d C Hd. eapply calculated_dep; eassumption.
      - intros f [N S]. split; [apply Hwt; exact N | exact S].
      - intros f Hf. split; [split; [apply needed_self; exact Hf | apply (Hfs f Hf)] | apply (Hfs f Hf)]. }
    assert (plan_ok es (fun _ => None) fs (build_feature_trie rels fs no_appr)) as Hpo by (apply build_plan_ok; auto).
    destruct (calc_node_total es idvars T tw incl fs Hes Hip Hiv Hw Hcn Hwt Hpf Hrn (features_by_name rels fs) ord (by_name_sound rels fs)) with
      (ft := build_feature_trie rels fs no_appr) (eid := eid) (L := @nil (relationship * list row)) (fvar := e_index e) (fvals := ids) (parent := @None (relationship * list string * df)) as (tr & Htr & Hc).
    { intros f N. apply by_name_complete; [|exact N]. exact (cn_unique es fs Hcn). }
    { exact Hord. } { exact Hty. } { apply build_twf. } { exact Hpo. } { apply build_plan_deps; assumption. } { apply lvl_nil. } { reflexivity. } { exact I. }
    { left; symmetry; exact Eidx. } { left; symmetry; exact Eidx. } { exists e; exact He. }
    change (trie_new None) with no_pre in Htr. rewrite Htr. cbn [bind].
    assert (good es T tw incl (fun _ => None) fs eid [] (inb (e_index e) ids) (build_feature_trie rels fs no_appr) tr) as Hg.
    { eapply (calc_node_good es idvars T tw incl (fun _ => None) fs Hes Hip Hiv Hw Hcn (fun f g E => match E : None = Some g with end) Hwt Hpf (fun f g r _ E => match E : None = Some g with end) (features_by_name rels fs) ord (by_name_sound rels fs) Hord) with (parent := None);
        [exact Hty | apply build_twf | exact Hpo | apply lvl_nil | reflexivity | left; symmetry; exact Eidx | left; symmetry; exact Eidx | apply pre_ok_nothing | exact Htr]. }
    pose proof (plan_exact rels fs no_appr []) as Hplan. destruct (build_feature_trie rels fs no_appr) as [[[full ff] nf] ch] eqn:Eft. destruct tr as [[o3 o5] subs].
    apply complete_unfold in Hc as (_ & (d & F & -> & Hh & HF) & _). apply good_unfold in Hg as (_ & _ & (d' & E' & Hs & _) & _). injection E' as <-. cbn [tvalue snd].
    set (rs := filter (inb (e_index e) ids) (R eid)) in *. destruct Hs as [_ Hs]. destruct (rows d) as [|x0 xs] eqn:Ex; [eexists; reflexivity|]. rewrite <- Ex in *. clear Ex x0 xs.
    set (missing := filter (fun i => negb (mem_val i (map (cell (e_index e)) (rows d)))) ids).
    set (labelled := map (fun i => (i, default_row rels fs)) missing ++ map (fun r => (cell (e_index e) r, r)) (rows d)).
    assert (In (index_of es eid) (cols d)) as Hix by (apply (hc_vars _ _ _ _ _ _ _ Hh); eapply index_idvars; eassumption).
    assert (map (cell (e_index e)) (rows d) = map (cell (e_index e)) rs) as Ecol.
    { rewrite Eidx in Hix. clear -Hs Hes Hcn He Hix. induction Hs as [|x c l l' Hxc Hl IH]; [reflexivity|]. cbn [map]. f_equal; [|exact IH].
      eapply (sr_raw es T tw incl (fun _ => None) fs Hes Hcn); [discriminate | apply lvl_nil | exact He | exact Hxc | exact Hix|]. destruct (ent_good es Hes eid e He) as (Hwf & _). exact (proj1 (proj2 Hwf)). }
    assert (NoDup (map fst labelled)) as Hlab.
    { unfold labelled. rewrite map_app, !map_map. cbn [fst]. rewrite map_id. apply NoDup_app'.
      - apply NoDup_filter. exact Hnd.
      - change (NoDup (map (cell (e_index e)) (rows d))). rewrite Ecol. apply NoDup_map_filter. rewrite <- Eidx. apply R_NoDup; assumption.
      - intros i Hi Hj. apply filter_In in Hi as [_ Hi]. apply negb_true_iff in Hi. change (In i (map (cell (e_index e)) (rows d))) in Hj. rewrite (proj2 (mem_val_In _ _) Hj) in Hi. discriminate. }
    replace (Nat.eqb (List.length (dedup_by val_eqb [] (map fst labelled))) (List.length labelled)) with true.
    2:{ symmetry. apply Nat.eqb_eq. rewrite <- (map_length fst labelled). f_equal. apply (dedup_NoDup_id val_eqb val_eqb_spec); [exact Hlab | intros a _ []]. }
    destruct (mapM_total (fun n => if mem_str n (cols d) || (negb (Nat.eqb (List.length missing) 0) && mem_str n (flat_map (fnames rels) fs)) then Ok tt else Err KeyError) (flat_map (fnames rels) fs)) as (us & Hus).
    { intros n Hn. apply in_flat_map in Hn as (f & Hf & Hn). replace (mem_str n (cols d)) with true; [eexists; reflexivity|]. symmetry. apply mem_str_In.
      apply (hc_feats _ _ _ _ _ _ _ Hh f); [split; [apply needed_self; exact Hf | apply Hns; exact Hf] | apply (Hfs f Hf) | | exact Hn]. apply HF.
      change (V (TNode (full, ff, nf) ch) []) with ((full, ff, nf) : fnode) in Hplan. cbn iota in Hplan. destruct Hplan as (H1 & H2 & _).
      assert (planned rels (apx no_appr) fs [] (uses_full f) f) as Hp by (apply planned_target; [exact Hf | apply apx_none]).
      apply in_app_iff. destruct (in_dec string_dec (funique rels f) ff) as [Hin|Hin]; [left; exact Hin|]. right. apply H2. destruct (uses_full f); [exfalso; apply Hin, H1; exists f; auto|].
      split; [exists f; auto|]. intros Hx. apply Hin, H1. exact Hx. }
    rewrite Hus. cbn [bind]. eexists. reflexivity.
  Qed.
End Answered.

(** The answer is then the meaning of the features: total correctness of one calculation. *)
Theorem C63_correct_partial es idvars ord T tw incl fs eid ids : valid_request es idvars ord tw fs eid -> runnable es T tw incl fs ->
  fs <> [] -> ids <> [] -> NoDup ids ->
  (forall f, In f fs -> single_column f \/ fdefault f = VNull \/
     exists i r, In i ids /\ In r (rows_at es T tw incl eid) /\ cell (index_of es eid) r = i /\ sem es T tw incl f r <> repeat (fdefault f) (fnout f)) ->
  run es idvars ord fs no_appr no_pre T tw incl ids =
    Ok (mkMatrix (flat_map (fnames (es_rels es)) fs) (map (fun i => (i, flat_map (fun f => value_of es T tw incl f i) fs)) ids)).
Proof.
  intros Hv Hr Hf Hi Hn Hd. destruct (C63_answered_partial es idvars ord T tw incl fs eid ids Hv Hr Hf Hi Hn) as (m & Hm).
  destruct (C06_values_partial es idvars ord T tw incl fs eid ids m Hv Hd Hm) as (H1 & _ & H3). pose proof (C08_rows_partial es idvars ord fs no_appr no_pre T tw incl ids m Hn Hm) as H2.
  rewrite Hm. f_equal. destruct m as [mc mr]. cbn [m_cols m_rows] in *. subst mc. f_equal. clear Hm Hn Hd Hi. subst ids. rewrite map_map. rewrite <- (map_id mr) at 1. apply map_ext_in. intros [i vals] Hin. cbn [fst]. rewrite (H3 i vals Hin). reflexivity.
Qed.

(** ** the demonstration request is runnable *)
Lemma demo_runnable : runnable (demo_es []) 8 None true demo_fs.
Proof.
  constructor.
  - intros eid v nm Hf. apply demo_needed in Hf. cbn in Hf. repeat (destruct Hf as [Hf|Hf]; [try discriminate Hf; injection Hf as <- <- <-; eexists; (split; [reflexivity | cbn; tauto])|]). destruct Hf.
  - intros f [Hf _]. apply demo_needed in Hf. cbn in Hf. in_cases Hf; try exact I; intros t cs n o Hc Hl Ho; cbn in Ho; destruct Ho as [<-|[]];
      (destruct cs as [|c cs]; [discriminate Hc|]; cbn [hd]; rewrite map_length, ?seq_length; apply Hl; left; reflexivity).
  - intros p bs path u w prev nm [Hf _]. apply demo_needed in Hf. cbn in Hf. repeat (destruct Hf as [Hf|Hf]; [discriminate Hf|]). destruct Hf.
  - intros p p' bs bs' path u u' wh prev nm nm' f g [Hf _] _ _ _ Hp. apply demo_needed in Hf. cbn in Hf. unfold f in Hf.
    repeat (destruct Hf as [Hf|Hf]; [try discriminate Hf; injection Hf as <- <- <- <- <- <- <-; discriminate Hp|]). destruct Hf.
  - intros p bs path u wh prev nm [Hf _]. apply demo_needed in Hf. cbn in Hf.
    assert (forall b c, In b [f_cum; f_dev] -> In c (rows_at (demo_es []) 8 None true (fentity b)) -> owner (demo_es []) 8 None true demo_rels c <> VNull) as Hown.
    { intros b c Hb Hc. assert (fentity b = "event"%string) as E by (in_cases Hb; reflexivity). rewrite E in Hc. vm_compute in Hc. in_cases Hc; vm_compute; discriminate. }
    repeat (destruct Hf as [Hf|Hf]; [first [discriminate Hf | injection Hf as <- <- <- <- <- <- <-; first [right; split; [reflexivity | exact Hown] | left; vm_compute; auto]]|]). destruct Hf.
  - intros r b nm [Hf _] E. apply demo_needed in Hf. cbn in Hf. repeat (destruct Hf as [Hf|Hf]; [try discriminate Hf; injection Hf as <- <- <-; reflexivity|]). destruct Hf.
  - intros r b nm r' c [Hf _] E. exfalso. apply demo_needed in Hf. cbn in Hf. repeat (destruct Hf as [Hf|Hf]; [try discriminate Hf; injection Hf as <- <- <-; discriminate E|]). destruct Hf.
  - intros f b n nm [Hf _] _ Hb. apply demo_needed in Hf. cbn in Hf. in_cases Hf; cbn in Hb; repeat (destruct Hb as [Hb|Hb]; [discriminate Hb|]); destruct Hb.
Qed.

(** four features, with a direct feature, running sums and an aggregation of two variables, for three customers *)
Example C63_nonvacuous :
  valid_request (demo_es []) demo_idvars (fun l => l) None demo_fs "cust"%string /\ runnable (demo_es []) 8 None true demo_fs /\
  demo_fs <> [] /\ NoDup [VNum 1; VNum 2; VNum 9] /\
  exists m, run (demo_es []) demo_idvars (fun l => l) demo_fs no_appr no_pre 8 None true [VNum 1; VNum 2; VNum 9] = Ok m /\ List.length (m_rows m) = 3.
Proof.
  split; [apply demo_request; intros l; apply Permutation_refl|]. split; [exact demo_runnable|]. split; [discriminate|].
  assert (NoDup [VNum 1; VNum 2; VNum 9]) as Hn by nodup_tac. split; [exact Hn|].
  eexists. split; [vm_compute; reflexivity | reflexivity].
Qed.

(** ** what goes wrong otherwise *)
Lemma slice_needed f : needed [f_abs0] f -> In f [f_abs0; FSlice f_two 0 None; f_two; f_amt].
Proof.
  intros (f0 & Hf0 & Hr). assert (In f0 [f_abs0; FSlice f_two 0 None; f_two; f_amt]) as H0 by (cbn in *; tauto). clear Hf0.
  induction Hr as [f|f d g Hd Hr IH]; [exact H0|]. apply IH. cbn in H0. in_cases H0; cbn in Hd; cbn; in_cases Hd; tauto.
Qed.
Lemma slice_request : valid_request (demo_es []) demo_idvars (fun l => l) None [f_abs0] "cust"%string.
Proof.
  pose proof (demo_request (fun l => l) (fun l => Permutation_refl l)) as [H1 H2 H3 H4 H5 _ _ _]. constructor; try assumption.
  - intros f [<-|[]]. split; [|split; [intros [] | reflexivity]]. apply wt_trans with "cust"%string; [discriminate | | intros b [<-|[]]; split; reflexivity].
    intros b [<-|[]]. apply wt_slice; [|cbn; lia | cbn; lia]. apply wt_agg with "event"%string; try discriminate; [|intros b [<-|[]]; constructor | intros b [<-|[]]; split; reflexivity].
    apply (chain_cons r_pe r_ce demo_rels (mkRel "cust" "id" "sess" "cid") _ "event"); [left; reflexivity|].
    apply (chain_cons r_pe r_ce demo_rels (mkRel "sess" "id" "event" "sid") _ "event"); [right; left; reflexivity|]. apply chain_nil.
  - constructor.
    + intros f g Hf Hg. apply slice_needed in Hf, Hg. cbn in Hf, Hg. in_cases Hf; in_cases Hg; vm_compute; intros E; try reflexivity; discriminate E.
    + intros f g i j n [Hf Sf] [Hg Sg] E Hi Hj. apply slice_needed in Hf, Hg. cbn in Hf, Hg.
      in_cases Hf; try (exfalso; apply Sf; exact I); in_cases Hg; try (exfalso; apply Sg; exact I); try discriminate E; vm_compute in Hi, Hj;
        destruct i as [|[|[|i]]]; try discriminate Hi; destruct j as [|[|[|j]]]; try discriminate Hj; injection Hi as <-; try discriminate Hj; split; reflexivity.
    + intros f e n [Hf _] He Hn Hc. apply slice_needed in Hf. cbn in Hf. in_cases Hf; try exact I; vm_compute in He; injection He as <-; vm_compute in Hn, Hc; in_cases Hn; exfalso; repeat (destruct Hc as [Hc|Hc]; [discriminate Hc|]); destruct Hc.
    + intros e v nm Hf. apply slice_needed in Hf. cbn in Hf. repeat (destruct Hf as [Hf|Hf]; [try discriminate Hf; injection Hf as <- <- <-; reflexivity|]). destruct Hf.
    + intros b n nm Hf. apply slice_needed in Hf. cbn in Hf. repeat (destruct Hf as [Hf|Hf]; [try discriminate Hf; injection Hf as <- <- <-; vm_compute; reflexivity|]). destruct Hf.
    + intros eid c Hl. apply demo_links in Hl as [-> El]. change (es_rels (demo_es [])) with demo_rels. rewrite El. split.
      * intros e He Hc. vm_compute in He. injection He as <-. vm_compute in Hc. repeat (destruct Hc as [Hc|Hc]; [discriminate Hc|]); destruct Hc.
      * intros f [Hf _] E Hc. apply slice_needed in Hf. cbn in Hf. in_cases Hf; try discriminate E; vm_compute in Hc; repeat (destruct Hc as [Hc|Hc]; [discriminate Hc|]); destruct Hc.
  - constructor.
    + intros f g [Hf Sf] [Hg Sg] E Ec _. apply slice_needed in Hf, Hg. cbn in Hf, Hg. in_cases Hf; try (exfalso; apply Sf; exact I); in_cases Hg; try (exfalso; apply Sg; exact I); try discriminate E; try discriminate Ec; reflexivity.
    + intros f [Hf _]. apply slice_needed in Hf. cbn in Hf. in_cases Hf; exact I.
    + intros f g a b [Hf _] _ E. apply slice_needed in Hf. cbn in Hf. in_cases Hf; discriminate E.
    + intros f d n [Hf _] E. apply slice_needed in Hf. cbn in Hf. in_cases Hf; discriminate E.
    + intros p bs path u wh prev nm [Hf _] r Hr. apply slice_needed in Hf. cbn in Hf.
      repeat (destruct Hf as [Hf|Hf]; [try discriminate Hf; injection Hf as <- <- <- <- <- <- <-; cbn in Hr; in_cases Hr; reflexivity|]). destruct Hf.
    + intros p bs path u w prev nm [Hf _]. apply slice_needed in Hf. cbn in Hf. repeat (destruct Hf as [Hf|Hf]; [discriminate Hf|]). destruct Hf.
    + intros r b nm b' nm' n [Hf _]. apply slice_needed in Hf. cbn in Hf. repeat (destruct Hf as [Hf|Hf]; [discriminate Hf|]). destruct Hf.
    + intros f [Hf _]. apply slice_needed in Hf. cbn in Hf. in_cases Hf; try exact I; intros t cs _; reflexivity.
    + intros p bs nm [Hf _]. apply slice_needed in Hf. cbn in Hf.
      repeat (destruct Hf as [Hf|Hf]; [try discriminate Hf; injection Hf as <- <- <-; try discriminate; intros _; apply abs_rowwise|]). destruct Hf.
    + intros p bs g nm [Hf _]. apply slice_needed in Hf. cbn in Hf. repeat (destruct Hf as [Hf|Hf]; [discriminate Hf|]). destruct Hf.
Qed.

(** The absolute value of the first output of an aggregation with two outputs cannot be calculated: the order of
    evaluation does not look through the slice, so the column is read before the aggregation has been calculated. *)
Theorem C63_answered_refuted :
  exists es idvars ord fs eid ids, valid_request es idvars ord None fs eid /\ NoDup ids /\ ids <> [] /\ fs <> [] /\
    run es idvars ord fs no_appr no_pre 8 None true ids = Err KeyError.
Proof.
  exists (demo_es []), demo_idvars, (fun l => l), [f_abs0], "cust"%string, [VNum 1]. split; [exact slice_request|].
  split; [nodup_tac|]. split; [discriminate|]. split; [discriminate|]. vm_compute. reflexivity.
Qed.

Print Assumptions C63_answered_partial.
Print Assumptions C63_correct_partial.
Print Assumptions C63_answered_refuted.
