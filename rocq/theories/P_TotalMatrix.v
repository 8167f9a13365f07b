(** C63: calculate_feature_matrix answers every valid request with the right feature matrix. *)
From Verif Require Import Base BaseFacts M_Schema S_Schema M_Trie M_Table M_Query S_Query L_Query S_View L_View
  M_Feature M_FeatureSet M_Calc S_Calc S_Group S_Plan S_Sem S_Value S_Total L_Trie L_Frame L_FeatureSet L_Plan L_Group P_Select L_Schema
  L_Value1 L_Value2 L_Value3 L_Value4 L_Value5 L_Value6 L_Value7 P_Value P_ValueUse X_Demo P_Group M_CFM S_CFM L_CFM P_CFM P_EndToEnd P_Total.

(** For every cutoff frame with some time and distinct (instance, time) pairs, every chunk size, number of workers and
    order of arrival: the call returns a matrix, and it is the one of C59. *)
Theorem C63_matrix_partial es idvars ord tw incl fs eid sort_ids now pass m na size cs :
  valid_request es idvars ord tw fs eid -> no_silent_default fs -> fs <> [] -> (forall l, Permutation (sort_ids l) l) ->
  (forall c t, In c cs -> c_time c = Some t -> runnable es t tw incl fs) ->
  fair m -> (forall n a, m = Workers n a -> 0 < n) -> (forall num den, size = Some (num, den) -> (0 < den)%Z /\ (0 < num)%Z) ->
  NoDup (map (fun c => (c_id c, c_time c)) cs) -> (exists c, In c cs /\ c_time c <> None) ->
  exists fm, cfm (calculator es idvars ord fs incl) (fun _ => Ok tt) sort_ids now tw pass m false na size (CFrame cs) (CFrame cs) = Ok fm /\
    Forall2 (fun c r => fst r = (c_id c, c_time c) /\
      match c_time c with
      | Some t =>
          (forall f k n, In f fs -> nth_error (fnames (es_rels es) f) k = Some n -> ~ In n pass ->
             nth_error (value_of es t tw incl f (c_id c)) k = Some (cell n (snd r))) /\
          (forall n, In n pass -> cell n (snd r) = cell n (c_pass c))
      | None => forall n, cell n (snd r) = VNull
      end) cs fm.
Proof.
  intros Hv Hd Hne Hsort Hrn Hf Hw Hs Hn Hsome.
  destruct (C10_driver_total (calculator es idvars ord fs incl) (fun _ => Ok tt) sort_ids now tw pass (flat_map (fnames (es_rels es)) fs) (meanings es tw incl fs) m na size (CFrame cs)) as (fm & Hfm); try assumption.
  - eapply C07_pointwise_partial; eassumption.
  - intros t ids (c & Hc & Et) Hi Hnd. eapply C63_answered_partial; [exact Hv | eapply Hrn; eassumption | exact Hne | exact Hi | exact Hnd].
  - exists fm. split; [exact Hfm|]. eapply C59_matrix_partial; try eassumption. intros num den E. apply (Hs num den E).
Qed.

(** and with one time for all instances *)
Theorem C63_single_partial es idvars ord tw incl fs eid sort_ids now pass m na size t ids :
  valid_request es idvars ord tw fs eid -> no_silent_default fs -> fs <> [] -> (forall l, Permutation (sort_ids l) l) ->
  runnable es t tw incl fs ->
  fair m -> (forall n a, m = Workers n a -> 0 < n) -> (forall num den, size = Some (num, den) -> (0 < den)%Z /\ (0 < num)%Z) ->
  NoDup ids -> ids <> [] ->
  cfm (calculator es idvars ord fs incl) (fun _ => Ok tt) sort_ids now tw pass m false na size (CSingle t ids) (CSingle t ids) =
    Ok (map (fun i => ((i, Some t), combine (flat_map (fnames (es_rels es)) fs) (meanings es tw incl fs t i))) ids).
Proof.
  intros Hv Hd Hne Hsort Hrn Hf Hw Hs Hn Hi.
  destruct (C10_driver_total (calculator es idvars ord fs incl) (fun _ => Ok tt) sort_ids now tw pass (flat_map (fnames (es_rels es)) fs) (meanings es tw incl fs) m na size (CSingle t ids)) as (fm & Hfm); try assumption.
  - eapply C07_pointwise_partial; eassumption.
  - intros t' ids' Et Hi' Hnd. cbn in Et. subst t'. eapply C63_answered_partial; [exact Hv | exact Hrn | exact Hne | exact Hi' | exact Hnd].
  - rewrite Hfm. f_equal. eapply C10_single_cutoff_answers in Hfm; [exact Hfm | eapply C07_pointwise_partial; eassumption | exact Hsort | exact Hf | exact Hw | intros num den E; apply (Hs num den E) | exact Hn].
Qed.

(** the demonstration request of C59 is runnable at every time *)
Lemma demo3_runnable T : runnable (demo_es []) T None true demo_fs3.
Proof.
  assert (forall f, needed demo_fs3 f -> In f demo_reach /\ f <> f_wsum) as Hneed.
  { intros f (f0 & Hf0 & Hr). assert (In f0 [f_sum; f_abs; f_sumby; f_amt; f_esid; f_cumby]) as H0 by (cbn in *; tauto). clear Hf0.
    assert (In f [f_sum; f_abs; f_sumby; f_amt; f_esid; f_cumby]) as H1.
    { induction Hr as [f|f d g Hd Hr IH]; [exact H0|]. apply IH. cbn in H0. in_cases H0; cbn in Hd; cbn; in_cases Hd; tauto. }
    split; [cbn in *; tauto|]. cbn in H1. in_cases H1; discriminate. }
  constructor.
  - intros eid v nm Hf. apply Hneed in Hf as [Hf _]. cbn in Hf. repeat (destruct Hf as [Hf|Hf]; [try discriminate Hf; injection Hf as <- <- <-; eexists; (split; [reflexivity | cbn; tauto])|]). destruct Hf.
  - intros f [Hf _]. apply Hneed in Hf as [Hf _]. cbn in Hf. in_cases Hf; try exact I; intros t cs n o Hc Hl Ho; cbn in Ho; destruct Ho as [<-|[]];
      (destruct cs as [|c cs]; [discriminate Hc|]; cbn [hd]; rewrite map_length, ?seq_length; apply Hl; left; reflexivity).
  - intros p bs path u w prev nm [Hf _]. apply Hneed in Hf as [Hf _]. cbn in Hf. repeat (destruct Hf as [Hf|Hf]; [discriminate Hf|]). destruct Hf.
  - intros p p' bs bs' path u u' wh prev nm nm' f g [Hf _] _ _ _ Hp. apply Hneed in Hf as [Hf _]. cbn in Hf. unfold f in Hf.
    repeat (destruct Hf as [Hf|Hf]; [try discriminate Hf; injection Hf as <- <- <- <- <- <- <-; discriminate Hp|]). destruct Hf.
  - intros p bs path u wh prev nm [Hf _]. apply Hneed in Hf as [Hf Hw]. cbn in Hf. left.
    repeat (destruct Hf as [Hf|Hf]; [first [discriminate Hf | rewrite <- Hf in Hw; exfalso; apply Hw; reflexivity | rewrite <- Hf; vm_compute; auto]|]). destruct Hf.
  - intros r b nm [Hf _] E. apply Hneed in Hf as [Hf _]. cbn in Hf. repeat (destruct Hf as [Hf|Hf]; [try discriminate Hf; injection Hf as <- <- <-; reflexivity|]). destruct Hf.
  - intros r b nm r' c [Hf _] E. exfalso. apply Hneed in Hf as [Hf _]. cbn in Hf. repeat (destruct Hf as [Hf|Hf]; [try discriminate Hf; injection Hf as <- <- <-; discriminate E|]). destruct Hf.
  - intros f b n nm [Hf _] _ Hb. apply Hneed in Hf as [Hf _]. cbn in Hf. in_cases Hf; cbn in Hb; repeat (destruct Hb as [Hb|Hb]; [discriminate Hb|]); destruct Hb.
Qed.

(** two workers whose results arrive in reverse order *)
Example C63_matrix_nonvacuous : exists fm,
  cfm (calculator (demo_es []) demo_idvars (fun l => l) demo_fs3 true) (fun _ => Ok tt) (fun l => l) 0 None ["label"]%string
    (Workers 2 (@rev cutoffs)) false false (Some (1, 1)%Z) (CFrame demo_cut) (CFrame demo_cut) = Ok fm /\ List.length fm = 3.
Proof.
  destruct (C63_matrix_partial (demo_es []) demo_idvars (fun l => l) None true demo_fs3 "cust"%string (fun l => l) 0 ["label"]%string (Workers 2 (@rev cutoffs)) false (Some (1, 1)%Z) demo_cut) as (fm & Hfm & HF).
  - apply C59_nonvacuous.
  - apply C59_nonvacuous.
  - discriminate.
  - intros l. apply Permutation_refl.
  - intros c t _ _. apply demo3_runnable.
  - intros l. apply Permutation_sym, Permutation_rev.
  - intros n a [= <- _]. lia.
  - intros num den [= <- <-]. lia.
  - apply C59_nonvacuous.
  - eexists. split; [left; reflexivity | discriminate].
  - exists fm. split; [exact Hfm|]. clear Hfm. symmetry. exact (Forall2_length' _ _ _ HF).
Qed.

Print Assumptions C63_matrix_partial.
Print Assumptions C63_single_partial.
