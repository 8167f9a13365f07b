(** C12: calculate_feature_matrix with [approximate]. *)
From Verif Require Import Base BaseFacts M_Schema S_Schema M_Trie M_Table M_Query S_Query L_Query S_View L_View
  M_Feature M_FeatureSet M_Calc S_Calc S_Group S_Plan S_Sem S_Value S_Approx L_Trie L_Frame L_FeatureSet L_Plan L_Group P_Select L_Schema
  L_Value1 L_Value2 L_Value3 L_Value4 L_Value5 L_Value6 L_Value7 P_Serialize P_Value P_ValueUse X_Demo M_CFM S_CFM L_CFM P_CFM P_EndToEnd
  M_Time S_Time L_Time P_Time M_Approx L_Approx L_Gather L_Approx2 L_Approx3.

(** which features are approximated where *)
Theorem C12_approximated es idvars ord tw fs eid : valid_request es idvars ord tw fs eid -> forall p n,
  In n (tvalue (get_node edge_eqb [] p (gather_approximate (es_rels es) fs))) <-> approximated_at (es_rels es) fs p n.
Proof. intros Hv p n. apply (gather_In (es_rels es) fs (cn_unique _ _ (vr_names _ _ _ _ _ _ Hv)) p n). Qed.

Lemma planned_iff rels (a1 a2 : list edge -> string -> Prop) fs p b f : (forall p n, a1 p n <-> a2 p n) -> planned rels a1 fs p b f -> planned rels a2 fs p b f.
Proof.
  intros H. induction 1 as [f Hf Hn|p b f d Hp IH Hd Hn]; [apply planned_target; [exact Hf | rewrite <- H; exact Hn] | apply planned_dep; [exact IH | exact Hd | rewrite <- H; exact Hn]].
Qed.

Lemma bin_absolute u v td cs len : make_td [(u, v)] = Ok td -> In (fix_unit u, len) unit_lengths -> (0 < v)%Z ->
  bin_cutoffs td cs = Ok (map (fun c => mkCutoff (c_id c) (option_map (floor_to (v * len)) (c_time c)) (c_time c) (c_pass c)) cs).
Proof.
  intros H Hl Hv. destruct (unit_length_spec _ _ Hl) as [Hu <-]. destruct (make_td_times _ _ H) as [Ht _]. unfold fix_units in Ht. cbn [fold_left fst snd dset] in Ht.
  unfold bin_cutoffs, datetime_round. rewrite Ht. unfold is_absolute. cbn [forallb fst]. rewrite (proj2 (mem_str_In _ _) Hu). cbn [andb negb].
  destruct (Z.ltb_spec 0 v); [|lia]. cbn [bind]. reflexivity.
Qed.

Section Matrix.
  Variables (es : entityset) (idvars : string -> list string) (ord : list string -> list string) (tw : option window) (incl : bool) (fs : list feat) (eid : string).
  Variables (sort_ids : list val -> list val) (now : Z) (pass : list string).
  Hypothesis Hv : valid_request es idvars ord tw fs eid.
  Hypothesis Hd : no_silent_default fs.
  Hypothesis Hda : forall p a, approximable fs p a -> single_column a \/ fdefault a = VNull.
  Hypothesis Hsp : separate (es_rels es) fs.
  Hypothesis Hsort : forall l, Permutation (sort_ids l) l.
  Variables (u : string) (v len : Z) (td : timedelta).
  Hypothesis Htd : make_td [(u, v)] = Ok td.
  Hypothesis Hlen : In (fix_unit u, len) unit_lengths.
  Hypothesis Hpos : (0 < v)%Z.
  Notation rels := (es_rels es).
  Notation appr := (gather_approximate rels fs).
  Notation w := (v * len)%Z.

  Lemma window_pos : (0 < w)%Z.
  Proof. destruct (unit_length_spec _ _ Hlen) as [Hu <-]. pose proof (unit_ns_pos _ Hu). nia. Qed.

  (** one row per row of the cutoff frame, in its order; each cell is the meaning of its feature for the row's instance at the
      row's own time, except that approximated aggregations have their values at the time rounded down to the window *)
  Theorem C12_matrix_partial m size cs fm given : cs <> [] -> no_unapproximated rels fs appr = false ->
    fair m -> (forall n a, m = Workers n a -> 0 < n) -> (forall num den, size = Some (num, den) -> (0 < den)%Z) ->
    NoDup (map (fun c => (c_id c, c_time c)) cs) ->
    (forall F, rounded_values es tw incl fs F (given F)) ->
    cfm_approximate es idvars ord incl sort_ids now tw td fs pass m size cs = Ok fm ->
    Forall2 (fun c r => fst r = (c_id c, c_time c) /\
      match c_time c with
      | Some t => exists F, greatest_multiple w t F /\
          (forall f k n, In f fs -> nth_error (fnames rels f) k = Some n -> ~ In n pass ->
             nth_error (value_with es t tw incl (given F) f (c_id c)) k = Some (cell n (snd r))) /\
          (forall n, In n pass -> cell n (snd r) = cell n (c_pass c))
      | None => forall n, cell n (snd r) = VNull
      end) cs fm.
  Proof.
    intros Hcs Hno Hf Hw' Hs Hn Hgiv H. unfold cfm_approximate in H. cbv zeta in H. rewrite Hno in H.
    rewrite (bin_absolute u v td cs len Htd Hlen Hpos) in H. cbn [bind] in H.
    set (bs := map (fun c => mkCutoff (c_id c) (option_map (floor_to w) (c_time c)) (c_time c) (c_pass c)) cs) in *.
    pose proof window_pos as Hwp. pose proof (request_wt es idvars ord tw fs eid Hv) as Hwt.
    pose proof (C12_approximated es idvars ord tw fs eid Hv) as Hap.
    assert (forall t f, needed fs f -> forall r, List.length (sem_with es t tw incl (given (floor_to w t)) f r) = fnout f) as Hsl.
    { intros t f Hf'. apply (semw_length es t tw incl (given (floor_to w t)) fs Hwt (vr_plain _ _ _ _ _ _ Hv)); [|exact Hf'].
      intros g h r Hg E. destruct (Hgiv (floor_to w t)) as [_ Hgv]. destruct (Hgv g Hg) as [G1 G2].
      assert (In (funique rels g) (flat_map snd (iter appr)) \/ ~ In (funique rels g) (flat_map snd (iter appr))) as [Hi|Hi] by (destruct (in_dec string_dec (funique rels g) (flat_map snd (iter appr))); auto).
      - apply in_flat_map in Hi as ([p ns] & Hp & Hi). apply (iter_In edge_eqb edge_eqb_spec [] appr (gather_twf rels fs)) in Hp as [_ ->]. cbn [snd] in Hi. apply Hap in Hi as (a & Ha & Ea).
        assert (g = a) as -> by (apply (cn_unique _ _ (vr_names _ _ _ _ _ _ Hv)); [exact Hg | eapply approximable_needed; exact Ha | exact Ea]).
        rewrite G1 in E by eauto. injection E as <-. apply (value_of_length es idvars ord tw incl fs eid Hv). exact Hg.
      - rewrite G2 in E; [discriminate|]. intros p Hp. apply Hi. apply in_flat_map. exists (p, tvalue (get_node edge_eqb [] p appr)).
        assert (In (funique rels g) (tvalue (get_node edge_eqb [] p appr))) as Hin by (apply Hap; exists g; auto). split; [|exact Hin].
        apply (iter_In edge_eqb edge_eqb_spec [] appr (gather_twf rels fs)). split; [|reflexivity]. destruct (has_or_default [] p appr) as [Hh|Hh]; [exact Hh|]. rewrite Hh in Hin. destruct Hin. }
    assert (fm = map (exp_at pass (flat_map (fnames rels) fs) (fun F t i => flat_map (fun f => value_with es t tw incl (given F) f i) fs)) bs) as Efm.
    { refine (cfm_approx_outcome (calculator_with es idvars ord incl fs appr) (approximate_features es idvars ord incl sort_ids now tw td fs appr) sort_ids now tw pass _ _ bs _ Hsort _ m size cs fm _ Hf Hw' Hs _ Hn H).
      - intros g F p t ids mm Hg Hsub HtF Hpre Hne Hnd Hids Hrun.
        assert (bin_cutoffs td g = Ok (map (fun c => mkCutoff (c_id c) (Some F) (c_time c) (c_pass c)) g)) as Hbin.
        { rewrite (bin_absolute u v td g len Htd Hlen Hpos). f_equal. apply map_ext_in. intros c Hc. rewrite (HtF c Hc). cbn [option_map]. f_equal. f_equal.
          pose proof (Hsub c Hc) as Hcb. unfold bs in Hcb. apply in_map_iff in Hcb as (c0 & <- & _). pose proof (HtF _ Hc) as Et. cbn [c_time] in Et. destruct (c_time c0) as [t0|]; [|discriminate]. injection Et as <-. apply floor_idem. exact Hwp. }
        assert (F = floor_to w t) as EF.
        { destruct ids as [|i ids']; [congruence|]. destruct (Hids i (or_introl eq_refl)) as (c & Hc & _ & Eo). pose proof (HtF c Hc) as Et. apply Hsub in Hc. unfold bs in Hc. apply in_map_iff in Hc as (c0 & <- & _). cbn [c_time c_orig] in *. rewrite Eo in Et. now injection Et. }
        destruct (Hgiv F) as [Hov Hgv].
        assert (forall p a, approximable fs p a -> given F a = Some (fun r => value_of es F tw incl a (cell (index_of es (fentity a)) r))) as Hgiven.
        { intros q a Ha. apply Hgv; [eapply approximable_needed; exact Ha | eauto]. }
        destruct (matrix_given es idvars ord t tw incl fs (given F) appr p eid ids mm) as (M1 & _ & M3).
        + exact Hov.
        + intros f h r Hf' E. pose proof (Hsl t f Hf' r) as L. rewrite <- EF in L. rewrite <- L. destruct f; cbn [sem_with]; rewrite E; reflexivity.
        + destruct (tvalue appr) as [|n ns] eqn:E; [reflexivity|]. exfalso. destruct (proj1 (Hap [] n)) as (a & (_ & f & _ & Hl & _) & _); [cbn [get_node]; rewrite E; left; reflexivity|]. inversion Hl.
        + intros q b f Hpl. apply (planned_iff _ _ (approximated_at rels fs)) in Hpl; [|exact Hap]. apply Hgv; [|intros q' Hq'; exact (sp_only _ _ Hsp q b f q' Hpl Hq')].
          assert (planned rels (apx appr) fs q b f) as Hpl2 by (apply (planned_iff _ (approximated_at rels fs)); [intros p' n'; symmetry; apply Hap | exact Hpl]).
          assert (forall f0, In f0 fs -> ~ is_slice f0) as Hns by (intros f0 Hf0; apply (vr_features _ _ _ _ _ _ Hv f0 Hf0)).
          exact (proj1 (planned_calculated es fs Hwt Hns appr q b f Hpl2)).
        + eapply (approximated_pre_ok es idvars ord tw incl fs eid sort_ids now Hv Hsort F t (given F)); [exact Hgiven | exact Hda | | | | exact Hbin | exact Hpre].
          * intros q a Ha (p0 & g0 & q0 & r0 & Hpl & E1 & E2). apply (sp_full _ _ Hsp q a Ha). exists p0, g0, q0, r0. split; [apply (planned_iff _ _ (approximated_at rels fs)) in Hpl; [exact Hpl | exact Hap] | auto].
          * intros c Hc. apply in_map_iff in Hc as (c0 & <- & _). reflexivity.
          * intros i Hi. destruct (Hids i Hi) as (c & Hc & Ei & _). exists (mkCutoff (c_id c) (Some F) (c_time c) (c_pass c)). split; [apply in_map_iff; exists c; auto | exact Ei].
        + exact Hv.
        + intros f Hf'. destruct (Hd f Hf') as [H1|H1]; auto.
        + exact Hrun.
        + pose proof (C08_rows_partial _ _ _ _ _ _ _ _ _ _ _ Hnd Hrun) as Hr. destruct mm as [mc mr]. cbn [m_cols m_rows] in *. subst mc. f_equal.
          rewrite <- Hr, map_map. rewrite <- (map_id mr) at 1. apply map_ext_in. intros [i vals] Hin. cbn [fst]. rewrite (M3 i vals Hin). reflexivity.
      - intros c Hc. unfold bs in Hc. apply in_map_iff in Hc as (c0 & <- & _). unfold both. cbn [c_time c_orig]. destruct (c_time c0); cbn [option_map]; split; intros (x & E); try discriminate E; eauto.
      - unfold bs. destruct cs; [congruence | discriminate].
      - unfold bs. rewrite map_map. reflexivity. }
    subst fm. assert (forall l, Forall2 (fun c r => fst r = (c_id c, c_time c) /\
      match c_time c with
      | Some t => exists F, greatest_multiple w t F /\
          (forall f k n, In f fs -> nth_error (fnames rels f) k = Some n -> ~ In n pass ->
             nth_error (value_with es t tw incl (given F) f (c_id c)) k = Some (cell n (snd r))) /\
          (forall n, In n pass -> cell n (snd r) = cell n (c_pass c))
      | None => forall n, cell n (snd r) = VNull
      end) l (map (exp_at pass (flat_map (fnames rels) fs) (fun F t i => flat_map (fun f => value_with es t tw incl (given F) f i) fs))
        (map (fun c => mkCutoff (c_id c) (option_map (floor_to w) (c_time c)) (c_time c) (c_pass c)) l))) as Hall; [|apply Hall].
    induction l as [|c l IH]; cbn [map]; constructor; [|exact IH]. clear IH. unfold exp_at at 1 2 3. cbn [fst snd c_id c_orig c_time c_pass]. split; [reflexivity|].
    destruct (c_time c) as [t|]; cbn [option_map]; [|intros n; reflexivity]. exists (floor_to w t). split; [apply floor_greatest; exact Hwp|].
    assert (forall g, In g fs -> List.length (fnames rels g) = List.length (value_with es t tw incl (given (floor_to w t)) g (c_id c))) as Hl.
    { intros g Hg. unfold value_with. destruct (row_with _ _ _) as [x|]; [rewrite (Hsl t g) by (apply needed_self; exact Hg); apply fnaming_len | rewrite repeat_length; apply fnaming_len]. }
    split.
    - intros f k n Hin Hk Hp. rewrite cell_row_for. destruct (mem_str n pass) eqn:E; [apply mem_str_In in E; contradiction|].
      rewrite (combine_cell (fnames rels) (fun f0 => value_with es t tw incl (given (floor_to w t)) f0 (c_id c)) f k n fs Hl); [| |exact Hin | exact Hk].
      + apply nth_error_nth''. rewrite <- (Hl f Hin). eapply nth_error_len; exact Hk.
      + intros g j Hg Hj. apply (cn_columns es fs (vr_names _ _ _ _ _ _ Hv) g f j k n); [| | |exact Hj | exact Hk].
        * split; [apply needed_self; exact Hg | apply (vr_features _ _ _ _ _ _ Hv g Hg)].
        * split; [apply needed_self; exact Hin | apply (vr_features _ _ _ _ _ _ Hv f Hin)].
        * rewrite (proj2 (proj2 (vr_features _ _ _ _ _ _ Hv g Hg))), (proj2 (proj2 (vr_features _ _ _ _ _ _ Hv f Hin))). reflexivity.
    - intros n Hp. rewrite cell_row_for. apply mem_str_In in Hp. rewrite Hp. reflexivity.
  Qed.

  (** the values to give exist *)
  Definition given_at (F : Z) (f : feat) : option (row -> list val) :=
    if is_agg f && mem_str (funique rels f) (flat_map snd (iter appr)) then Some (fun r => value_of es F tw incl f (cell (index_of es (fentity f)) r)) else None.
  Lemma given_at_rounded F : rounded_values es tw incl fs F (given_at F).
  Proof.
    pose proof (C12_approximated es idvars ord tw fs eid Hv) as Hap. unfold given_at. split.
    - intros f g H. destruct f; try discriminate H. exact I.
    - intros a Ha. split.
      + intros (p & Hp). assert (is_agg a = true) as -> by (apply is_agg_iff; apply Hp). cbn [andb].
        assert (mem_str (funique rels a) (flat_map snd (iter appr)) = true) as ->; [|reflexivity]. apply mem_str_In, in_flat_map. exists (p, tvalue (get_node edge_eqb [] p appr)).
        assert (In (funique rels a) (tvalue (get_node edge_eqb [] p appr))) as Hin by (apply Hap; exists a; auto). split; [|exact Hin].
        apply (iter_In edge_eqb edge_eqb_spec [] appr (gather_twf rels fs)). split; [|reflexivity]. destruct (has_or_default [] p appr) as [Hh|Hh]; [exact Hh|]. rewrite Hh in Hin. destruct Hin.
      + intros Hno. destruct (is_agg a && mem_str (funique rels a) (flat_map snd (iter appr))) eqn:E; [|reflexivity]. exfalso. apply andb_true_iff in E as [_ E].
        apply mem_str_In, in_flat_map in E as ([p ns] & Hp & Hi). apply (iter_In edge_eqb edge_eqb_spec [] appr (gather_twf rels fs)) in Hp as [_ ->]. cbn [snd] in Hi. apply Hap in Hi as (a' & Ha' & Ea).
        assert (a = a') as -> by (apply (cn_unique _ _ (vr_names _ _ _ _ _ _ Hv)); [exact Ha | eapply approximable_needed; exact Ha' | exact Ea]). exact (Hno p Ha').
  Qed.

  (** features that use no approximated aggregation have their values at the row's own time *)
  Theorem C12_exact_partial m size cs fm : cs <> [] -> no_unapproximated rels fs appr = false ->
    fair m -> (forall n a, m = Workers n a -> 0 < n) -> (forall num den, size = Some (num, den) -> (0 < den)%Z) ->
    NoDup (map (fun c => (c_id c, c_time c)) cs) ->
    cfm_approximate es idvars ord incl sort_ids now tw td fs pass m size cs = Ok fm ->
    Forall2 (fun c r => fst r = (c_id c, c_time c) /\
      forall t f k n, c_time c = Some t -> In f fs -> (forall a p, reaches f a -> ~ approximable fs p a) ->
        nth_error (fnames rels f) k = Some n -> ~ In n pass ->
        nth_error (value_of es t tw incl f (c_id c)) k = Some (cell n (snd r))) cs fm.
  Proof.
    intros H1 H2 H3 H4 H5 H6 H. pose proof (C12_matrix_partial m size cs fm given_at H1 H2 H3 H4 H5 H6 given_at_rounded H) as HA.
    eapply Forall2_impl; [|exact HA]. intros c r _ _ [E B]. split; [exact E|]. intros t f k n Et Hf Hno Hk Hp. rewrite Et in B. destruct B as (F & _ & B & _).
    rewrite <- (B f k n Hf Hk Hp). unfold value_of, value_with. destruct (row_with _ _ _) as [x|]; [|reflexivity].
    rewrite (sem_with_reads es t tw incl (given_at F) f); [reflexivity|]. intros d Hd'. destruct (given_at_rounded F) as [_ Hgv]. apply Hgv; [exists f; auto | intros p; apply Hno; exact Hd'].
  Qed.
End Matrix.

(** ** A concrete request: sessions with the total of their customer (approximated) and their own total (not approximated).
    Times are in nanoseconds and the window is one millisecond; two events come late. *)
Definition cust_sess : relationship := mkRel "cust" "id" "sess" "cid".
Definition sess_event : relationship := mkRel "sess" "id" "event" "sid".
Definition f_csum : feat := FDirect cust_sess f_sum None.
Definition f_cabs : feat := FTrans p_abs [f_csum] None.
Definition f_own : feat := FAgg p_sum [f_amt] [sess_event] true None None None.
Definition f_sdev : feat := FIdent "sess" "dev" None.
Definition f_total : feat := FTrans p_cumsum [f_sum] None.
Definition f_ctotal : feat := FDirect cust_sess f_total None.
Definition ap_fs : list feat := [f_csum; f_cabs; f_own; f_sdev; f_ctotal].
Definition ap_reach : list feat := [f_csum; f_cabs; f_own; f_sdev; f_ctotal; f_total; f_sum; f_amt].
Definition late : list row := [demo_event 104 10 2000000 100; demo_event 105 10 2300000 1000].
Definition td_ms : timedelta := match make_td [("ms"%string, 1%Z)] with Ok td => td | Err _ => mkTimedelta [] DNone end.

Lemma ap_needed f : needed ap_fs f -> In f ap_reach.
Proof.
  intros (f0 & Hf0 & Hr). assert (In f0 ap_reach) as H0 by (cbn in *; tauto). clear Hf0.
  induction Hr as [f|f d g Hd Hr IH]; [exact H0|]. apply IH. cbn in H0. in_cases H0; cbn in Hd; cbn; in_cases Hd; tauto.
Qed.

Lemma ap_request ord : (forall l, Permutation (ord l) l) -> valid_request (demo_es late) demo_idvars ord None ap_fs "sess"%string.
Proof.
  intros Hord. constructor.
  - apply demo_good; [intros r Hr; cbn in Hr; in_cases Hr; reflexivity | cbn; nodup_tac].
  - intros e r He Hr. cbn in He. in_cases He; cbn in Hr; in_cases Hr; discriminate.
  - intros e He. cbn in He. in_cases He; cbn [e_id e_df e_index e_time cols demo_idvars String.eqb Ascii.eqb Bool.eqb].
    + split; [intros c Hc; cbn in *; tauto|]. split; [cbn; tauto|]. split; [discriminate|]. intros r Hr E. cbn in Hr. in_cases Hr; cbn in E; discriminate E.
    + split; [intros c Hc; cbn in *; tauto|]. split; [cbn; tauto|]. split; [intros ti [= <-]; cbn; tauto|]. intros r Hr E. cbn in Hr. in_cases Hr; cbn in E; try discriminate E; cbn; tauto.
    + split; [intros c Hc; cbn in *; tauto|]. split; [cbn; tauto|]. split; [intros ti [= <-]; cbn; tauto|]. intros r Hr E. cbn in Hr. in_cases Hr; cbn in E; try discriminate E; cbn; tauto.
  - exact I.
  - exact Hord.
  - assert (wt demo_rels f_sum) as Wsum by (apply (demo_wt f_sum); cbn; tauto).
    assert (wt demo_rels f_csum) as Wc by (apply wt_direct; [left; reflexivity | exact Wsum | reflexivity]).
    assert (wt demo_rels f_total) as Wt by (apply wt_trans with "cust"%string; [discriminate | intros b [<-|[]]; exact Wsum | intros b [<-|[]]; split; reflexivity]).
    intros f Hf. cbn in Hf. in_cases Hf; (split; [|split; [intros [] | reflexivity]]).
    + exact Wc.
    + apply wt_trans with "sess"%string; [discriminate | intros b [<-|[]]; exact Wc | intros b [<-|[]]; split; reflexivity].
    + apply wt_agg with "event"%string; try discriminate; try (intros b [<-|[]]; try constructor; split; reflexivity).
      apply (chain_cons r_pe r_ce demo_rels sess_event _ "event"); [right; left; reflexivity|]. apply chain_nil.
    + constructor.
    + apply wt_direct; [left; reflexivity | exact Wt | reflexivity].
  - constructor.
    + intros f g Hf Hg. apply ap_needed in Hf, Hg. cbn in Hf, Hg. in_cases Hf; in_cases Hg; vm_compute; intros E; try reflexivity; discriminate E.
    + intros f g i j n [Hf _] [Hg _] E Hi Hj. apply ap_needed in Hf, Hg. cbn in Hf, Hg.
      in_cases Hf; in_cases Hg; try discriminate E; vm_compute in Hi, Hj; destruct i as [|[|i]]; try discriminate Hi; destruct j as [|[|j]]; try discriminate Hj; injection Hi as <-; try discriminate Hj; split; reflexivity.
    + intros f e n [Hf _] He Hn Hc. apply ap_needed in Hf. cbn in Hf. in_cases Hf; try exact I; vm_compute in He; injection He as <-; vm_compute in Hn, Hc; in_cases Hn; exfalso; repeat (destruct Hc as [Hc|Hc]; [discriminate Hc|]); destruct Hc.
    + intros e v nm Hf. apply ap_needed in Hf. cbn in Hf. repeat (destruct Hf as [Hf|Hf]; [try discriminate Hf; injection Hf as <- <- <-; reflexivity|]). destruct Hf.
    + intros b n nm Hf. apply ap_needed in Hf. cbn in Hf. repeat (destruct Hf as [Hf|Hf]; [discriminate Hf|]). destruct Hf.
    + intros eid c Hl. apply demo_links in Hl as [-> El]. match goal with |- context [link_name ?x] => change x with demo_rels end. rewrite El. split.
      * intros e He Hc. vm_compute in He. injection He as <-. vm_compute in Hc. repeat (destruct Hc as [Hc|Hc]; [discriminate Hc|]); destruct Hc.
      * intros f [Hf _] E Hc. apply ap_needed in Hf. cbn in Hf. in_cases Hf; try discriminate E; vm_compute in Hc; repeat (destruct Hc as [Hc|Hc]; [discriminate Hc|]); destruct Hc.
  - constructor.
    + intros f g [Hf _] [Hg _] E Ec _. apply ap_needed in Hf, Hg. cbn in Hf, Hg. in_cases Hf; in_cases Hg; try discriminate E; try discriminate Ec; reflexivity.
    + intros f [Hf _]. apply ap_needed in Hf. cbn in Hf. in_cases Hf; exact I.
    + intros f g a b [Hf _] _ E. apply ap_needed in Hf. cbn in Hf. in_cases Hf; discriminate E.
    + intros f d n [Hf _] E. apply ap_needed in Hf. cbn in Hf. in_cases Hf; discriminate E.
    + intros p bs path u wh prev nm [Hf _] r Hr. apply ap_needed in Hf. cbn in Hf.
      repeat (destruct Hf as [Hf|Hf]; [try discriminate Hf; injection Hf as <- <- <- <- <- <- <-; cbn in Hr; in_cases Hr; reflexivity|]). destruct Hf.
    + intros p bs path u w prev nm [Hf _]. apply ap_needed in Hf. cbn in Hf. repeat (destruct Hf as [Hf|Hf]; [discriminate Hf|]). destruct Hf.
    + intros r b nm b' nm' n [Hf _] [Hg _] Hn Hn'. apply ap_needed in Hf, Hg. cbn in Hf, Hg.
      repeat (destruct Hf as [Hf|Hf]; [try discriminate Hf; injection Hf as <- <- <-; clear -Hg Hn Hn'; repeat (destruct Hg as [Hg|Hg]; [try discriminate Hg; injection Hg as <- <-; vm_compute in Hn, Hn'; destruct Hn as [<-|[]]; destruct Hn' as [E|[]]; try discriminate E; reflexivity|]); destruct Hg |]). destruct Hf.
    + intros f [Hf _]. apply ap_needed in Hf. cbn in Hf. in_cases Hf; try exact I; intros t cs _; reflexivity.
    + intros p bs nm [Hf _]. apply ap_needed in Hf. cbn in Hf.
      repeat (destruct Hf as [Hf|Hf]; [try discriminate Hf; injection Hf as <- <- <-; try discriminate; intros _; apply abs_rowwise|]). destruct Hf.
    + intros p bs g nm [Hf _]. apply ap_needed in Hf. cbn in Hf. repeat (destruct Hf as [Hf|Hf]; [discriminate Hf|]). destruct Hf.
Qed.

Definition ok_fs : list feat := [f_csum; f_cabs; f_own].
Lemma ok_request ord : (forall l, Permutation (ord l) l) -> valid_request (demo_es late) demo_idvars ord None ok_fs "sess"%string.
Proof. intros H. apply (valid_request_incl _ _ _ _ ap_fs); [apply ap_request; exact H | intros f Hf; cbn in *; tauto]. Qed.

Lemma csum_leads p a : leads f_csum p a -> p = [(true, cust_sess)] /\ a = f_sum.
Proof. intros H. inversion H as [? ? ? Hno|? ? ? p' ? Hl]; subst; [split; reflexivity | inversion Hl]. Qed.
Lemma ok_approximable p a : approximable ok_fs p a -> p = [(true, cust_sess)] /\ a = f_sum.
Proof. intros (_ & f & Hf & Hl & _). cbn in Hf. in_cases Hf; [apply csum_leads; exact Hl | inversion Hl | inversion Hl]. Qed.
Lemma ok_sum_approximable : approximable ok_fs [(true, cust_sess)] f_sum.
Proof.
  split; [exact I|]. exists f_csum. split; [left; reflexivity|]. split; [apply leads_one; discriminate|].
  intros g (f0 & Hf0 & Hr) _. assert (In f0 [f_csum; f_cabs; f_own; f_sum; f_amt]) as H0 by (cbn in *; tauto). clear Hf0.
  assert (In g [f_csum; f_cabs; f_own; f_sum; f_amt]) as Hg.
  { induction Hr as [f|f d g Hd Hr IH]; [exact H0|]. apply IH. cbn in H0. in_cases H0; cbn in Hd; cbn; in_cases Hd; tauto. }
  cbn in Hg. in_cases Hg; reflexivity.
Qed.
Lemma ok_planned p b f : planned demo_rels (approximated_at demo_rels ok_fs) ok_fs p b f ->
  (In f ok_fs /\ p = [] /\ b = false) \/ (f = f_amt /\ p = [(false, sess_event)] /\ b = false).
Proof.
  induction 1 as [f Hf Hn|p b f d Hp IH Hd Hn].
  - left. split; [exact Hf|]. split; [reflexivity|]. cbn in Hf. in_cases Hf; reflexivity.
  - destruct IH as [(Hf & -> & ->)|(-> & -> & ->)]; [|cbn in Hd; destruct Hd]. cbn in Hf. in_cases Hf; cbn in Hd; in_cases Hd.
    + exfalso. apply Hn. exists f_sum. split; [exact ok_sum_approximable | reflexivity].
    + left. split; [left; reflexivity | split; reflexivity].
    + right. split; [reflexivity | split; reflexivity].
Qed.
Lemma ok_separate : separate demo_rels ok_fs.
Proof.
  constructor.
  - intros p b f q Hp Ha. apply ok_approximable in Ha as [_ ->]. apply ok_planned in Hp as [(Hf & _)|(E & _)]; [|discriminate E]. cbn in Hf. repeat (destruct Hf as [Hf|Hf]; [discriminate Hf|]). destruct Hf.
  - intros p a _ (p0 & g & q & r & Hp & _). apply ok_planned in Hp as [(_ & _ & E)|(_ & _ & E)]; discriminate E.
Qed.

(** session 10 at 2.5 ms and 1.9 ms, session 12 at 2.4 ms: the event at 2.3 ms counts for the session but not for its customer;
    two workers, results in reverse order *)
Definition ap_cut : list cutoff :=
  [mkCutoff (VNum 10) (Some 2500000%Z) None [("label", VStr "x")]; mkCutoff (VNum 12) (Some 2400000%Z) None [("label", VStr "y")];
   mkCutoff (VNum 10) (Some 1900000%Z) None [("label", VStr "z")]; mkCutoff (VNum 11) None None [("label", VStr "n")]]%string.
Example C12_nonvacuous :
  valid_request (demo_es late) demo_idvars (fun l => l) None ok_fs "sess"%string /\ no_silent_default ok_fs /\
  (forall p a, approximable ok_fs p a -> single_column a \/ fdefault a = VNull) /\ separate demo_rels ok_fs /\
  make_td [("ms"%string, 1%Z)] = Ok td_ms /\ In (fix_unit "ms", 1000000%Z) unit_lengths /\
  no_unapproximated demo_rels ok_fs (gather_approximate demo_rels ok_fs) = false /\
  NoDup (map (fun c => (c_id c, c_time c)) ap_cut) /\
  (forall F, rounded_values (demo_es late) None true ok_fs F (given_at (demo_es late) None true ok_fs F)) /\
  approximable ok_fs [(true, cust_sess)] f_sum /\
  cfm_approximate (demo_es late) demo_idvars (fun l => l) true (fun l => l) 0 None td_ms ok_fs ["label"]%string
    (Workers 2 (@rev cutoffs)) (Some (1, 1)%Z) ap_cut =
  Ok [((VNum 10, Some 2500000%Z), [("cust.SUM(event.amt)", VNum 124); ("ABSOLUTE(cust.SUM(event.amt))", VNum 124); ("SUM(event.amt)", VNum 1115); ("label", VStr "x")]);
      ((VNum 12, Some 2400000%Z), [("cust.SUM(event.amt)", VNum 4); ("ABSOLUTE(cust.SUM(event.amt))", VNum 4); ("SUM(event.amt)", VNum 4); ("label", VStr "y")]);
      ((VNum 10, Some 1900000%Z), [("cust.SUM(event.amt)", VNum 24); ("ABSOLUTE(cust.SUM(event.amt))", VNum 24); ("SUM(event.amt)", VNum 15); ("label", VStr "z")]);
      ((VNum 11, None), [])]%string.
Proof.
  split; [apply ok_request; intros l; apply Permutation_refl|].
  split; [intros f Hf; cbn in Hf; in_cases Hf; left; cbn; auto|].
  split; [intros p a Ha; apply ok_approximable in Ha as [_ ->]; left; cbn; auto|].
  split; [exact ok_separate|]. split; [reflexivity|]. split; [left; reflexivity|]. split; [vm_compute; reflexivity|].
  split; [cbn; repeat (constructor; [cbn; intuition discriminate|]); constructor|].
  split; [intros F; eapply given_at_rounded; apply ok_request; intros l; apply Permutation_refl|].
  split; [exact ok_sum_approximable|]. vm_compute. reflexivity.
Qed.

(** ** Without the condition that some aggregation is not approximated, rows get data from after their time: session 10 starts
    at 5 ns, but at 3 ns its variable is already there (calculate_feature_matrix.py L388-393 then calculates at the present
    time) *)
Definition leak_fs : list feat := [f_csum; f_sdev].
Theorem C12_no_leak_refuted :
  exists es idvars ord fs eid now td cs fm r f i t n,
    valid_request es idvars ord None fs eid /\ no_silent_default fs /\ separate (es_rels es) fs /\
    make_td [("ms"%string, 1%Z)] = Ok td /\ NoDup (map (fun c => (c_id c, c_time c)) cs) /\
    cfm_approximate es idvars ord true (fun l => l) now None td fs [] Sequential None cs = Ok fm /\
    In ((i, Some t), r) fm /\ In f fs /\ (forall a p, reaches f a -> ~ approximable fs p a) /\
    nth_error (fnames (es_rels es) f) 0 = Some n /\
    value_of es t None true f i = [VNull] /\ cell n r = VNum 0.
Proof.
  assert (forall g, needed leak_fs g -> In g [f_csum; f_sdev; f_sum; f_amt]) as Hneed.
  { intros g (f0 & Hf0 & Hr). assert (In f0 [f_csum; f_sdev; f_sum; f_amt]) as H0 by (cbn in *; tauto). clear Hf0.
    induction Hr as [f|f d g Hd Hr IH]; [exact H0|]. apply IH. cbn in H0. in_cases H0; cbn in Hd; cbn; in_cases Hd; tauto. }
  assert (forall p a, approximable leak_fs p a -> a = f_sum) as Happ.
  { intros p a (_ & f & Hf & Hl & _). cbn in Hf. in_cases Hf; [apply (csum_leads p a Hl) | inversion Hl]. }
  assert (approximable leak_fs [(true, cust_sess)] f_sum) as Hsum.
  { split; [exact I|]. exists f_csum. split; [left; reflexivity|]. split; [apply leads_one; discriminate|]. intros g Hg _. apply Hneed in Hg. cbn in Hg. in_cases Hg; reflexivity. }
  assert (forall p b f, planned demo_rels (approximated_at demo_rels leak_fs) leak_fs p b f -> In f leak_fs /\ p = [] /\ b = false) as Hpl.
  { induction 1 as [f Hf Hn|p b f d Hp IH Hd Hn]; [split; [exact Hf|]; split; [reflexivity|]; cbn in Hf; in_cases Hf; reflexivity|].
    destruct IH as (Hf & -> & ->). cbn in Hf. in_cases Hf; cbn in Hd; in_cases Hd. exfalso. apply Hn. exists f_sum. split; [exact Hsum | reflexivity]. }
  exists (demo_es late), demo_idvars, (fun l => l), leak_fs, "sess"%string, 9000000%Z, td_ms, [mkCutoff (VNum 10) (Some 3%Z) None []].
  eexists. exists [("cust.SUM(event.amt)", VNum 0); ("dev", VNum 0)]%string, f_sdev, (VNum 10), 3%Z, "dev"%string.
  split; [apply (valid_request_incl _ _ _ _ ap_fs); [apply ap_request; intros l; apply Permutation_refl | intros f Hf; cbn in *; tauto]|].
  split; [intros f Hf; cbn in Hf; in_cases Hf; left; cbn; auto|].
  split. { constructor.
    - intros p b f q Hp Ha. apply Happ in Ha as ->. apply Hpl in Hp as (Hf & _). cbn in Hf. repeat (destruct Hf as [Hf|Hf]; [discriminate Hf|]). destruct Hf.
    - intros p a _ (p0 & g & q & r & Hp & _). apply Hpl in Hp as (_ & _ & E); discriminate E. }
  split; [reflexivity|]. split; [cbn; nodup_tac|]. split; [vm_compute; reflexivity|]. split; [left; reflexivity|]. split; [right; left; reflexivity|].
  split; [intros a p Hr Ha; apply Happ in Ha as ->; inversion Hr as [|? d ? Hd]; subst; destruct Hd|].
  split; [reflexivity|]. split; vm_compute; reflexivity.
Qed.

(** ** Where a feature needs the full entity of an approximated aggregation, it only gets the values of the instances the group
    of rows refers to: the running total of customer 2 leaves out customer 1 *)
Definition full_fs : list feat := [f_csum; f_ctotal; f_own].
Theorem C12_full_entity_refuted :
  exists es idvars ord fs eid now td cs fm given r f i t n,
    valid_request es idvars ord None fs eid /\ no_silent_default fs /\
    (forall p a, approximable fs p a -> single_column a \/ fdefault a = VNull) /\
    make_td [("ms"%string, 1%Z)] = Ok td /\ NoDup (map (fun c => (c_id c, c_time c)) cs) /\
    no_unapproximated (es_rels es) fs (gather_approximate (es_rels es) fs) = false /\
    (forall F, rounded_values es None true fs F (given F)) /\
    cfm_approximate es idvars ord true (fun l => l) now None td fs [] Sequential None cs = Ok fm /\
    In ((i, Some t), r) fm /\ In f fs /\ nth_error (fnames (es_rels es) f) 0 = Some n /\ greatest_multiple 1000000 t (floor_to 1000000 t) /\
    value_with es t None true (given (floor_to 1000000 t)) f i = [VNum 28] /\ cell n r = VNum 4.
Proof.
  assert (valid_request (demo_es late) demo_idvars (fun l => l) None full_fs "sess"%string) as Hv.
  { apply (valid_request_incl _ _ _ _ ap_fs); [apply ap_request; intros l; apply Permutation_refl | intros f Hf; cbn in *; tauto]. }
  exists (demo_es late), demo_idvars, (fun l => l), full_fs, "sess"%string, 9000000%Z, td_ms, [mkCutoff (VNum 12) (Some 1500000%Z) None []].
  eexists. exists (given_at (demo_es late) None true full_fs), [("cust.SUM(event.amt)", VNum 4); ("cust.CUM_SUM(SUM(event.amt))", VNum 4); ("SUM(event.amt)", VNum 4)]%string, f_ctotal, (VNum 12), 1500000%Z, "cust.CUM_SUM(SUM(event.amt))"%string.
  split; [exact Hv|]. split; [intros f Hf; cbn in Hf; in_cases Hf; left; cbn; auto|].
  split. { intros p a (Ha & f & Hf & Hl & _). cbn in Hf. in_cases Hf.
    - apply csum_leads in Hl as [_ ->]. left; cbn; auto.
    - inversion Hl as [? ? ? Hno|? ? ? p' ? Hl']; subst; [destruct Ha | inversion Hl'].
    - inversion Hl. }
  split; [reflexivity|]. split; [cbn; nodup_tac|]. split; [vm_compute; reflexivity|]. split; [intros F; eapply given_at_rounded; exact Hv|].
  split; [vm_compute; reflexivity|]. split; [left; reflexivity|]. split; [right; left; reflexivity|]. split; [vm_compute; reflexivity|].
  split; [apply floor_greatest; reflexivity|]. split; vm_compute; reflexivity.
Qed.

Print Assumptions C12_approximated.
Print Assumptions C12_matrix_partial.
Print Assumptions C12_exact_partial.
Print Assumptions C12_no_leak_refuted.
Print Assumptions C12_full_entity_refuted.
