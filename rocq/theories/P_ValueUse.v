(** C07, C08: consequences of C06 for the rows and entries of a feature matrix. *)
From Verif Require Import Base BaseFacts M_Schema S_Schema M_Trie M_Table M_Query S_Query L_Query S_View L_View
  M_Feature M_FeatureSet M_Calc S_Calc S_Group S_Plan S_Sem S_Value L_Trie L_Frame L_FeatureSet L_Plan L_Group P_Select L_Schema
  L_Value1 L_Value2 L_Value3 L_Value4 L_Value5 L_Value6 L_Value7 P_Value X_Demo P_Group.

(** [entry m i n v]: matrix [m] holds [v] in a row of instance [i] and a column named [n] *)
Definition entry (m : matrix) (i : val) (n : string) (v : val) : Prop :=
  exists vals k, In (i, vals) (m_rows m) /\ nth_error (m_cols m) k = Some n /\ nth_error vals k = Some v.

(** an aggregation of several columns (or outputs) with a non-null default takes another value for one of
    the requested instances *)
Definition some_value (es : entityset) (T : Z) (tw : option window) (incl : bool) (eid : string) (ids : list val) (f : feat) : Prop :=
  single_column f \/ fdefault f = VNull \/
  exists i r, In i ids /\ In r (rows_at es T tw incl eid) /\ cell (index_of es eid) r = i /\ sem es T tw incl f r <> repeat (fdefault f) (fnout f).

Lemma flat_map_nth2 {A B C} (h : A -> list B) (k : A -> list C) l j b c : (forall a, In a l -> List.length (h a) = List.length (k a)) ->
  nth_error (flat_map h l) j = Some b -> nth_error (flat_map k l) j = Some c ->
  exists a i, In a l /\ nth_error (h a) i = Some b /\ nth_error (k a) i = Some c.
Proof.
  revert j. induction l as [|a l IH]; intros j Hl H1 H2; [destruct j; discriminate|]. cbn [flat_map] in H1, H2.
  pose proof (Hl a (or_introl eq_refl)) as E. destruct (Nat.lt_ge_cases j (List.length (h a))) as [Hlt|Hge].
  - rewrite nth_error_app1 in H1 by exact Hlt. rewrite nth_error_app1 in H2 by lia. exists a, j. split; [left; reflexivity|]. auto.
  - rewrite nth_error_app2 in H1 by exact Hge. rewrite nth_error_app2 in H2 by lia. rewrite <- E in H2.
    destruct (IH _ (fun x Hx => Hl x (or_intror Hx)) H1 H2) as (a' & i & Hin & Ha). exists a', i. split; [right; exact Hin | exact Ha].
Qed.

(** every entry of the matrix is the meaning of a requested feature *)
Theorem C06_entries_partial es idvars ord T tw incl fs eid ids m : valid_request es idvars ord tw fs eid ->
  (forall f, In f fs -> some_value es T tw incl eid ids f) ->
  run es idvars ord fs no_appr no_pre T tw incl ids = Ok m ->
  forall f j n i v, In f fs -> nth_error (fnames (es_rels es) f) j = Some n -> entry m i n v -> nth_error (value_of es T tw incl f i) j = Some v.
Proof.
  intros Hv Hd Hrun f j n i v Hf Hj (vals & k & Hin & Hk & Hvk).
  destruct (C06_values_partial es idvars ord T tw incl fs eid ids m Hv Hd Hrun) as (Hc & _ & Hvals). rewrite Hc in Hk. rewrite (Hvals i vals Hin) in Hvk.
  destruct (flat_map_nth2 (fnames (es_rels es)) (fun f => value_of es T tw incl f i) fs k n v) as (f' & j' & Hf' & H1 & H2); [|exact Hk | exact Hvk |].
  - intros a Ha. unfold value_of. rewrite fnaming_len. destruct (row_with _ _ _) as [r|]; [|rewrite repeat_length; reflexivity].
    symmetry. apply (sem_length es T tw incl fs (request_wt es idvars ord tw fs eid Hv) (vr_plain _ _ _ _ _ _ Hv) a). apply needed_self. exact Ha.
  - assert (forall a, In a fs -> calculated fs a /\ fentity a = eid) as HC.
    { intros a Ha. destruct (vr_features _ _ _ _ _ _ Hv a Ha) as (_ & Hs & He). split; [split; [apply needed_self; exact Ha | exact Hs] | exact He]. }
    destruct (HC f Hf) as [C1 E1], (HC f' Hf') as [C2 E2].
    destruct (cn_columns es fs (vr_names _ _ _ _ _ _ Hv) f f' j j' n C1 C2) as [-> ->]; [congruence | exact Hj | exact H1 | exact H2].
Qed.

(** C07: two requests that share a feature and an instance give the same value, whatever else is requested *)
Theorem C07_independent_partial es idvars ord1 ord2 T tw incl fs1 fs2 eid ids1 ids2 m1 m2 :
  valid_request es idvars ord1 tw fs1 eid -> valid_request es idvars ord2 tw fs2 eid ->
  (forall f, In f fs1 -> some_value es T tw incl eid ids1 f) -> (forall f, In f fs2 -> some_value es T tw incl eid ids2 f) ->
  run es idvars ord1 fs1 no_appr no_pre T tw incl ids1 = Ok m1 -> run es idvars ord2 fs2 no_appr no_pre T tw incl ids2 = Ok m2 ->
  forall f n i v1 v2, In f fs1 -> In f fs2 -> In n (fnames (es_rels es) f) -> entry m1 i n v1 -> entry m2 i n v2 -> v1 = v2.
Proof.
  intros H1 H2 D1 D2 R1 R2 f n i v1 v2 F1 F2 Hn E1 E2. apply In_nth_error in Hn as (j & Hj).
  pose proof (C06_entries_partial _ _ _ _ _ _ _ _ _ _ H1 D1 R1 f j n i v1 F1 Hj E1) as A.
  pose proof (C06_entries_partial _ _ _ _ _ _ _ _ _ _ H2 D2 R2 f j n i v2 F2 Hj E2) as B. congruence.
Qed.

(** ** C08 *)
Lemma run_rows es idvars ord fs appr pre T tw incl ids m : run es idvars ord fs appr pre T tw incl ids = Ok m ->
  map fst (m_rows m) = ids \/ map fst (m_rows m) = dedup_by val_eqb [] ids.
Proof.
  unfold run. destruct fs as [|f0 fs]; [discriminate|]. destruct ids as [|i0 ids'] eqn:Ei; [discriminate|]. rewrite <- Ei. clear Ei. cbv zeta. intros H.
  apply bind_Ok in H as (e & _ & H). apply bind_Ok in H as (tr & _ & H). destruct (snd (tvalue tr)) as [d|]; [|discriminate]. destruct (rows d) as [|x xs].
  - left. injection H as <-. cbn [m_rows]. rewrite map_map. cbn [fst]. apply map_id.
  - right. destruct (Nat.eqb _ _); [|discriminate]. apply bind_Ok in H as (us & _ & H). injection H as <-. cbn [m_rows]. rewrite map_map. cbn [fst]. apply map_id.
Qed.

(** one row per requested instance, in the order of the request, when the request has no duplicates *)
Theorem C08_rows_partial es idvars ord fs appr pre T tw incl ids m : NoDup ids ->
  run es idvars ord fs appr pre T tw incl ids = Ok m -> map fst (m_rows m) = ids.
Proof.
  intros Hn H. apply run_rows in H as [H|H]; [exact H|]. rewrite H. apply (dedup_NoDup_id val_eqb val_eqb_spec); [exact Hn | intros x _ []].
Qed.

(** an instance without a visible row gets the default of every feature *)
Theorem C08_defaults_partial es idvars ord T tw incl fs eid ids m : valid_request es idvars ord tw fs eid ->
  (forall f, In f fs -> some_value es T tw incl eid ids f) ->
  run es idvars ord fs no_appr no_pre T tw incl ids = Ok m ->
  forall i vals, In (i, vals) (m_rows m) -> (forall r, In r (rows_at es T tw incl eid) -> cell (index_of es eid) r <> i) ->
  vals = flat_map (fun f => repeat (fdefault f) (fnout f)) fs.
Proof.
  intros Hv Hd Hrun i vals Hin Hno. rewrite (proj2 (proj2 (C06_values_partial es idvars ord T tw incl fs eid ids m Hv Hd Hrun)) i vals Hin).
  apply flat_map_ext_in. intros f Hf. unfold value_of. destruct (row_with _ _ _) as [r|] eqn:E; [|reflexivity]. exfalso.
  rewrite (proj2 (proj2 (vr_features _ _ _ _ _ _ Hv f Hf))) in E. apply row_with_In in E as [E1 E2]. exact (Hno r E1 E2).
Qed.

(** ** C52: use_previous *)
(** the rows an aggregation looks at, before use_previous: those that belong to row [r] and satisfy the condition *)
Definition matching (es : entityset) (T : Z) (tw : option window) (incl : bool) (eid ce : string) (path : list relationship) (wh : option feat) (r : row) : list row :=
  filter (fun c => val_eqb (owner es T tw incl path c) (cell (index_of es eid) r) &&
                   match wh with Some w => val_eqb (hd VNull (sem es T tw incl w c)) (VBool true) | None => true end) (rows_at es T tw incl ce).
(** the outputs of an aggregation on rows [rs] *)
Definition aggregated (es : entityset) (T : Z) (tw : option window) (incl : bool) (p : prim) (bs : list feat) (rs : list row) : list val :=
  match rs with
  | [] => repeat (p_default p) (p_nout p)
  | _ => map (fun v => if is_null v then p_default p else v)
           (p_agg p (if p_time p then Some T else None) (map (fun b => map (fun c => hd VNull (sem es T tw incl b c)) rs) bs))
  end.

Lemma matching_kept es T tw incl eid ce path wh r :
  matching es T tw incl eid ce path wh r =
  (let mine := filter (fun c => val_eqb (owner es T tw incl path c) (cell (index_of es eid) r)) (rows_at es T tw incl ce) in
   match wh with
   | Some w => filter (fun c => match hd VNull (sem es T tw incl w c) with VBool b => b | _ => false end) mine
   | None => mine
   end).
Proof.
  unfold matching. cbv zeta. destruct wh as [w|].
  - rewrite filter_filter. apply filter_ext. intros c. destruct (hd VNull (sem es T tw incl w c)) as [|z|[|]|x]; cbn [val_eqb Bool.eqb]; rewrite ?andb_true_r, ?andb_false_r; reflexivity.
  - apply filter_ext. intros c. apply andb_true_r.
Qed.

Section Previous.
  Variables (es : entityset) (idvars : string -> list string) (ord : list string -> list string) (T : Z) (tw : option window) (incl : bool)
    (fs : list feat) (eid : string) (ids : list val) (m : matrix).
  Hypothesis Hv : valid_request es idvars ord tw fs eid.
  Hypothesis Hd : forall f, In f fs -> some_value es T tw incl eid ids f.
  Hypothesis Hrun : run es idvars ord fs no_appr no_pre T tw incl ids = Ok m.

  Lemma agg_entry p bs path u wh prev nm ce b j n i r v : In (FAgg p bs path u wh prev nm) fs -> hd_error bs = Some b -> fentity b = ce ->
    nth_error (fnames (es_rels es) (FAgg p bs path u wh prev nm)) j = Some n ->
    In r (rows_at es T tw incl eid) -> cell (index_of es eid) r = i -> entry m i n v ->
    nth_error (aggregated es T tw incl p bs (previous T prev (time_of es ce) (matching es T tw incl eid ce path wh r))) j = Some v.
  Proof.
    intros Hf Hb Hce Hj Hr Hi He. pose proof (C06_entries_partial _ _ _ _ _ _ _ _ _ _ Hv Hd Hrun _ j n i v Hf Hj He) as H.
    set (f := FAgg p bs path u wh prev nm) in *. unfold value_of in H. assert (fentity f = eid) as Ef by (apply (vr_features _ _ _ _ _ _ Hv f Hf)). rewrite Ef, <- Hi in H.
    rewrite (row_with_unique (index_of es eid)) in H; [|apply R_NoDup; [apply (vr_es _ _ _ _ _ _ Hv) | apply (vr_index _ _ _ _ _ _ Hv) | apply (vr_window _ _ _ _ _ _ Hv)] | exact Hr].
    rewrite matching_kept. unfold f in H. cbn [sem] in H. fold f in H. rewrite Ef in H. destruct bs as [|b0 bs]; [discriminate|]. injection Hb as ->. rewrite Hce in H. cbv zeta in H |- *.
    match type of H with context [previous T prev (time_of es ce) ?K] => set (X := previous T prev (time_of es ce) K) in * end. clearbody X. destruct X; exact H.
  Qed.

  (** a number of observations: the last rows, that many or all of them *)
  Theorem C52_observations_partial p bs path u wh d nm k b j n i r v : In (FAgg p bs path u wh (Some d) nm) fs -> hd_error bs = Some b ->
    dget String.eqb "o"%string (td_times d) = Some k ->
    nth_error (fnames (es_rels es) (FAgg p bs path u wh (Some d) nm)) j = Some n ->
    In r (rows_at es T tw incl eid) -> cell (index_of es eid) r = i -> entry m i n v ->
    exists before rs, matching es T tw incl eid (fentity b) path wh r = before ++ rs /\
      List.length rs = Nat.min (Z.to_nat k) (List.length (matching es T tw incl eid (fentity b) path wh r)) /\
      nth_error (aggregated es T tw incl p bs rs) j = Some v.
  Proof.
    intros Hf Hb Ho Hj Hr Hi He. pose proof (agg_entry p bs path u wh (Some d) nm _ b j n i r v Hf Hb eq_refl Hj Hr Hi He) as H.
    set (M := matching es T tw incl eid (fentity b) path wh r) in *. unfold previous in H. rewrite Ho in H. unfold last_obs in H.
    exists (firstn (List.length M - Z.to_nat k) M), (skipn (List.length M - Z.to_nat k) M). split; [symmetry; apply firstn_skipn|]. split; [|exact H].
    rewrite skipn_length. lia.
  Qed.

  (** a time window: exactly the rows stamped at or after the cutoff minus the delta, in order *)
  Theorem C52_window_partial p bs path u wh d nm b e ti j n i r v : In (FAgg p bs path u wh (Some d) nm) fs -> hd_error bs = Some b ->
    dget String.eqb "o"%string (td_times d) = None -> es_get es (fentity b) = Ok e -> e_time e = Some ti ->
    nth_error (fnames (es_rels es) (FAgg p bs path u wh (Some d) nm)) j = Some n ->
    In r (rows_at es T tw incl eid) -> cell (index_of es eid) r = i -> entry m i n v ->
    nth_error (aggregated es T tw incl p bs
      (filter (fun c => match cell ti c with VNum t => Z.leb (td_sub d T) t | _ => false end) (matching es T tw incl eid (fentity b) path wh r))) j = Some v.
  Proof.
    intros Hf Hb Ho Hge Ht Hj Hr Hi He. pose proof (agg_entry p bs path u wh (Some d) nm _ b j n i r v Hf Hb eq_refl Hj Hr Hi He) as H.
    unfold previous in H. rewrite Ho in H. unfold time_of in H. rewrite Hge, Ht in H.
    erewrite filter_ext; [exact H|]. intros c. unfold v_ge. reflexivity.
  Qed.
End Previous.

(** the demonstration request alone and with other instances *)
Example C07_nonvacuous :
  valid_request (demo_es []) demo_idvars (fun l => l) None demo_fs "cust"%string /\
  (forall f, In f demo_fs -> some_value (demo_es []) 7 None true "cust"%string [VNum 1] f) /\
  exists m1 m2, run (demo_es []) demo_idvars (fun l => l) demo_fs no_appr no_pre 7 None true [VNum 1] = Ok m1 /\
    run (demo_es []) demo_idvars (fun l => l) demo_fs no_appr no_pre 7 None true [VNum 2; VNum 1; VNum 9] = Ok m2 /\
    entry m1 (VNum 1) "SUM(event.CUM_SUM(amt) by sid)"%string (VNum 31) /\ entry m2 (VNum 1) "SUM(event.CUM_SUM(amt) by sid)"%string (VNum 31) /\
    In (VNum 9, [VNum 0; VNum 0; VNull; VNum 0]) (m_rows m2).
Proof.
  split; [apply demo_request; intros l; apply Permutation_refl|]. split.
  - intros f Hf. in_cases Hf; try (left; vm_compute; auto; fail).
    right; right. exists (VNum 1), (demo_cust 1 30). split; [left; reflexivity|]. split; [vm_compute; auto|]. split; [reflexivity|]. vm_compute. discriminate.
  - do 2 eexists. split; [vm_compute; reflexivity|]. split; [vm_compute; reflexivity|]. unfold entry. cbn [m_rows m_cols].
    split; [eexists _, 3; split; [left; reflexivity|]; split; reflexivity|]. split; [eexists _, 3; split; [right; left; reflexivity|]; split; reflexivity|].
    right; right; left. reflexivity.
Qed.

Print Assumptions C06_entries_partial.
Print Assumptions C07_independent_partial.
Print Assumptions C08_rows_partial.
Print Assumptions C08_defaults_partial.
Print Assumptions C52_observations_partial.
Print Assumptions C52_window_partial.

(** the last two events of each customer, and the events of the last two time units *)
Definition td_two : tdelta := mkTd [("o", 2%Z)]%string (fun t => t) "2 Observations".
Definition td_2s : tdelta := mkTd [("s", 2%Z)]%string (fun t => (t - 2)%Z) "2 Seconds".
Definition f_obs : feat := FAgg p_sum [f_amt] demo_rels true None (Some td_two) None.
Definition f_win : feat := FAgg p_sum [f_amt] demo_rels true None (Some td_2s) None.
Lemma prev_needed f : needed [f_obs; f_win] f -> In f [f_obs; f_win; f_amt].
Proof.
  intros (f0 & Hf0 & Hr). assert (In f0 [f_obs; f_win; f_amt]) as H0 by (cbn in *; tauto). clear Hf0.
  induction Hr as [f|f d g Hd Hr IH]; [exact H0|]. apply IH. cbn in H0. in_cases H0; cbn in Hd; cbn; in_cases Hd; tauto.
Qed.
Lemma prev_request : valid_request (demo_es []) demo_idvars (fun l => l) None [f_obs; f_win] "cust"%string.
Proof.
  pose proof (demo_request (fun l => l) (fun l => Permutation_refl l)) as Hd. constructor; try apply Hd.
  - assert (forall prev, wt demo_rels (FAgg p_sum [f_amt] demo_rels true None prev None)) as Hagg.
    { intros prev. apply wt_agg with "event"%string; try discriminate; try (intros b [<-|[]]; try constructor; split; reflexivity).
      unfold backward_chain, demo_rels at 2 3.
      apply (chain_cons r_pe r_ce demo_rels (mkRel "cust" "id" "sess" "cid") _ "event"); [left; reflexivity|].
      apply (chain_cons r_pe r_ce demo_rels (mkRel "sess" "id" "event" "sid") _ "event"); [right; left; reflexivity|]. apply chain_nil. }
    intros f Hf. in_cases Hf; (split; [apply Hagg | split; [intros [] | reflexivity]]).
  - constructor.
    + intros f g Hf Hg. apply prev_needed in Hf, Hg. cbn in Hf, Hg. in_cases Hf; in_cases Hg; vm_compute; intros E; try reflexivity; discriminate E.
    + intros f g i j n [Hf _] [Hg _] E Hi Hj. apply prev_needed in Hf, Hg. cbn in Hf, Hg.
      in_cases Hf; in_cases Hg; try discriminate E; vm_compute in Hi, Hj; destruct i as [|[|i]]; try discriminate Hi; destruct j as [|[|j]]; try discriminate Hj; injection Hi as <-; try discriminate Hj; split; reflexivity.
    + intros f e n [Hf _] He Hn Hc. apply prev_needed in Hf. cbn in Hf. in_cases Hf; try exact I; vm_compute in He; injection He as <-; vm_compute in Hn, Hc; in_cases Hn; exfalso; repeat (destruct Hc as [Hc|Hc]; [discriminate Hc|]); destruct Hc.
    + intros e v nm Hf. apply prev_needed in Hf. cbn in Hf. repeat (destruct Hf as [Hf|Hf]; [try discriminate Hf; injection Hf as <- <- <-; reflexivity|]). destruct Hf.
    + intros b n nm Hf. apply prev_needed in Hf. cbn in Hf. repeat (destruct Hf as [Hf|Hf]; [discriminate Hf|]). destruct Hf.
    + intros eid c Hl. apply demo_links in Hl as [-> El]. change (es_rels (demo_es [])) with demo_rels. rewrite El. split.
      * intros e He Hc. vm_compute in He. injection He as <-. vm_compute in Hc. repeat (destruct Hc as [Hc|Hc]; [discriminate Hc|]); destruct Hc.
      * intros f [Hf _] E Hc. apply prev_needed in Hf. cbn in Hf. in_cases Hf; try discriminate E; vm_compute in Hc; repeat (destruct Hc as [Hc|Hc]; [discriminate Hc|]); destruct Hc.
  - constructor.
    + intros f g [Hf _] [Hg _] E Ec _. apply prev_needed in Hf, Hg. cbn in Hf, Hg. in_cases Hf; in_cases Hg; try discriminate E; try discriminate Ec; reflexivity.
    + intros f [Hf _]. apply prev_needed in Hf. cbn in Hf. in_cases Hf; try exact I; do 2 eexists; (split; [reflexivity | discriminate]).
    + intros f g a b [Hf _] [Hg _] E E'. apply prev_needed in Hf, Hg. cbn in Hf, Hg. in_cases Hf; in_cases Hg; try discriminate E; try discriminate E'; injection E as <-; injection E' as <-; try reflexivity; discriminate.
    + intros f d n [Hf _] E En. apply prev_needed in Hf. cbn in Hf. in_cases Hf; try discriminate E; injection E as <-; try discriminate En; injection En as <-; reflexivity.
    + intros p bs path u wh prev nm [Hf _] r Hr. apply prev_needed in Hf. cbn in Hf.
      repeat (destruct Hf as [Hf|Hf]; [try discriminate Hf; injection Hf as <- <- <- <- <- <- <-; cbn in Hr; in_cases Hr; reflexivity|]). destruct Hf.
    + intros p bs path u w prev nm [Hf _]. apply prev_needed in Hf. cbn in Hf. repeat (destruct Hf as [Hf|Hf]; [discriminate Hf|]). destruct Hf.
    + intros r b nm b' nm' n [Hf _]. apply prev_needed in Hf. cbn in Hf. repeat (destruct Hf as [Hf|Hf]; [discriminate Hf|]). destruct Hf.
    + intros f [Hf _]. apply prev_needed in Hf. cbn in Hf. in_cases Hf; try exact I; intros t cs _; reflexivity.
    + intros p bs nm [Hf _]. apply prev_needed in Hf. cbn in Hf. repeat (destruct Hf as [Hf|Hf]; [discriminate Hf|]). destruct Hf.
    + intros p bs g nm [Hf _]. apply prev_needed in Hf. cbn in Hf. repeat (destruct Hf as [Hf|Hf]; [discriminate Hf|]). destruct Hf.
Qed.
(** at time 8 customer 1 has events at 5, 6, 7 of amounts 7, 8, 9 *)
Example C52_nonvacuous :
  valid_request (demo_es []) demo_idvars (fun l => l) None [f_obs; f_win] "cust"%string /\
  (forall f, In f [f_obs; f_win] -> some_value (demo_es []) 8 None true "cust"%string [VNum 1] f) /\
  exists m, run (demo_es []) demo_idvars (fun l => l) [f_obs; f_win] no_appr no_pre 8 None true [VNum 1; VNum 2] = Ok m /\
    m_rows m = [(VNum 1, [VNum 17; VNum 17]); (VNum 2, [VNum 4; VNum 4])] /\
    map (cell "amt"%string) (matching (demo_es []) 8 None true "cust" "event" demo_rels None (demo_cust 1 30)) = [VNum 7; VNum 8; VNum 9].
Proof.
  split; [exact prev_request|]. split; [intros f Hf; in_cases Hf; left; vm_compute; auto|]. eexists. split; [vm_compute; reflexivity|]. split; vm_compute; reflexivity.
Qed.
