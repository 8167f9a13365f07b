(** C09, C10, C59: the driver of calculate_feature_matrix run with the feature set calculator. *)
From Verif Require Import Base BaseFacts M_Schema S_Schema M_Trie M_Table M_Query S_Query L_Query S_View L_View
  M_Feature M_FeatureSet M_Calc S_Calc S_Group S_Plan S_Sem S_Value L_Trie L_Frame L_FeatureSet L_Plan L_Group P_Select L_Schema
  L_Value1 L_Value2 L_Value3 L_Value4 L_Value5 L_Value6 L_Value7 P_Value P_ValueUse X_Demo P_Group M_CFM S_CFM L_CFM P_CFM.

(** the calculator the driver is given (calculate_feature_matrix.py L356-363, L424-432) *)
Definition calculator (es : entityset) (idvars : string -> list string) (ord : list string -> list string) (fs : list feat) (incl : bool)
    (_ : option unit) (tw : option window) (t : Z) (ids : list val) : res matrix :=
  run es idvars ord fs no_appr no_pre t tw incl ids.

(** every requested feature is a single pandas column, or has the null default *)
Definition no_silent_default (fs : list feat) : Prop := forall f, In f fs -> single_column f \/ fdefault f = VNull.

(** the values of instance [i] at time [t] *)
Definition meanings (es : entityset) (tw : option window) (incl : bool) (fs : list feat) (t : Z) (i : val) : list val :=
  flat_map (fun f => value_of es t tw incl f i) fs.

Theorem C07_pointwise_partial es idvars ord tw incl fs eid : valid_request es idvars ord tw fs eid -> no_silent_default fs ->
  pointwise (calculator es idvars ord fs incl None tw) (flat_map (fnames (es_rels es)) fs) (meanings es tw incl fs).
Proof.
  intros Hv Hd t ids m Hn Hrun. unfold calculator in Hrun.
  destruct (C06_values_partial es idvars ord t tw incl fs eid ids m Hv) as (Hc & _ & Hvals); [intros f Hf; destruct (Hd f Hf) as [H|H]; auto | exact Hrun|].
  pose proof (C08_rows_partial _ _ _ _ _ _ _ _ _ _ _ Hn Hrun) as Hr. destruct m as [mc mr]. cbn [m_cols m_rows] in *. subst mc. f_equal.
  rewrite <- Hr, map_map. rewrite <- (map_id mr) at 1. apply map_ext_in. intros [i vals] Hin. cbn [fst]. rewrite (Hvals i vals Hin). reflexivity.
Qed.

Section Matrix.
  Variables (es : entityset) (idvars : string -> list string) (ord : list string -> list string) (tw : option window) (incl : bool) (fs : list feat) (eid : string).
  Variables (sort_ids : list val -> list val) (now : Z) (pass : list string).
  Hypothesis Hv : valid_request es idvars ord tw fs eid.
  Hypothesis Hd : no_silent_default fs.
  Hypothesis Hsort : forall l, Permutation (sort_ids l) l.
  Notation matrix_of := (cfm (calculator es idvars ord fs incl) (fun _ => Ok tt) sort_ids now tw pass).

  (** one row per row of the cutoff frame, in its order; each cell of a feature is the meaning of the feature for the row's
      instance at the row's time; passed columns are copied; rows without a time are empty *)
  Theorem C59_matrix_partial m na size cs fm : fair m -> (forall n a, m = Workers n a -> 0 < n) -> (forall num den, size = Some (num, den) -> (0 < den)%Z) ->
    NoDup (map (fun c => (c_id c, c_time c)) cs) ->
    matrix_of m false na size (CFrame cs) (CFrame cs) = Ok fm ->
    Forall2 (fun c r => fst r = (c_id c, c_time c) /\
      match c_time c with
      | Some t =>
          (forall f k n, In f fs -> nth_error (fnames (es_rels es) f) k = Some n -> ~ In n pass ->
             nth_error (value_of es t tw incl f (c_id c)) k = Some (cell n (snd r))) /\
          (forall n, In n pass -> cell n (snd r) = cell n (c_pass c))
      | None => forall n, cell n (snd r) = VNull
      end) cs fm.
  Proof.
    intros Hf Hw Hs Hn H. pose proof (C10_matrix_answers_requests _ _ _ _ _ _ _ _ _ _ _ _ _ (C07_pointwise_partial _ _ _ _ _ _ _ Hv Hd) Hsort Hf Hw Hs Hn H) as Ha.
    eapply Forall2_impl; [|exact Ha]. intros c r _ _ [H1 H2]. split; [exact H1|]. destruct (c_time c) as [t|]; [|exact H2]. split.
    - intros f k n Hin Hk Hp. rewrite (H2 n). destruct (mem_str n pass) eqn:E; [apply mem_str_In in E; contradiction|].
      assert (forall g, In g fs -> List.length (fnames (es_rels es) g) = List.length (value_of es t tw incl g (c_id c))) as Hlen.
      { intros g Hg. unfold value_of. destruct (row_with _ _ _) as [x|].
        - rewrite (sem_length es t tw incl fs (request_wt es idvars ord tw fs eid Hv) (vr_plain _ _ _ _ _ _ Hv) g); [apply fnaming_len | apply needed_self; exact Hg].
        - rewrite repeat_length. apply fnaming_len. }
      assert (forall g j n', In g fs -> nth_error (fnames (es_rels es) g) j = Some n' -> n' = n -> g = f /\ j = k) as Hu.
      { intros g j n' Hg Hj ->. apply (cn_columns es fs (vr_names _ _ _ _ _ _ Hv) g f j k n); [| | |exact Hj | exact Hk].
        - split; [apply needed_self; exact Hg | apply (vr_features _ _ _ _ _ _ Hv g Hg)].
        - split; [apply needed_self; exact Hin | apply (vr_features _ _ _ _ _ _ Hv f Hin)].
        - rewrite (proj2 (proj2 (vr_features _ _ _ _ _ _ Hv g Hg))), (proj2 (proj2 (vr_features _ _ _ _ _ _ Hv f Hin))). reflexivity. }
      destruct (nth_error (value_of es t tw incl f (c_id c)) k) as [v|] eqn:Ev; [|exfalso; apply nth_error_None in Ev; rewrite <- (Hlen f Hin) in Ev; apply nth_error_None in Ev; congruence].
      f_equal. unfold meanings. clear Ha H2. 
      assert (forall gs, (forall g, In g gs -> In g fs) -> In f gs -> cell n (combine (flat_map (fnames (es_rels es)) gs) (flat_map (fun f0 => value_of es t tw incl f0 (c_id c)) gs)) = v) as Hx; [|symmetry; apply Hx; auto].
      intros gs Hsub. unfold cell.
      assert (forall (ns : list string) (vs : list val) ns' vs', List.length ns = List.length vs -> combine (ns ++ ns') (vs ++ vs') = combine ns vs ++ combine ns' vs') as Hcomb.
      { induction ns as [|a ns IH]; intros [|b vs] ns' vs' E2; try discriminate E2; [reflexivity|]. cbn [app combine]. f_equal. apply IH. now injection E2. }
      assert (forall l1 l2 : row, ~ In n (map fst l1) -> dget String.eqb n (l1 ++ l2) = dget String.eqb n l2) as Happ.
      { induction l1 as [|[a b] l1 IH]; intros l2 Hno; [reflexivity|]. cbn [app dget]. cbn [map fst] in Hno. destruct (String.eqb_spec n a) as [<-|Hne]; [exfalso; apply Hno; left; reflexivity|]. apply IH. intros Hx. apply Hno; right; exact Hx. }
      assert (forall l1 l2 : row, forall w, dget String.eqb n l1 = Some w -> dget String.eqb n (l1 ++ l2) = Some w) as Happ2.
      { induction l1 as [|[a b] l1 IH]; intros l2 w Hg; [discriminate|]. cbn [app dget] in *. destruct (String.eqb n a); [exact Hg | apply IH; exact Hg]. }
      assert (dget String.eqb n (combine (fnames (es_rels es) f) (value_of es t tw incl f (c_id c))) = Some v) as Hself.
      { assert (forall j n', nth_error (fnames (es_rels es) f) j = Some n' -> n' = n -> j = k) as Hu' by (intros j n' Hj E1; exact (proj2 (Hu f j n' Hin Hj E1))).
        revert Hk Ev Hu'. generalize (fnames (es_rels es) f) as ns, (value_of es t tw incl f (c_id c)) as vs. clear. intros ns vs. revert k vs.
        induction ns as [|a ns IH]; intros k vs Hk Hv Hu; [destruct k; discriminate|]. destruct vs as [|b vs]; [destruct k; discriminate|]. cbn [combine dget].
        destruct (String.eqb_spec n a) as [<-|Hne].
        - assert (0 = k) as <- by (apply (Hu 0 n); reflexivity). cbn in Hv. exact Hv.
        - destruct k as [|k]; [injection Hk as E; congruence|]. apply (IH k vs); [exact Hk | exact Hv|]. intros j n' Hj E. assert (S j = S k) as Ej by (apply (Hu (S j) n'); assumption). congruence. }
      assert (In f gs -> dget String.eqb n (combine (flat_map (fnames (es_rels es)) gs) (flat_map (fun f0 => value_of es t tw incl f0 (c_id c)) gs)) = Some v) as Hgo.
      { induction gs as [|g gs IH]; intros Hfg; [destruct Hfg|]. cbn [flat_map]. rewrite Hcomb by (apply Hlen, Hsub; left; reflexivity).
        destruct (in_dec string_dec n (fnames (es_rels es) g)) as [Hi|Hi].
        - apply In_nth_error in Hi as (j & Hj). destruct (Hu g j n (Hsub g (or_introl eq_refl)) Hj eq_refl) as [-> _]. apply Happ2, Hself.
        - rewrite Happ; [|intros Hx; apply in_map_iff in Hx as ([a b] & E1 & Hx); apply in_combine_l in Hx; cbn [fst] in E1; subst a; contradiction].
          apply IH; [intros g' Hg'; apply Hsub; right; exact Hg'|]. destruct Hfg as [->|Hfg]; [exfalso; apply Hi; eapply nth_error_In; exact Hk | exact Hfg]. }
      intros Hfg. rewrite (Hgo Hfg). reflexivity.
    - intros n Hp. rewrite (H2 n). apply mem_str_In in Hp. rewrite Hp. reflexivity.
  Qed.

  (** the same matrix for every chunk size, number of workers and order of arrival *)
  Theorem C10_calculated_partial m1 m2 na size1 size2 cut fm1 fm2 :
    fair m1 -> fair m2 -> (forall n a, m1 = Workers n a -> 0 < n) -> (forall n a, m2 = Workers n a -> 0 < n) ->
    (forall num den, size1 = Some (num, den) -> (0 < den)%Z) -> (forall num den, size2 = Some (num, den) -> (0 < den)%Z) ->
    distinct_requests cut ->
    matrix_of m1 false na size1 cut cut = Ok fm1 -> matrix_of m2 false na size2 cut cut = Ok fm2 -> fm1 = fm2.
  Proof.
    intros F1 F2 W1 W2 S1 S2 D R1 R2.
    exact (C10_schedule_and_chunk_independent (calculator es idvars ord fs incl) _ _ _ _ _ _ _ m1 m2 na size1 size2 cut fm1 fm2 (C07_pointwise_partial _ _ _ _ _ _ _ Hv Hd) Hsort F1 F2 W1 W2 S1 S2 D R1 R2).
  Qed.

  (** a row of the matrix does not depend on the other rows of the cutoff frame *)
  Theorem C59_rows_independent_partial m1 m2 na size1 size2 cs1 cs2 fm1 fm2 :
    fair m1 -> fair m2 -> (forall n a, m1 = Workers n a -> 0 < n) -> (forall n a, m2 = Workers n a -> 0 < n) ->
    (forall num den, size1 = Some (num, den) -> (0 < den)%Z) -> (forall num den, size2 = Some (num, den) -> (0 < den)%Z) ->
    NoDup (map (fun c => (c_id c, c_time c)) cs1) -> NoDup (map (fun c => (c_id c, c_time c)) cs2) ->
    matrix_of m1 false na size1 (CFrame cs1) (CFrame cs1) = Ok fm1 -> matrix_of m2 false na size2 (CFrame cs2) (CFrame cs2) = Ok fm2 ->
    forall k r1 r2 f n, In (k, r1) fm1 -> In (k, r2) fm2 -> In f fs -> In n (fnames (es_rels es) f) -> ~ In n pass -> cell n r1 = cell n r2.
  Proof.
    intros F1 F2 W1 W2 S1 S2 D1 D2 R1 R2 k r1 r2 f n I1 I2 Hf Hn Hp. apply In_nth_error in Hn as (j & Hj).
    pose proof (C59_matrix_partial m1 na size1 cs1 fm1 F1 W1 S1 D1 R1) as A1. pose proof (C59_matrix_partial m2 na size2 cs2 fm2 F2 W2 S2 D2 R2) as A2.
    destruct (Forall2_In_r _ _ _ _ A1 I1) as (c1 & _ & E1 & B1). destruct (Forall2_In_r _ _ _ _ A2 I2) as (c2 & _ & E2 & B2). cbn [fst snd] in *.
    rewrite E1 in E2. injection E2 as Ei Et. rewrite <- Et in B2. destruct (c_time c1) as [t|].
    - pose proof (proj1 B1 f j n Hf Hj Hp) as V1. pose proof (proj1 B2 f j n Hf Hj Hp) as V2. rewrite <- Ei in V2. congruence.
    - rewrite (B1 n), (B2 n). reflexivity.
  Qed.
End Matrix.

(** fewer features are as good *)
Lemma valid_request_incl es idvars ord tw fs fs' eid : valid_request es idvars ord tw fs eid -> (forall f, In f fs' -> In f fs) -> valid_request es idvars ord tw fs' eid.
Proof.
  intros [H1 H2 H3 H4 H5 H6 H7 H8] Hin. assert (forall f, needed fs' f -> needed fs f) as Hn by (intros f (f0 & Hf & Hr); exists f0; auto).
  assert (forall f, calculated fs' f -> calculated fs f) as Hc by (intros f [Hf Hs]; split; auto).
  constructor; try assumption; [intros f Hf; apply H6, Hin, Hf | |].
  - destruct H7 as [A1 A2 A3 A4 A5 A6]. constructor; [intros f g Hf Hg; apply A1; auto | intros f g i j n Hf Hg; apply A2; auto | intros f e n Hf; apply A3; auto | intros; apply A4; auto | intros b n nm Hb; apply (A5 b n nm); auto |].
    intros e c Hl. destruct (A6 e c Hl) as [B1 B2]. split; [exact B1|]. intros f Hf Ef Hl'. destruct (B2 f (Hc f Hf) Ef Hl') as [C1 C2]. split; [exact C1 | intros g Hg; apply C2; auto].
  - destruct H8 as [A1 A2 A3 A4 A5 A6 A7 A8 A9 A10]. constructor.
    + intros f g Hf Hg. apply A1; auto.
    + intros f Hf. apply A2; auto.
    + intros f g a b Hf Hg. apply A3; auto.
    + intros f d n Hf. apply A4; auto.
    + intros p bs path u wh prev nm Hf. apply (A5 p bs path u wh prev nm); auto.
    + intros p bs path u w prev nm Hf. apply (A6 p bs path u w prev nm); auto.
    + intros r b nm b' nm' n Hf Hg. apply A7; auto.
    + intros f Hf. apply A8; auto.
    + intros p bs nm Hf. apply (A9 p bs nm); auto.
    + intros p bs g nm Hf. apply (A10 p bs g nm); auto.
Qed.

(** the demonstration request: three rows at different times, two workers whose results arrive in reverse *)
Definition demo_fs3 : list feat := [f_sum; f_sumby; f_abs].
Definition demo_cut : list cutoff :=
  [mkCutoff (VNum 1) (Some 7%Z) None [("label", VStr "x")]; mkCutoff (VNum 2) (Some 8%Z) None [("label", VStr "y")]; mkCutoff (VNum 1) (Some 6%Z) None [("label", VStr "z")]]%string.
Example C59_nonvacuous :
  valid_request (demo_es []) demo_idvars (fun l => l) None demo_fs3 "cust"%string /\ no_silent_default demo_fs3 /\
  NoDup (map (fun c => (c_id c, c_time c)) demo_cut) /\
  cfm (calculator (demo_es []) demo_idvars (fun l => l) demo_fs3 true) (fun _ => Ok tt) (fun l => l) 0 None ["label"]%string
    (Workers 2 (@rev cutoffs)) false false (Some (1, 1)%Z) (CFrame demo_cut) (CFrame demo_cut) =
  Ok [((VNum 1, Some 7%Z), [("SUM(event.amt)", VNum 24); ("SUM(event.CUM_SUM(amt) by sid)", VNum 31); ("ABSOLUTE(SUM(event.amt))", VNum 24); ("label", VStr "x")]);
      ((VNum 2, Some 8%Z), [("SUM(event.amt)", VNum 4); ("SUM(event.CUM_SUM(amt) by sid)", VNum 4); ("ABSOLUTE(SUM(event.amt))", VNum 4); ("label", VStr "y")]);
      ((VNum 1, Some 6%Z), [("SUM(event.amt)", VNum 15); ("SUM(event.CUM_SUM(amt) by sid)", VNum 22); ("ABSOLUTE(SUM(event.amt))", VNum 15); ("label", VStr "z")])]%string.
Proof.
  split; [apply (valid_request_incl _ _ _ _ demo_fs); [apply demo_request; intros l; apply Permutation_refl | cbn; tauto]|].
  split; [intros f Hf; cbn in Hf; in_cases Hf; left; cbn; auto|].
  split; [cbn; repeat (constructor; [cbn; intuition discriminate|]); constructor|].
  vm_compute. reflexivity.
Qed.

Print Assumptions C07_pointwise_partial.
Print Assumptions C59_matrix_partial.
Print Assumptions C59_rows_independent_partial.
Print Assumptions C10_calculated_partial.
