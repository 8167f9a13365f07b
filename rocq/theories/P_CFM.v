(** C09, C10, C47, C53 (and the driver part of C08). *)
From Verif Require Import Base BaseFacts M_Schema M_Table M_Query M_Calc M_CFM S_CFM L_CFM L_Cutoff.

(** ** C09 *)
Theorem C09_chunks_exact : forall (n : nat) (cs : list cutoff),
  0 < n ->
  exists chunks, chunk_groups n (groupby_time c_time cs) = Ok chunks /\
    grouped_by_time cs (List.concat (map snd chunks)) /\
    forall t chunk, In (t, chunk) chunks ->
      chunk <> [] /\ List.length chunk <= n /\ forall c, In c chunk -> c_time c = Some t.
Proof.
  intros n cs Hn. destruct (chunk_groups_total n (groupby_time c_time cs) Hn) as (chunks & H). exists chunks. split; [exact H|].
  destruct (chunk_groups_concat _ _ _ Hn H) as [H1 H2]. rewrite <- flat_map_concat_map, H1. split; [apply groupby_grouped|].
  intros t chunk Hc. apply H2 in Hc as (A & B & g & Hg & Hi). split; [exact A|]. split; [exact B|]. intros c Hc.
  eapply groupby_time_of; [exact Hg | apply Hi; exact Hc].
Qed.

(** an absolute chunk size is used rounded down, a fraction of the rows is rounded up and is between 1 and
    the number of rows; sizes that are not positive are rejected *)
Theorem C09_chunk_size : forall num den total,
  (0 < den)%Z ->
  match handle_chunk_size (Some (num, den)) total with
  | Ok (Some k) =>
      (0 < num)%Z /\
      ((den <= num)%Z -> (Z.of_nat k * den <= num < (Z.of_nat k + 1) * den)%Z /\ 1 <= k) /\
      ((num < den)%Z -> ((Z.of_nat k - 1) * den < num * Z.of_nat total <= Z.of_nat k * den)%Z /\ (0 < total -> 1 <= k <= total))
  | Ok None => False
  | Err _ => (num <= 0)%Z
  end.
Proof.
  intros num den total Hd. destruct (handle_chunk_size (Some (num, den)) total) as [[k|]|e] eqn:E.
  - apply handle_chunk_size_Ok in E as [H1 H2]; [|exact Hd]. split; [exact H1|]. destruct (Z.ltb_spec num den).
    + split; [lia|]. intros _. split; [exact H2|]. nia.
    + split; [|lia]. intros _. split; [exact H2|]. nia.
  - unfold handle_chunk_size in E. destruct (0 <? num)%Z; [destruct (num <? den)%Z|]; discriminate.
  - unfold handle_chunk_size in E. destruct (Z.ltb_spec 0 num); [destruct (num <? den)%Z; discriminate | assumption].
Qed.

(** ** C09 and C10: for any chunk sizes, number of workers, and order in which results arrive, every
    successful call returns one row per requested (instance, time), in the order of the request, with the
    values of that instance at that time; so any two calls agree *)
Theorem C10_matrix_answers_requests : forall {P : Type}
    (calc : option P -> option window -> Z -> list val -> res matrix) approx sort_ids now tw pass cols v
    m no_aggs size cs fm,
  pointwise (calc None tw) cols v -> (forall l, Permutation (sort_ids l) l) ->
  fair m -> (forall n a, m = Workers n a -> 0 < n) -> (forall num den, size = Some (num, den) -> (0 < den)%Z) ->
  NoDup (map (fun c => (c_id c, c_time c)) cs) ->
  cfm calc approx sort_ids now tw pass m false no_aggs size (CFrame cs) (CFrame cs) = Ok fm ->
  Forall2 (answers pass cols v) cs fm.
Proof.
  intros P calc approx sort_ids now tw pass cols v m na size cs fm H1 H2 H3 H4 H5 H6 H.
  eapply cfm_outcome in H; try eassumption. subst fm. cbn [outcome]. clear. induction cs; cbn [map]; constructor; [apply expd_answers | assumption].
Qed.

Theorem C10_single_cutoff_answers : forall {P : Type}
    (calc : option P -> option window -> Z -> list val -> res matrix) approx sort_ids now tw pass cols v
    m no_aggs size t ids fm,
  pointwise (calc None tw) cols v -> (forall l, Permutation (sort_ids l) l) ->
  fair m -> (forall n a, m = Workers n a -> 0 < n) -> (forall num den, size = Some (num, den) -> (0 < den)%Z) ->
  NoDup ids ->
  cfm calc approx sort_ids now tw pass m false no_aggs size (CSingle t ids) (CSingle t ids) = Ok fm ->
  fm = map (fun i => ((i, Some t), combine cols (v t i))) ids.
Proof.
  intros P calc approx sort_ids now tw pass cols v m na size t ids fm H1 H2 H3 H4 H5 H6 H.
  eapply cfm_outcome in H; try eassumption.
Qed.

Theorem C10_schedule_and_chunk_independent : forall {P : Type}
    (calc : option P -> option window -> Z -> list val -> res matrix) approx sort_ids now tw pass cols v
    m1 m2 no_aggs size1 size2 cut fm1 fm2,
  pointwise (calc None tw) cols v -> (forall l, Permutation (sort_ids l) l) ->
  fair m1 -> fair m2 -> (forall n a, m1 = Workers n a -> 0 < n) -> (forall n a, m2 = Workers n a -> 0 < n) ->
  (forall num den, size1 = Some (num, den) -> (0 < den)%Z) -> (forall num den, size2 = Some (num, den) -> (0 < den)%Z) ->
  distinct_requests cut ->
  cfm calc approx sort_ids now tw pass m1 false no_aggs size1 cut cut = Ok fm1 ->
  cfm calc approx sort_ids now tw pass m2 false no_aggs size2 cut cut = Ok fm2 ->
  fm1 = fm2.
Proof.
  intros P calc approx sort_ids now tw pass cols v m1 m2 na s1 s2 cut fm1 fm2 H1 H2 F1 F2 W1 W2 S1 S2 Hd A B.
  eapply cfm_outcome in A; [|eassumption..]. eapply cfm_outcome in B; [|eassumption..]. congruence.
Qed.

(** the driver itself never fails: if the calculator does not, every non-empty request is answered *)
Theorem C10_driver_total : forall {P : Type}
    (calc : option P -> option window -> Z -> list val -> res matrix) approx sort_ids now tw pass cols v
    m no_aggs size cut,
  pointwise (calc None tw) cols v -> never_fails (requested_time cut) (calc None tw) -> (forall l, Permutation (sort_ids l) l) ->
  fair m -> (forall n a, m = Workers n a -> 0 < n) ->
  (forall num den, size = Some (num, den) -> (0 < den)%Z /\ (0 < num)%Z) ->
  distinct_requests cut -> some_request cut ->
  exists fm, cfm calc approx sort_ids now tw pass m false no_aggs size cut cut = Ok fm.
Proof.
  intros P calc approx sort_ids now tw pass cols v m na size cut H1 H2 H3 H4 H5 H6 H7 H8.
  eapply cfm_total; try eassumption. auto.
Qed.

(** a calculator that satisfies the hypotheses; three workers, results arriving in reverse order, chunks of
    one row, an unsorted cutoff frame with a passed column and a missing time *)
Definition ex_calc (_ : option unit) (_ : option window) (t : Z) (ids : list val) : res matrix :=
  Ok (mkMatrix ["f"; "g"]%string (map (fun i => (i, [VNum t; i])) ids)).
Definition ex_cut : cutoffs :=
  CFrame [mkCutoff (VNum 1) (Some 5%Z) None [("label", VStr "x")];
          mkCutoff (VNum 2) (Some 3%Z) None [("label", VStr "y")];
          mkCutoff (VNum 1) None None [("label", VStr "z")];
          mkCutoff (VNum 3) (Some 5%Z) None [("label", VStr "w")]]%string.
Example C10_nonvacuous :
  pointwise (ex_calc None None) ["f"; "g"]%string (fun t i => [VNum t; i]) /\ never_fails (requested_time ex_cut) (ex_calc None None) /\
  distinct_requests ex_cut /\ some_request ex_cut /\
  cfm ex_calc (fun _ => Ok tt) (fun l => l) 0 None ["label"]%string (Workers 3 (@rev cutoffs)) false false (Some (1, 1)%Z) ex_cut ex_cut
  = Ok [((VNum 1, Some 5%Z), [("f", VNum 5); ("g", VNum 1); ("label", VStr "x")]);
        ((VNum 2, Some 3%Z), [("f", VNum 3); ("g", VNum 2); ("label", VStr "y")]);
        ((VNum 1, None), []);
        ((VNum 3, Some 5%Z), [("f", VNum 5); ("g", VNum 3); ("label", VStr "w")])]%string.
Proof.
  split; [intros t ids m _ [= <-]; reflexivity|]. split; [intros t ids _; eexists; reflexivity|].
  split; [cbn; repeat (constructor; [cbn; intuition discriminate|]); constructor|].
  split; [exists (mkCutoff (VNum 1) (Some 5%Z) None [("label", VStr "x")])%string; split; [left; reflexivity | discriminate]|].
  vm_compute. reflexivity.
Qed.

(** C08: with one cutoff time for all, no call with a repeated instance id succeeds *)
Theorem C08_repeated_instances_refuted : forall {P : Type}
    (calc : option P -> option window -> Z -> list val -> res matrix) approx sort_ids now tw pass m appr no_aggs size t ids fm,
  ~ NoDup ids ->
  cfm calc approx sort_ids now tw pass m appr no_aggs size (CSingle t ids) (CSingle t ids) <> Ok fm.
Proof.
  intros P calc approx sort_ids now tw pass m appr na size t ids fm Hn H. unfold cfm in H. apply bind_Ok in H as (sz & _ & H).
  apply bind_Ok in H as (rows & _ & H). cbn [reindex] in H. destruct (distinct_by val_eqb ids) eqn:E; [|discriminate].
  apply (distinct_by_spec _ val_eqb_spec) in E. contradiction.
Qed.

(** ** C47 *)
Theorem C47_workers : forall cpus n_jobs,
  (1 <= cpus)%Z ->
  match n_jobs_to_workers cpus n_jobs with
  | Ok w => (n_jobs <> 0 /\ 1 <= w <= cpus /\
             (0 < n_jobs <= cpus -> w = n_jobs) /\ (cpus < n_jobs -> w = cpus) /\
             (- cpus <= n_jobs < 0 -> w = cpus - (- n_jobs - 1)) /\ (n_jobs < - cpus -> w = 1) /\ (n_jobs = -1 -> w = cpus))%Z
  | Err _ => n_jobs = 0%Z
  end.
Proof.
  intros cpus n H. unfold n_jobs_to_workers. destruct (Z.ltb_spec n 0).
  - destruct (Z.ltb_spec 0 (Z.max (cpus + 1 + n) 1)); lia.
  - destruct (Z.ltb_spec 0 (Z.min n cpus)); lia.
Qed.
Example C47_nonvacuous : n_jobs_to_workers 4 (-2) = Ok 3%Z /\ n_jobs_to_workers 4 9 = Ok 4%Z /\ n_jobs_to_workers 4 0 = Err AssertionError.
Proof. repeat split. Qed.

(** ** C53 *)
Theorem C53_accepted_iff_unambiguous : forall index time_index d,
  index <> "time"%string -> time_index <> Some "instance_id"%string -> time_index <> Some index -> wf_df d ->
  ((exists d', validate_cutoff index time_index d = Ok d') <->
   exists ic tc, only_column ["instance_id"; index]%string d ic /\ only_column (time_names time_index) d tc /\
     NoDup (map (fun r => (cell ic r, cell tc r)) (rows d))).
Proof.
  intros index ti d H1 H2 H3 Hw. split.
  - intros (d' & H). apply validate_spec in H; [|assumption..]. destruct H as (ic & tc & A & B & _ & C). eauto.
  - intros (ic & tc & A & B & C). eapply validate_accepts; eassumption.
Qed.

Theorem C53_accepted_frames_keep_rows : forall index time_index d d' ic tc,
  index <> "time"%string -> time_index <> Some "instance_id"%string -> time_index <> Some index -> wf_df d ->
  validate_cutoff index time_index d = Ok d' ->
  only_column ["instance_id"; index]%string d ic -> only_column (time_names time_index) d tc -> renamed_rows ic tc d d'.
Proof.
  intros index ti d d' ic tc H1 H2 H3 Hw H (A1 & A2 & A3) (B1 & B2 & B3). apply validate_spec in H; [|assumption..].
  destruct H as (ic' & tc' & (C1 & C2 & C3) & (D1 & D2 & D3) & E & _). rewrite (A3 ic' C1 C2), (B3 tc' D1 D2) in E. exact E.
Qed.

Definition ex_frame : df :=
  mkDf ["t"; "id"; "label"]%string [[("t", VNum 5); ("id", VNum 1); ("label", VStr "x")]; [("t", VNum 6); ("id", VNum 1); ("label", VStr "y")]]%string.
Example C53_nonvacuous : wf_df ex_frame /\ only_column ["instance_id"; "id"]%string ex_frame "id" /\
  only_column (time_names (Some "t"%string)) ex_frame "t" /\
  validate_cutoff "id" (Some "t"%string) ex_frame = Ok (mkDf ["time"; "instance_id"; "label"]
    [[("time", VNum 5); ("instance_id", VNum 1); ("label", VStr "x")]; [("time", VNum 6); ("instance_id", VNum 1); ("label", VStr "y")]])%string.
Proof.
  split; [split; [repeat (constructor; [cbn; intuition discriminate|]); constructor | intros r [<-|[<-|[]]]; reflexivity]|].
  split; [|split; [|reflexivity]]; (split; [cbn; auto|]; split; [cbn; auto|]; intros c' H1 H2; cbn in H1, H2; intuition congruence).
Qed.

(** when the index of the target entity is called "time", no cutoff frame is accepted, however
    unambiguous *)
Theorem C53_index_named_time_refuted :
  exists d, wf_df d /\ only_column ["instance_id"]%string d "instance_id" /\ only_column ["time"]%string d "time" /\
    NoDup (map (fun r => (cell "instance_id" r, cell "time" r)) (rows d)) /\
    forall time_index d', validate_cutoff "time" time_index d <> Ok d'.
Proof.
  exists (mkDf ["instance_id"; "time"]%string [[("instance_id", VNum 1); ("time", VNum 5)]]%string).
  split; [split; [repeat (constructor; [cbn; intuition discriminate|]); constructor | intros r [<-|[]]; reflexivity]|].
  split; [split; [cbn; auto | split; [cbn; auto | intros c' _ [<-|[]]; reflexivity]]|].
  split; [split; [cbn; auto | split; [cbn; auto | intros c' _ [<-|[]]; reflexivity]]|].
  split; [repeat (constructor; [cbn; intuition discriminate|]); constructor|]. intros ti d'. apply validate_index_time.
Qed.

(** Cutoff times of another kind than the time indexes of the entity set are rejected, all others are accepted. *)
Theorem C53_time_kind : forall es_kind kind,
  (check_cutoff_type es_kind kind = Ok tt <-> (es_kind = Some KNumeric -> kind = KNumeric) /\ (es_kind = Some KDatetime -> kind = KDatetime)) /\
  (check_cutoff_type es_kind kind <> Ok tt -> check_cutoff_type es_kind kind = Err TypeError).
Proof.
  intros [[]|] []; cbn [check_cutoff_type]; (split; [split; [intros H; split; congruence | intros [H1 H2]; try reflexivity; try (specialize (H1 eq_refl)); try (specialize (H2 eq_refl)); congruence] | congruence]).
Qed.

Print Assumptions C53_time_kind.
Print Assumptions C09_chunks_exact.
Print Assumptions C10_matrix_answers_requests.
Print Assumptions C10_driver_total.
Print Assumptions C53_accepted_iff_unambiguous.
