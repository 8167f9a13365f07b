(** C85: TimeSincePrevious, and its agreement with TimeSince, TimeSinceFirst, TimeSinceLast and AvgTimeBetween. *)
From Coq Require Import QArith Qcanon Field Lia.
From Verif Require Import Base BaseFacts M_Prims M_Prims2 M_Previous P_Partition P_Times.
Local Open Scope Qc_scope.

(** the known time in a row *)
Definition at_row (x : list (option Z)) (i : nat) : option Z := match nth_error x i with Some t => t | None => None end.

Section Unit.
  Variable unit : string.
  Variable d : Qc.
  Hypothesis Hd : dget String.eqb unit unit_divs = Some d.
  Let gap (g : option Z) : option Qc := match g with Some g => Some (qz g * ns / d) | None => None end.
  Lemma tsp_eq x : time_since_previous unit x = Ok (map gap (time_diff None x)).
  Proof.
    unfold time_since_previous, convert_time_units. rewrite Hd. cbn [bind]. induction (time_diff None x) as [|g l IH]; [reflexivity|].
    cbn [mapM map]. rewrite IH. destruct g; reflexivity.
  Qed.
  Lemma diff_length x : forall p, List.length (time_diff p x) = List.length x.
  Proof. induction x as [|t x IH]; intros p; [reflexivity|]. cbn [time_diff List.length]. rewrite IH. reflexivity. Qed.
  Lemma diff_nth x : forall p i, (i < List.length x)%nat -> nth_error (time_diff p x) i =
    Some (match at_row (p :: x) i, at_row x i with Some a, Some b => Some (b - a)%Z | _, _ => None end).
  Proof.
    induction x as [|t x IH]; intros p i Hi; [cbn in Hi; lia|]. destruct i as [|i]; [reflexivity|]. cbn [time_diff nth_error]. rewrite IH by (cbn in Hi; lia). reflexivity.
  Qed.
  Lemma diff_known l : forall a, dropna (time_diff (Some a) (map Some l)) = gaps (a :: l).
  Proof. induction l as [|b l IH]; intros a; [reflexivity|]. cbn [map time_diff]. unfold dropna in *. cbn [flat_map some_of app]. rewrite IH. reflexivity. Qed.
  Lemma dropna_gap l : dropna (map gap l) = map (fun g => qz g * ns / d) (dropna l).
  Proof. unfold dropna. induction l as [|[g|] l IH]; [reflexivity | |]; cbn [map flat_map gap some_of app]; rewrite ?IH; reflexivity. Qed.
  Lemma tsp_values a l : dropna (map gap (time_diff None (map Some (a :: l)))) = map (fun g => qz g * ns / d) (gaps (a :: l)).
  Proof. rewrite dropna_gap. cbn [map time_diff]. unfold dropna. cbn [flat_map some_of app]. fold (dropna (time_diff (Some a) (map Some l))). rewrite diff_known. reflexivity. Qed.
  Lemma sum_scaled l : qsum (map (fun g => qz g * ns / d) l) = qsum (map qz l) * ns / d.
  Proof.
    rewrite (qsum_ext _ (fun g => (ns / d) * qz g)) by (intros g; unfold Qcdiv; ring). rewrite qsum_scale. unfold Qcdiv. ring.
  Qed.

  (** *** Each row has the time since the row before it, when both times are known; the first row has none. *)
  Theorem C85_rows x : exists out, time_since_previous unit x = Ok out /\ List.length out = List.length x /\
    (forall v, nth_error out 0 = Some v -> v = None) /\
    forall i v, nth_error out (S i) = Some v ->
      v = match at_row x i, at_row x (S i) with Some a, Some b => Some (qz (b - a) * ns / d) | _, _ => None end.
  Proof.
    exists (map gap (time_diff None x)). split; [apply tsp_eq|]. split; [rewrite map_length; apply diff_length|]. split.
    - intros v. destruct x as [|t x]; [discriminate|]. cbn. intros H. injection H as <-. reflexivity.
    - intros i v H. assert (S i < List.length x)%nat as L by (rewrite <- (diff_length x None), <- (map_length gap); apply nth_error_Some; rewrite H; discriminate).
      rewrite nth_error_map, diff_nth in H by exact L. cbn [option_map] in H. injection H as <-.
      change (at_row (None :: x) (S i)) with (at_row x i). destruct (at_row x i), (at_row x (S i)); reflexivity.
  Qed.
  (** *** Each value is by how much TimeSince falls from the row before, whatever the cutoff. *)
  Theorem C85_steps cutoff x out i a b u v : time_since_previous unit x = Ok out ->
    nth_error x i = Some (Some a) -> nth_error x (S i) = Some (Some b) -> time_since unit cutoff a = Ok u -> time_since unit cutoff b = Ok v ->
    nth_error out (S i) = Some (Some (u - v)).
  Proof.
    rewrite tsp_eq. intros H Ha Hb Hu Hv. injection H as <-. unfold time_since, convert_time_units in Hu, Hv. rewrite Hd in Hu, Hv. injection Hu as <-. injection Hv as <-.
    rewrite nth_error_map, diff_nth by (apply nth_error_Some; rewrite Hb; discriminate). change (at_row (None :: x) (S i)) with (at_row x i). unfold at_row. rewrite Ha, Hb. cbn [option_map gap].
    do 2 f_equal. rewrite !qz_sub. unfold Qcdiv. ring.
  Qed.
  (** *** When all times are known the values add up to the time between the first and the last row ... *)
  Theorem C85_total cutoff l out f la : time_since_previous unit (map Some l) = Ok out ->
    time_since_first unit cutoff l = Ok f -> time_since_last unit cutoff l = Ok la -> qsum (dropna out) = f - la.
  Proof.
    rewrite tsp_eq. intros H. injection H as <-. destruct l as [|a l]; [discriminate|]. rewrite tsp_values, sum_scaled, gaps_sum.
    unfold time_since_first, time_since_last. assert (exists r, rev (a :: l) = last (a :: l) 0%Z :: r) as [r ->].
    { destruct (@exists_last _ (a :: l)) as (r & z & E); [discriminate|]. rewrite E, last_last, rev_unit. eexists. reflexivity. }
    unfold time_since, convert_time_units. rewrite Hd. intros Hf Hl. injection Hf as <-. injection Hl as <-. change (match l with [] => a | _ :: _ => last l 0%Z end) with (last (a :: l) 0%Z). rewrite !qz_sub. unfold Qcdiv. ring.
  Qed.
  (** *** ... and, when the rows are in the order of time, AvgTimeBetween is their mean. *)
  Theorem C85_average l out : (2 <= List.length l)%nat -> StronglySorted Z.le l -> time_since_previous unit (map Some l) = Ok out ->
    avg_time_between unit (map Some l) = Ok (Some (qsum (dropna out) / qlen (dropna out))).
  Proof.
    intros Hl Hs H. rewrite tsp_eq in H. injection H as <-. assert (dropna (map Some l) = l) as El by (clear; unfold dropna; induction l as [|a l IH]; [reflexivity|]; cbn [map flat_map some_of app]; rewrite IH; reflexivity).
    rewrite (C56_avg_time_between unit d (map Some l) l Hd) by first [rewrite El; reflexivity | assumption].
    destruct l as [|a l]; [cbn in Hl; lia|]. rewrite tsp_values, sum_scaled. do 2 f_equal. unfold mean_of. unfold qlen at 2. rewrite map_length. fold (qlen (gaps (a :: l))). unfold Qcdiv. ring.
  Qed.
End Unit.
(** *** A unit that does not exist is refused, for every column. *)
Theorem C85_unknown_unit unit x : dget String.eqb unit unit_divs = None -> time_since_previous unit x = Err ValueError.
Proof. intros H. unfold time_since_previous, convert_time_units. rewrite H. reflexivity. Qed.
(** *** With a missing time between them, the time between two known times is lost; AvgTimeBetween counts it. *)
Theorem C85_missing_refuted : let x := [Some 0%Z; None; Some 10000000000%Z] in
  time_since_previous "seconds" x = Ok [None; None; None] /\ avg_time_between "seconds" x = Ok (Some (qz 10)).
Proof.
  split; [reflexivity|]. cbv zeta. unfold avg_time_between, convert_time_units. cbn [dropna flat_map some_of app dget unit_divs String.eqb Ascii.eqb Bool.eqb fold_left bind]. do 2 f_equal.
Qed.
Example C85_nonvacuous : exists out, time_since_previous "minutes" (map Some [0; 120000000000; 180000000000]%Z) = Ok out /\ List.length (dropna out) = 2%nat /\ StronglySorted Z.le [0; 120000000000; 180000000000]%Z.
Proof. eexists. split; [reflexivity|]. split; [reflexivity|]. repeat constructor; lia. Qed.
Print Assumptions C85_rows.
Print Assumptions C85_steps.
Print Assumptions C85_total.
Print Assumptions C85_average.
Print Assumptions C85_unknown_unit.
Print Assumptions C85_missing_refuted.
