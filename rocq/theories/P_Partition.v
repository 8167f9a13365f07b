(** C46: aggregating the partitions of a column and combining gives the aggregate of the whole column. *)
From Coq Require Import QArith Qcanon Field.
From Verif Require Import Base BaseFacts M_Feature M_Prims.
Local Open Scope Qc_scope.

(** the rows of a group, partition by partition *)
Lemma chunks_parts {K A C} (keqb : K -> K -> bool) (chunk : list A -> C) k parts :
  exists gs, (forall g, In g gs -> g <> []) /\ List.concat gs = group_of keqb k (List.concat parts) /\ chunks keqb chunk k parts = map chunk gs.
Proof.
  induction parts as [|part parts (gs & H1 & H2 & H3)]; [exists []; split; [intros g [] | split; reflexivity]|].
  assert (group_of keqb k (List.concat (part :: parts)) = group_of keqb k part ++ group_of keqb k (List.concat parts)) as E.
  { unfold group_of. cbn [List.concat]. rewrite filter_app, map_app. reflexivity. }
  unfold chunks in *. cbn [flat_map]. destruct (group_of keqb k part) as [|a g] eqn:Eg.
  - exists gs. rewrite E. auto.
  - exists ((a :: g) :: gs). split; [intros g' [<-|Hg]; [discriminate | apply H1; exact Hg]|]. split; [rewrite E; cbn [List.concat]; rewrite H2; reflexivity|]. cbn [map app]. rewrite H3. reflexivity.
Qed.

Lemma dropna_app {A} (a b : list (option A)) : dropna (a ++ b) = dropna a ++ dropna b.
Proof. unfold dropna. apply flat_map_app. Qed.
Lemma dropna_concat {A} (gs : list (list (option A))) : dropna (List.concat gs) = List.concat (map dropna gs).
Proof. induction gs as [|g gs IH]; [reflexivity|]. cbn [List.concat map]. rewrite dropna_app, IH. reflexivity. Qed.

(** sums *)
Lemma qsum_from a l : fold_left Qcplus l a = a + qsum l.
Proof.
  unfold qsum. revert a. induction l as [|x l IH]; intros a; cbn [fold_left]; [ring|]. rewrite IH, (IH (0 + x)). ring.
Qed.
Lemma qsum_cons x l : qsum (x :: l) = x + qsum l.
Proof. unfold qsum at 1. cbn [fold_left]. rewrite qsum_from. ring. Qed.
Lemma qsum_app a b : qsum (a ++ b) = qsum a + qsum b.
Proof. induction a as [|x a IH]; cbn [app]; [cbn; ring|]. rewrite !qsum_cons, IH. ring. Qed.
Lemma qsum_concat ls : qsum (List.concat ls) = qsum (map qsum ls).
Proof. induction ls as [|l ls IH]; [reflexivity|]. cbn [List.concat map]. rewrite qsum_app, IH, qsum_cons. reflexivity. Qed.
Lemma natsum_from l a : fold_left Nat.add l a = (a + fold_left Nat.add l 0)%nat.
Proof. revert a. induction l as [|x l IH]; intros a; cbn [fold_left]; [lia|]. rewrite IH, (IH (0 + x)%nat). lia. Qed.
Lemma natsum_lengths {A} (ls : list (list A)) : fold_left Nat.add (map (@List.length A) ls) 0%nat = List.length (List.concat ls).
Proof. induction ls as [|l ls IH]; [reflexivity|]. cbn [map fold_left List.concat]. rewrite natsum_from, IH, app_length. lia. Qed.
Lemma zsum_from l a : fold_left Z.add l a = (a + fold_left Z.add l 0)%Z.
Proof. revert a. induction l as [|x l IH]; intros a; cbn [fold_left]; [lia|]. rewrite IH, (IH (0 + x)%Z). lia. Qed.
Lemma bsum_from l n : fold_left (fun n (b : bool) => if b then (n + 1)%Z else n) l n = (n + bsum l)%Z.
Proof. unfold bsum. revert n. induction l as [|b l IH]; intros n; cbn [fold_left]; [lia|]. rewrite (IH (if b then (n + 1)%Z else n)), (IH (if b then (0 + 1)%Z else 0%Z)). destruct b; lia. Qed.
Lemma bsum_app a b : bsum (a ++ b) = (bsum a + bsum b)%Z.
Proof. unfold bsum at 1. rewrite fold_left_app. rewrite bsum_from. reflexivity. Qed.
Lemma bsum_concat ls : bsum (List.concat ls) = fold_left Z.add (map bsum ls) 0%Z.
Proof. induction ls as [|l ls IH]; [reflexivity|]. cbn [List.concat map fold_left]. rewrite bsum_app, IH, (zsum_from (map bsum ls) (0 + bsum l)%Z). lia. Qed.

Section Partition.
  Context {K : Type} (keqb : K -> K -> bool).

  Theorem C46_count {A} k (parts : list (list (K * option A))) : count_dask keqb k parts = count_pd (group_of keqb k (List.concat parts)).
  Proof.
    unfold count_dask, dask_agg. destruct (chunks_parts keqb count_pd k parts) as (gs & _ & <- & ->). unfold count_pd.
    rewrite dropna_concat, <- natsum_lengths, map_map. reflexivity.
  Qed.
  Theorem C46_sum k parts : sum_dask keqb k parts = sum_pd (group_of keqb k (List.concat parts)).
  Proof.
    unfold sum_dask, dask_agg. destruct (chunks_parts keqb sum_pd k parts) as (gs & _ & <- & ->). unfold sum_pd. rewrite dropna_concat, qsum_concat, map_map. reflexivity.
  Qed.
  Theorem C46_mean k parts : mean_dask keqb k parts = mean_pd true (group_of keqb k (List.concat parts)).
  Proof.
    unfold mean_dask, dask_agg. destruct (chunks_parts keqb (fun x => (sum_pd x, count_pd x)) k parts) as (gs & _ & <- & ->). rewrite !map_map. cbn [fst snd].
    unfold sum_pd, count_pd, mean_pd. rewrite <- (map_map dropna (@List.length Qc)), natsum_lengths, <- (map_map dropna qsum), <- qsum_concat, <- dropna_concat.
    destruct (dropna (List.concat gs)); reflexivity.
  Qed.

  Theorem C46_num_unique {A} (eqb : A -> A -> bool) (eqb_spec : forall x y, reflect (x = y) (eqb x y)) k parts :
    nunique_dask keqb eqb k parts = nunique_pd eqb (group_of keqb k (List.concat parts)).
  Proof.
    unfold nunique_dask, dask_agg, nunique_pd. destruct (chunks_parts keqb (fun x => dedup_by eqb [] (dropna x)) k parts) as (gs & _ & <- & ->).
    apply Permutation_length. apply NoDup_Permutation; [apply (dedup_NoDup eqb eqb_spec) | apply (dedup_NoDup eqb eqb_spec) |].
    assert (forall x l, In x (dedup_by eqb [] l) <-> In x l) as HD by (intros x l; rewrite (dedup_In eqb eqb_spec); cbn [In]; tauto).
    intros x. rewrite !HD, dropna_concat, !in_concat. split.
    - intros (l & Hl & Hx). apply in_map_iff in Hl as (g & <- & Hg). rewrite HD in Hx. exists (dropna g). split; [apply in_map; exact Hg | exact Hx].
    - intros (l & Hl & Hx). apply in_map_iff in Hl as (g & <- & Hg). exists (dedup_by eqb [] (dropna g)). split; [apply in_map_iff; exists g; auto|]. rewrite HD. exact Hx.
  Qed.

  Theorem C46_num_true k parts : num_true_dask keqb k parts = num_true_pd (group_of keqb k (List.concat parts)).
  Proof.
    unfold num_true_dask, dask_agg. destruct (chunks_parts keqb num_true_pd k parts) as (gs & _ & <- & ->). unfold num_true_pd. rewrite dropna_concat, bsum_concat, map_map. reflexivity.
  Qed.
  (** the value asked for exists: the group has a row *)
  Theorem C46_percent_true k parts : group_of keqb k (List.concat parts) <> [] ->
    percent_true_pd (group_of keqb k (List.concat parts)) = Some (percent_true_dask keqb k parts).
  Proof.
    unfold percent_true_dask, dask_agg.
    destruct (chunks_parts keqb (fun x => (bsum (fillna0 x), Z.of_nat (List.length (fillna0 x)))) k parts) as (gs & _ & <- & ->). intros Hne.
    rewrite !map_map. cbn [fst snd]. unfold percent_true_pd. destruct (List.concat gs) as [|o c] eqn:E; [destruct (Hne eq_refl)|]. rewrite <- E. clear Hne E o c.
    assert (fillna0 (List.concat gs) = List.concat (map fillna0 gs)) as -> by (unfold fillna0; apply concat_map).
    f_equal. f_equal.
    - rewrite bsum_concat, map_map. reflexivity.
    - unfold qlen. rewrite <- natsum_lengths, map_map. do 2 f_equal. clear. induction gs as [|g gs IH]; [reflexivity|]. cbn [map fold_left]. rewrite natsum_from, zsum_from. lia.
  Qed.
  Theorem C46_any k parts : any_dask keqb k parts = any_pd (group_of keqb k (List.concat parts)).
  Proof.
    unfold any_dask, dask_agg. destruct (chunks_parts keqb any_pd k parts) as (gs & _ & <- & ->). unfold any_pd. rewrite dropna_concat. clear.
    induction gs as [|g gs IH]; [reflexivity|]. cbn [map List.concat existsb]. rewrite existsb_app, <- IH. reflexivity.
  Qed.
  Theorem C46_all k parts : all_dask keqb k parts = all_pd (group_of keqb k (List.concat parts)).
  Proof.
    unfold all_dask, dask_agg. destruct (chunks_parts keqb all_pd k parts) as (gs & _ & <- & ->). unfold all_pd. rewrite dropna_concat. clear.
    induction gs as [|g gs IH]; [reflexivity|]. cbn [map List.concat forallb]. rewrite forallb_app, <- IH. reflexivity.
  Qed.

  (** smallest and largest: [best le] finds an element that is at least as good as every other *)
  Lemma best_some (le : Qc -> Qc -> bool) : (forall a, le a a = true) -> (forall a b, le a b = false -> le b a = true) -> (forall a b c, le a b = true -> le b c = true -> le a c = true) ->
    forall l a, exists z, best le (Some a) l = Some z /\ In z (a :: l) /\ forall x, In x (a :: l) -> le z x = true.
  Proof.
    intros Hr Ht Hs. induction l as [|y l IH]; intros a; cbn [best].
    - exists a. split; [reflexivity|]. split; [left; reflexivity|]. intros x [->|[]]. apply Hr.
    - destruct (IH (if le a y then a else y)) as (z & Hz & Hin & Hle). exists z. split; [exact Hz|].
      assert (le z a = true /\ le z y = true) as [L1 L2].
      { specialize (Hle _ (or_introl eq_refl)). destruct (le a y) eqn:E; (split; [|]); try exact Hle; [apply (Hs _ a); assumption | apply (Hs _ y); [assumption | apply Ht; exact E]]. }
      split.
      + destruct Hin as [Hz'|Hin]; [destruct (le a y); [left; exact Hz' | right; left; exact Hz'] | right; right; exact Hin].
      + intros x [<-|[<-|Hx]]; [exact L1 | exact L2 | apply Hle; right; exact Hx].
  Qed.
  Lemma best_unique (le : Qc -> Qc -> bool) : (forall a, le a a = true) -> (forall a b, le a b = false -> le b a = true) -> (forall a b c, le a b = true -> le b c = true -> le a c = true) ->
    (forall a b, le a b = true -> le b a = true -> a = b) ->
    forall l z, best le None l = Some z <-> In z l /\ forall x, In x l -> le z x = true.
  Proof.
    intros Hr Ht Hs Ha [|y l] z; cbn [best].
    - split; [discriminate | intros [[] _]].
    - destruct (best_some le Hr Ht Hs l y) as (w & Hw & Hin & Hle). rewrite Hw. split.
      + intros [= <-]. auto.
      + intros [Hz Hz']. f_equal. apply Ha; [apply Hle; exact Hz | apply Hz'; exact Hin].
  Qed.
  Lemma best_concat (le : Qc -> Qc -> bool) : (forall a, le a a = true) -> (forall a b, le a b = false -> le b a = true) -> (forall a b c, le a b = true -> le b c = true -> le a c = true) ->
    (forall a b, le a b = true -> le b a = true -> a = b) ->
    forall ls, best le None (dropna (map (best le None) ls)) = best le None (List.concat ls).
  Proof.
    intros Hr Ht Hs Ha ls. pose proof (best_unique le Hr Ht Hs Ha) as U.
    assert (forall l, l <> [] -> exists z, best le None l = Some z) as Hex.
    { intros [|y l] H; [destruct (H eq_refl)|]. destruct (best_some le Hr Ht Hs l y) as (z & Hz & _). exists z. exact Hz. }
    assert (forall l1 l2, (forall z, best le None l1 = Some z -> best le None l2 = Some z) -> (l1 = [] -> l2 = []) -> best le None l1 = best le None l2) as Heq.
    { intros l1 l2 H1 H2. destruct l1 as [|y l1]; [rewrite (H2 eq_refl); reflexivity|]. destruct (Hex (y :: l1)) as (z & Hz); [discriminate|]. rewrite Hz. symmetry. apply H1. exact Hz. }
    assert (forall x, In x (dropna (map (best le None) ls)) <-> exists l, In l ls /\ best le None l = Some x) as HD.
    { intros x. unfold dropna. rewrite in_flat_map. split.
      - intros (o & Ho & Hx). apply in_map_iff in Ho as (l & <- & Hl). exists l. split; [exact Hl|]. destruct (best le None l) as [w|]; [destruct Hx as [->|[]]; reflexivity | destruct Hx].
      - intros (l & Hl & Hx). exists (Some x). split; [apply in_map_iff; exists l; auto | left; reflexivity]. }
    apply Heq.
    - intros z Hz. apply U in Hz as [Hin Hle]. apply U. apply HD in Hin as (l & Hl & Hz). apply U in Hz as [Hzl _]. split; [apply in_concat; exists l; auto|].
      intros x Hx. apply in_concat in Hx as (l' & Hl' & Hx). destruct (Hex l') as (w & Hw); [intros ->; destruct Hx|]. apply (Hs _ w); [apply Hle; apply HD; exists l'; auto|].
      apply U in Hw as [_ Hw]. apply Hw; exact Hx.
    - intros E. destruct (List.concat ls) as [|x xs] eqn:Ec; [reflexivity|]. exfalso. assert (In x (List.concat ls)) as Hx by (rewrite Ec; left; reflexivity).
      apply in_concat in Hx as (l & Hl & Hx). destruct (Hex l) as (w & Hw); [intros ->; destruct Hx|]. assert (In w []) as []. rewrite <- E. apply HD. exists l. auto.
  Qed.
  Lemma qc_leb_le a b : qc_leb a b = true <-> a <= b.
  Proof. unfold qc_leb. destruct (Qclt_le_dec b a) as [H|H]; split; intros H'; try discriminate; try assumption; try reflexivity. destruct (Qclt_not_le _ _ H H'). Qed.
  Lemma qc_leb_gt a b : qc_leb a b = false -> b < a.
  Proof. unfold qc_leb. destruct (Qclt_le_dec b a); [auto | discriminate]. Qed.

  Theorem C46_min k parts : min_dask keqb k parts = min_pd (group_of keqb k (List.concat parts)).
  Proof.
    unfold min_dask, dask_agg. destruct (chunks_parts keqb min_pd k parts) as (gs & _ & <- & ->). unfold min_pd at 1 3. unfold min_pd. rewrite dropna_concat.
    rewrite <- (best_concat qc_leb); [rewrite map_map; reflexivity | | | |].
    - intros a. apply qc_leb_le. apply Qcle_refl.
    - intros a b H. apply qc_leb_le. apply Qclt_le_weak. apply qc_leb_gt. exact H.
    - intros a b c. rewrite !qc_leb_le. apply Qcle_trans.
    - intros a b. rewrite !qc_leb_le. apply Qcle_antisym.
  Qed.
  Theorem C46_max k parts : max_dask keqb k parts = max_pd (group_of keqb k (List.concat parts)).
  Proof.
    unfold max_dask, dask_agg. destruct (chunks_parts keqb max_pd k parts) as (gs & _ & <- & ->). unfold max_pd at 1 3. unfold max_pd. rewrite dropna_concat.
    rewrite <- (best_concat (fun a b => qc_leb b a)); [rewrite map_map; reflexivity | | | |].
    - intros a. apply qc_leb_le. apply Qcle_refl.
    - intros a b H. apply qc_leb_le. apply Qclt_le_weak. apply qc_leb_gt. exact H.
    - intros a b c. rewrite !qc_leb_le. intros H1 H2. eapply Qcle_trans; eassumption.
    - intros a b. rewrite !qc_leb_le. intros H1 H2. apply Qcle_antisym; assumption.
  Qed.

  (** the sample variance (the square of the standard deviation) from the number, the sum and the sum of squares *)
  Lemma qlen_cons {A} (a : A) l : qlen (a :: l) = qlen l + 1.
  Proof.
    unfold qlen. cbn [List.length]. apply Qc_is_canon. change (Qred (Z.of_nat (S (List.length l)) # 1) == Qred (Qred (Z.of_nat (List.length l) # 1) + Qred 1))%Q. rewrite !Qred_correct. unfold Qeq, Qplus. cbn [Qnum Qden]. lia.
  Qed.
  Lemma square_sum m l : qsum (map (fun x => (x - m) * (x - m)) l) = qsum (map (fun y => y * y) l) - (1 + 1) * m * qsum l + qlen l * (m * m).
  Proof.
    induction l as [|x l IH].
    - cbn [map]. assert (qlen (@nil Qc) = 0) as -> by (apply Qc_is_canon; reflexivity). unfold qsum. cbn [fold_left]. ring.
    - cbn [map]. rewrite !qsum_cons, IH, qlen_cons. ring.
  Qed.
  Lemma qlen_pos {A} (a : A) l : qlen (a :: l) <> 0.
  Proof. intros E. apply (f_equal this) in E. change (Qred (Z.of_nat (List.length (a :: l)) # 1) = Qred 0) in E. assert (Z.of_nat (List.length (a :: l)) # 1 == 0)%Q as E' by (rewrite <- Qred_correct, E; reflexivity).
    unfold Qeq in E'. cbn [Qnum Qden List.length] in E'. lia. Qed.
  Theorem C46_std k parts : var_dask keqb k parts = var_pd (group_of keqb k (List.concat parts)).
  Proof.
    unfold var_dask, dask_agg.
    destruct (chunks_parts keqb (fun x => (count_pd x, sum_pd x, qsum (map (fun y => y * y) (dropna x)))) k parts) as (gs & _ & <- & ->). rewrite !map_map. cbn [fst snd].
    unfold count_pd, sum_pd, var_pd. rewrite <- (map_map dropna (@List.length Qc)), natsum_lengths, <- (map_map dropna qsum), <- qsum_concat.
    rewrite <- (map_map dropna (fun l => qsum (map (fun y => y * y) l))). rewrite <- (map_map (map (fun y => y * y)) qsum), <- qsum_concat, <- concat_map, <- dropna_concat.
    destruct (dropna (List.concat gs)) as [|x [|y l]]; [reflexivity | reflexivity |]. cbn [List.length].
    change (Q2Qc (Z.of_nat (S (S (List.length l))) # 1)) with (qlen (x :: y :: l)). rewrite (square_sum _ (x :: y :: l)).
    pose proof (qlen_pos x (y :: l)) as Hn. assert (qlen (x :: y :: l) - 1 <> 0) as Hn1.
    { rewrite qlen_cons. replace (qlen (y :: l) + 1 - 1) with (qlen (y :: l)) by ring. apply qlen_pos. }
    set (n := qlen (x :: y :: l)) in *. set (s1 := qsum (x :: y :: l)). set (s2 := qsum (map _ (x :: y :: l))). clearbody n s1 s2. f_equal. field. split; assumption.
  Qed.
End Partition.

(** Mean(skipna=False): in memory a missing value makes the mean missing; on Dask the option is ignored *)
Theorem C46_mean_skipna_refuted :
  exists parts : list (list (nat * option Qc)),
    mean_pd false (group_of Nat.eqb 0%nat (List.concat parts)) = None /\ mean_dask_prim Nat.eqb false 0%nat parts <> None.
Proof. exists [[(0%nat, Some 1)]; [(0%nat, None)]]. split; [reflexivity | vm_compute; discriminate]. Qed.

(** two partitions that share the groups 0 and 1 *)
Definition part_demo : list (list (nat * option bool)) := [[(0, Some true); (1, None); (0, None)]; [(1, Some false)]; [(0, Some true); (0, Some false)]]%nat.
Example C46_nonvacuous :
  group_of Nat.eqb 0%nat (List.concat part_demo) <> [] /\
  num_true_dask Nat.eqb 0%nat part_demo = 2%Z /\ nunique_dask Nat.eqb Bool.eqb 0%nat part_demo = 2%nat /\
  percent_true_dask Nat.eqb 0%nat part_demo = Q2Qc (1 # 2) /\ any_dask Nat.eqb 1%nat part_demo = false /\ all_dask Nat.eqb 0%nat part_demo = false.
Proof. split; [discriminate|]. split; [reflexivity|]. split; [reflexivity|]. split; [apply Qc_is_canon; reflexivity|]. split; reflexivity. Qed.

Print Assumptions C46_count.
Print Assumptions C46_sum.
Print Assumptions C46_mean.
Print Assumptions C46_num_unique.
Print Assumptions C46_num_true.
Print Assumptions C46_percent_true.
Print Assumptions C46_any.
Print Assumptions C46_all.
Print Assumptions C46_min.
Print Assumptions C46_max.
Print Assumptions C46_std.
Print Assumptions C46_mean_skipna_refuted.
