(** C80: Entropy is the entropy of the distribution of the values. *)
From Coq Require Import Reals Lra Psatz Permutation Lia.
From Verif Require Import Base BaseFacts M_Entropy S_Entropy.
Local Open Scope R_scope.

Lemma times_filter v l : List.length (filter (val_eqb v) l) = times v l.
Proof. induction l as [|x l IH]; [reflexivity|]. cbn [filter times]. destruct (val_eqb v x); cbn [List.length]; congruence. Qed.
Lemma times_pos v l : In v l -> (0 < times v l)%nat.
Proof.
  induction l as [|x l IH]; [intros []|]. cbn [times]. destruct (val_eqb_spec v x) as [->|N]; [lia|]. intros [E|H]; [congruence | apply IH; exact H].
Qed.
Lemma times_le v l : (times v l <= List.length l)%nat.
Proof. induction l as [|x l IH]; [reflexivity|]. cbn. destruct (val_eqb v x); lia. Qed.
Lemma times_all v l : times v l = List.length l -> forall x, In x l -> x = v.
Proof.
  induction l as [|x l IH]; [intros _ ? []|]. cbn [times List.length]. destruct (val_eqb_spec v x) as [<-|N].
  - intros H y [<-|Hy]; [reflexivity|]. apply IH; [lia | exact Hy].
  - intros H. pose proof (times_le v l). lia.
Qed.
Lemma all_times v l : (forall x, In x l -> x = v) -> times v l = List.length l.
Proof.
  induction l as [|x l IH]; intros H; [reflexivity|]. cbn [times List.length]. rewrite (H x (or_introl eq_refl)), val_eqb_refl. f_equal. apply IH. intros y Hy. apply H. right. exact Hy.
Qed.
Lemma times_perm v l l' : Permutation l l' -> times v l = times v l'.
Proof. induction 1; cbn; try (destruct (val_eqb v x); try destruct (val_eqb v y)); congruence. Qed.

Lemma sum_of_ext f g l : (forall x, In x l -> f x = g x) -> sum_of f l = sum_of g l.
Proof. induction l as [|x l IH]; intros H; [reflexivity|]. cbn. rewrite (H x (or_introl eq_refl)), IH; [reflexivity|]. intros y Hy. apply H. right. exact Hy. Qed.
Lemma sum_of_plus f g l : sum_of (fun x => f x + g x) l = sum_of f l + sum_of g l.
Proof. induction l as [|x l IH]; cbn; [lra|]. rewrite IH. lra. Qed.
Lemma sum_of_scale c f l : sum_of (fun x => c * f x) l = c * sum_of f l.
Proof. induction l as [|x l IH]; cbn; [lra|]. rewrite IH. lra. Qed.
Lemma sum_of_le f g l : (forall x, In x l -> f x <= g x) -> sum_of f l <= sum_of g l.
Proof.
  induction l as [|x l IH]; intros H; cbn; [lra|]. pose proof (H x (or_introl eq_refl)). assert (sum_of f l <= sum_of g l) by (apply IH; intros y Hy; apply H; right; exact Hy). lra.
Qed.
Lemma sum_of_const c l : sum_of (fun _ => c) l = c * INR (List.length l).
Proof. induction l as [|x l IH]; [cbn; lra|]. cbn [sum_of List.length]. rewrite IH, S_INR. lra. Qed.
Lemma sum_of_zero f l : (forall x, In x l -> 0 <= f x) -> sum_of f l = 0 -> forall x, In x l -> f x = 0.
Proof.
  induction l as [|x l IH]; intros H E y Hy; [destruct Hy|]. cbn in E. pose proof (H x (or_introl eq_refl)).
  assert (0 <= sum_of f l) by (rewrite <- (Rmult_0_l (INR (List.length l))), <- sum_of_const; apply sum_of_le; intros z Hz; apply H; right; exact Hz).
  destruct Hy as [<-|Hy]; [lra|]. apply IH; [intros z Hz; apply H; right; exact Hz | lra | exact Hy].
Qed.
Lemma sum_of_perm f l l' : Permutation l l' -> sum_of f l = sum_of f l'.
Proof. induction 1; cbn; lra. Qed.
Lemma rsum_map (f : val -> R) l : rsum (map f l) = sum_of f l.
Proof. induction l as [|x l IH]; [reflexivity|]. cbn. rewrite <- IH. reflexivity. Qed.

(** the indicator of a value, summed over a list without repetitions *)
Lemma sum_pick f x ds : NoDup ds -> In x ds -> sum_of (fun v => if val_eqb v x then f v else 0) ds = f x.
Proof.
  induction ds as [|d ds IH]; intros Hn Hin; [destruct Hin|]. inversion Hn as [|? ? Hni Hn']; subst. cbn [sum_of]. destruct (val_eqb_spec d x) as [->|N].
  - rewrite (sum_of_ext _ (fun _ => 0)); [rewrite sum_of_const; lra|]. intros v Hv. destruct (val_eqb_spec v x) as [->|]; [contradiction | reflexivity].
  - destruct Hin as [E|Hin]; [contradiction|]. rewrite IH by assumption. lra.
Qed.
(** values with their numbers, or row by row *)
Lemma sum_by_value f ds l : NoDup ds -> (forall x, In x l -> In x ds) -> sum_of (fun v => INR (times v l) * f v) ds = sum_of f l.
Proof.
  intros Hn. induction l as [|x l IH]; intros H.
  - cbn. rewrite (sum_of_ext _ (fun _ => 0)) by (intros v _; lra). rewrite sum_of_const. lra.
  - cbn [sum_of]. rewrite <- IH by (intros y Hy; apply H; right; exact Hy). rewrite <- (sum_pick f x ds Hn (H x (or_introl eq_refl))) at 1. rewrite <- sum_of_plus.
    apply sum_of_ext. intros v _. cbn [times]. destruct (val_eqb v x); [rewrite S_INR; lra | lra].
Qed.

Section One.
  Variable l : list val.
  Hypothesis Hne : l <> [].
  Let n := INR (List.length l).
  Let ds := dedup_by val_eqb [] l.
  Lemma n_pos : 0 < n.
  Proof. unfold n. destruct l; [contradiction|]. apply lt_0_INR. cbn. lia. Qed.
  Lemma some_row : exists v, In v l.
  Proof. destruct l as [|v l0]; [contradiction|]. exists v. left. reflexivity. Qed.
  Lemma ds_NoDup : NoDup ds.
  Proof. apply (dedup_NoDup val_eqb val_eqb_spec). Qed.
  Lemma ds_In v : In v ds <-> In v l.
  Proof. unfold ds. rewrite (dedup_In val_eqb val_eqb_spec). cbn. tauto. Qed.
  Lemma share_pos v : In v ds -> 0 < INR (times v l) / n.
  Proof. intros H. apply Rdiv_lt_0_compat; [|apply n_pos]. apply lt_0_INR, times_pos, ds_In, H. Qed.
  Lemma share_le v : INR (times v l) / n <= 1.
  Proof. pose proof n_pos. apply (Rmult_le_reg_r n); [exact H|]. unfold Rdiv. rewrite Rmult_assoc, Rinv_l by lra. rewrite Rmult_1_l, Rmult_1_r. apply le_INR, times_le. Qed.
  Lemma shares_total : sum_of (fun v => INR (times v l) / n) ds = 1.
  Proof.
    rewrite (sum_of_ext _ (fun v => INR (times v l) * / n)) by reflexivity. rewrite sum_by_value; [|apply ds_NoDup | intros x Hx; apply ds_In; exact Hx].
    rewrite sum_of_const. fold n. pose proof n_pos. apply Rinv_l. lra.
  Qed.
  Lemma entropy_rows : rsum (map (fun p => entr (p / rsum (map (fun v => INR (times v l) / n) ds))) (map (fun v => INR (times v l) / n) ds)) = mean_surprise l.
  Proof.
    rewrite rsum_map, shares_total, map_map, rsum_map. unfold mean_surprise. fold n.
    rewrite (sum_of_ext _ (fun v => INR (times v l) * (/ n * surprise l v))).
    - rewrite (sum_by_value (fun v => / n * surprise l v)); [|apply ds_NoDup | intros x Hx; apply ds_In; exact Hx]. rewrite sum_of_scale. unfold Rdiv. lra.
    - intros v Hv. pose proof (share_pos v Hv) as Hp. unfold Rdiv at 1. rewrite Rinv_1, Rmult_1_r. unfold entr. destruct (Rlt_dec 0 (INR (times v l) / n)) as [_|N]; [|contradiction].
      unfold surprise. fold n. unfold Rdiv. lra.
  Qed.
  Lemma surprise_pos v : In v l -> 0 <= surprise l v.
  Proof.
    intros H. unfold surprise. fold n. pose proof (share_pos v (proj2 (ds_In v) H)) as Hp. pose proof (share_le v) as Hl.
    destruct (Rle_lt_or_eq_dec _ _ Hl) as [Hlt|He]; [|rewrite He, ln_1; lra]. pose proof (ln_increasing _ _ Hp Hlt) as Hi. rewrite ln_1 in Hi. lra.
  Qed.
  Lemma mean_pos : 0 <= mean_surprise l.
  Proof.
    unfold mean_surprise. fold n. apply Rmult_le_pos; [|left; apply Rinv_0_lt_compat, n_pos]. rewrite <- (Rmult_0_l (INR (List.length l))), <- sum_of_const.
    apply sum_of_le. intros x Hx. apply surprise_pos. exact Hx.
  Qed.
  Lemma mean_zero : mean_surprise l = 0 <-> exists v, forall x, In x l -> x = v.
  Proof.
    pose proof n_pos as Hn. unfold mean_surprise. fold n. split.
    - intros H. assert (sum_of (surprise l) l = 0) as E by (apply Rmult_integral in H as [H|H]; [exact H | pose proof (Rinv_0_lt_compat n Hn); lra]).
      destruct some_row as (v & Hv). exists v.
      pose proof (sum_of_zero _ _ surprise_pos E v Hv) as S. unfold surprise in S. fold n in S. pose proof (share_pos v (proj2 (ds_In v) Hv)) as Hp.
      assert (INR (times v l) / n = 1) as E1.
      { apply ln_inv; [exact Hp | lra | rewrite ln_1; lra]. }
      apply times_all. apply INR_eq. fold n. apply (Rmult_eq_reg_r (/ n)); [|pose proof (Rinv_0_lt_compat n Hn); lra]. rewrite Rinv_r by lra. exact E1.
    - intros (v & Hv). rewrite (sum_of_ext _ (fun _ => 0)); [rewrite sum_of_const; unfold Rdiv; lra|]. intros x Hx. unfold surprise. fold n.
      rewrite (all_times x l) by (intros y Hy; rewrite (Hv y Hy), (Hv x Hx); reflexivity). fold n. unfold Rdiv. rewrite Rinv_r by lra. rewrite ln_1. lra.
  Qed.
  (** at most the logarithm of the number of values *)
  Lemma mean_max : mean_surprise l <= ln (INR (List.length ds)).
  Proof.
    pose proof n_pos as Hn. set (k := INR (List.length ds)). assert (0 < k) as Hk.
    { unfold k. apply lt_0_INR. destruct some_row as (v & Hv). apply ds_In in Hv. destruct ds; [destruct Hv | cbn; lia]. }
    assert (mean_surprise l - ln k <= 0) as H; [|lra].
    assert (mean_surprise l = sum_of (fun v => INR (times v l) * (/ n * surprise l v)) ds) as ->.
    { rewrite (sum_by_value (fun v => / n * surprise l v)); [|apply ds_NoDup | intros x Hx; apply ds_In; exact Hx]. rewrite sum_of_scale. unfold mean_surprise. fold n. unfold Rdiv. lra. }
    replace (ln k) with (ln k * sum_of (fun v => INR (times v l) / n) ds) by (rewrite shares_total; lra). rewrite <- sum_of_scale.
    assert (forall a b, a - b = a + (-1) * b) as Hm by (intros; lra). rewrite Hm, <- sum_of_scale, <- sum_of_plus.
    apply Rle_trans with (sum_of (fun v => / k + (-1) * (INR (times v l) / n)) ds).
    - apply sum_of_le. intros v Hv. pose proof (share_pos v Hv) as Hp. set (p := INR (times v l) / n) in *.
      assert (INR (times v l) * (/ n * surprise l v) = p * - ln p) as ->. { unfold surprise. fold n. fold p. unfold p at 2, Rdiv. ring. }
      assert (p * - ln p + -1 * (ln k * p) = p * ln (/ (k * p))) as ->. { rewrite ln_Rinv by (apply Rmult_lt_0_compat; assumption). rewrite ln_mult by assumption. ring. }
      assert (ln (/ (k * p)) <= / (k * p) - 1) as Hl.
      { assert (0 < / (k * p)) as Hq by (apply Rinv_0_lt_compat, Rmult_lt_0_compat; assumption). pose proof (exp_ineq1_le (ln (/ (k * p)))) as He. rewrite exp_ln in He by exact Hq. lra. }
      assert (p * (/ (k * p) - 1) = / k + -1 * p) as <- by (field; lra). apply Rmult_le_compat_l; lra.
    - rewrite sum_of_plus, sum_of_const, sum_of_scale, shares_total. fold k. rewrite Rinv_l by lra. lra.
  Qed.
  (** values that are equally frequent *)
  Lemma mean_uniform c : (forall v, In v l -> times v l = c) -> mean_surprise l = ln (INR (List.length ds)).
  Proof.
    intros Hc. pose proof n_pos as Hn. assert (n = INR c * INR (List.length ds)) as En.
    { pose proof shares_total as St. rewrite (sum_of_ext _ (fun _ => INR c / n)) in St by (intros v Hv; rewrite (Hc v); [reflexivity | apply ds_In; exact Hv]). rewrite sum_of_const in St.
      apply (Rmult_eq_reg_r (/ n)); [|pose proof (Rinv_0_lt_compat n Hn); lra]. rewrite Rinv_r by lra. rewrite <- St. unfold Rdiv. ring. }
    unfold mean_surprise. fold n. rewrite (sum_of_ext _ (fun _ => ln (INR (List.length ds)))).
    - rewrite sum_of_const. fold n. field. lra.
    - intros v Hv. unfold surprise. rewrite (Hc v Hv). fold n. pose proof (times_pos v l Hv) as Ht. rewrite (Hc v Hv) in Ht. apply lt_INR in Ht. cbn in Ht.
      assert (0 < INR (List.length ds)) as Hd by (destruct (Rle_lt_dec (INR (List.length ds)) 0) as [H|H]; [exfalso; pose proof (pos_INR (List.length ds)); assert (INR (List.length ds) = 0) as E by lra; rewrite E in En; lra | exact H]).
      rewrite <- ln_Rinv; [f_equal; rewrite En; field; lra|]. apply Rdiv_lt_0_compat; assumption.
  Qed.
End One.

(** the rows that the primitive counts *)
Definition counted (dropna : bool) (s : list val) : list val := if dropna then known s else s.
Lemma entropy_mean dropna base s : counted dropna s <> [] ->
  entropy dropna base s = match base with None => mean_surprise (counted dropna s) | Some b => mean_surprise (counted dropna s) / ln b end.
Proof.
  intros Hne. assert (rsum (map (fun p => entr (p / rsum (map snd (shares dropna s)))) (map snd (shares dropna s))) = mean_surprise (counted dropna s)) as E.
  { assert (map snd (shares dropna s) = map (fun v => INR (times v (counted dropna s)) / INR (List.length (counted dropna s))) (dedup_by val_eqb [] (counted dropna s))) as ->.
    { unfold shares, counted, known. rewrite map_map. apply map_ext. intros v. cbn [snd]. rewrite times_filter. reflexivity. }
    apply entropy_rows. exact Hne. }
  unfold entropy, scipy_entropy. cbv zeta. rewrite E. reflexivity.
Qed.

(** *** The entropy is the average surprise of the rows: of all rows, missing ones being one value of their own, or with
    dropna of the rows that are not missing; without rows it is 0. *)
Theorem C80_value (dropna : bool) base s :
  (counted dropna s <> [] -> entropy dropna base s = match base with None => mean_surprise (counted dropna s) | Some b => mean_surprise (counted dropna s) / ln b end) /\
  (counted dropna s = [] -> entropy dropna base s = 0).
Proof.
  split; [apply entropy_mean|]. intros H. unfold entropy, shares. fold (known s). fold (counted dropna s). rewrite H. cbn. unfold scipy_entropy. cbn. destruct base; [unfold Rdiv; lra | reflexivity].
Qed.

(** *** It is at least 0, and 0 exactly if all rows are alike; at most the logarithm of the number of values, and equal to it
    if all values are equally frequent. *)
Theorem C80_range (dropna : bool) s : counted dropna s <> [] ->
  0 <= entropy dropna None s <= ln (INR (List.length (dedup_by val_eqb [] (counted dropna s)))) /\
  (entropy dropna None s = 0 <-> exists v, forall x, In x (counted dropna s) -> x = v) /\
  (forall c, (forall v, In v (counted dropna s) -> times v (counted dropna s) = c) -> entropy dropna None s = ln (INR (List.length (dedup_by val_eqb [] (counted dropna s))))).
Proof.
  intros Hne. rewrite (entropy_mean dropna None s Hne). split; [split; [apply mean_pos; exact Hne | apply mean_max; exact Hne]|].
  split; [apply mean_zero; exact Hne | intros c Hc; apply (mean_uniform _ Hne c Hc)].
Qed.

(** *** The order of the rows does not matter, nor what the values are called. *)
Lemma filter_perm (f : val -> bool) s s' : Permutation s s' -> Permutation (filter f s) (filter f s').
Proof.
  induction 1; cbn.
  - constructor.
  - destruct (f x); [constructor; assumption | assumption].
  - destruct (f x), (f y); try apply Permutation_refl. apply perm_swap.
  - eapply Permutation_trans; eassumption.
Qed.
Lemma mean_perm l l' : Permutation l l' -> mean_surprise l = mean_surprise l'.
Proof.
  intros H. unfold mean_surprise. rewrite <- (Permutation_length H). f_equal. rewrite (sum_of_perm _ _ _ H). apply sum_of_ext. intros x _.
  unfold surprise. rewrite (times_perm x l l' H), (Permutation_length H). reflexivity.
Qed.
Lemma map_sum f g l : sum_of f (map g l) = sum_of (fun x => f (g x)) l.
Proof. induction l as [|x l IH]; [reflexivity|]. cbn. rewrite IH. reflexivity. Qed.
Lemma times_map g v l : (forall a b, g a = g b -> a = b) -> times (g v) (map g l) = times v l.
Proof.
  intros Hg. induction l as [|x l IH]; [reflexivity|]. cbn. rewrite IH. destruct (val_eqb_spec (g v) (g x)) as [E|N], (val_eqb_spec v x) as [E'|N']; try reflexivity; exfalso; [apply N', Hg, E | apply N; congruence].
Qed.
Theorem C80_rows (dropna : bool) base s s' : Permutation s s' -> entropy dropna base s = entropy dropna base s'.
Proof.
  intros H. assert (Permutation (counted dropna s) (counted dropna s')) as Hp by (destruct dropna; [apply filter_perm; exact H | exact H]).
  destruct (C80_value dropna base s) as [A A0], (C80_value dropna base s') as [B B0].
  destruct (counted dropna s) as [|x l] eqn:E.
  - rewrite A0 by reflexivity. apply Permutation_nil in Hp. rewrite B0 by exact Hp. reflexivity.
  - assert (counted dropna s' <> []) as Hn by (intros E'; rewrite E' in Hp; apply Permutation_sym, Permutation_nil in Hp; discriminate).
    rewrite A, B by (assumption || discriminate). rewrite (mean_perm _ _ Hp). reflexivity.
Qed.
Theorem C80_names (dropna : bool) base g s : (forall a b, g a = g b -> a = b) -> (forall a, is_null (g a) = is_null a) -> entropy dropna base (map g s) = entropy dropna base s.
Proof.
  intros Hg Hn. assert (counted dropna (map g s) = map g (counted dropna s)) as Ec.
  { destruct dropna; [|reflexivity]. cbn. unfold known. clear - Hn. induction s as [|x s IH]; [reflexivity|]. cbn. rewrite Hn. destruct (is_null x); cbn; congruence. }
  assert (mean_surprise (map g (counted dropna s)) = mean_surprise (counted dropna s)) as Em.
  { unfold mean_surprise. rewrite map_length, map_sum. f_equal. apply sum_of_ext. intros x _. unfold surprise. rewrite (times_map g x _ Hg), map_length. reflexivity. }
  destruct (C80_value dropna base s) as [A A0], (C80_value dropna base (map g s)) as [B B0]. rewrite Ec in B, B0.
  destruct (counted dropna s) as [|x l] eqn:E; [rewrite A0, B0 by reflexivity; reflexivity|]. rewrite A, B by discriminate. rewrite Em. reflexivity.
Qed.

(** *** The documentation says that dropna is "whether to consider NaN values as a separate category": it is the other way round. *)
Local Open Scope string_scope.
Theorem C80_dropna_refuted : entropy false None [VStr "a"; VNull] = ln 2 /\ entropy true None [VStr "a"; VNull] = 0.
Proof.
  split.
  - destruct (C80_range false [VStr "a"; VNull]) as (_ & _ & H); [discriminate|]. rewrite (H 1%nat); [cbn; f_equal; lra|]. intros v [<-|[<-|[]]]; reflexivity.
  - apply (C80_range true [VStr "a"; VNull]); [discriminate|]. exists (VStr "a"). intros x [<-|[]]. reflexivity.
Qed.
Example C80_nonvacuous : entropy false None [VStr "a"; VStr "b"; VStr "b"; VStr "a"] = ln 2 /\ entropy true None [VNull] = 0 /\ 0 < ln 2.
Proof.
  split; [|split].
  - destruct (C80_range false [VStr "a"; VStr "b"; VStr "b"; VStr "a"]) as (_ & _ & H); [discriminate|]. rewrite (H 2%nat); [cbn; f_equal; lra|]. intros v [<-|[<-|[<-|[<-|[]]]]]; reflexivity.
  - apply C80_value. reflexivity.
  - rewrite <- ln_1. apply ln_increasing; lra.
Qed.
Print Assumptions C80_value.
Print Assumptions C80_range.
Print Assumptions C80_rows.
Print Assumptions C80_names.
Print Assumptions C80_dropna_refuted.
