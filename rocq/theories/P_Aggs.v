(** C60: the standard aggregations compute the documented statistics. *)
From Coq Require Import QArith Qcanon Field Sorted.
From Verif Require Import Base BaseFacts M_Prims M_Prims3 S_Aggs P_Partition.
Local Open Scope Qc_scope.

(** ** counting positions *)
Lemma number_of_filter {A} (p : A -> Prop) (q : A -> bool) c : (forall a, q a = true <-> p a) -> number_of p c (List.length (filter q c)).
Proof.
  intros Hq. induction c as [|a c (ps & Hn & Hi & Hl)]; cbn [filter].
  - exists []. split; [constructor|]. split; [|reflexivity]. intros i. split; [intros [] | intros (b & Hb & _); destruct i; discriminate].
  - assert (forall i, In i (map S ps) <-> exists j b, i = S j /\ nth_error c j = Some b /\ p b) as HS.
    { intros i. rewrite in_map_iff. split; [intros (j & <- & Hj); apply Hi in Hj as (b & Hb); exists j, b; auto | intros (j & b & -> & Hb); exists j; split; [reflexivity | apply Hi; exists b; exact Hb]]. }
    assert (NoDup (map S ps)) as HnS by (apply FinFun.Injective_map_NoDup; [intros x y; congruence | exact Hn]).
    destruct (q a) eqn:E.
    + exists (0%nat :: map S ps). split; [constructor; [intros H; apply HS in H as (j & b & H & _); discriminate | exact HnS]|]. split; [|cbn [List.length]; rewrite map_length, Hl; reflexivity].
      intros [|i]; cbn [nth_error In].
      * split; [intros _; exists a; split; [reflexivity | apply Hq; exact E] | intros _; left; reflexivity].
      * rewrite HS. split; [intros [H|(j & b & H & Hb)]; [discriminate | injection H as <-; exists b; exact Hb] | intros (b & Hb); right; exists i, b; auto].
    + exists (map S ps). split; [exact HnS|]. split; [|rewrite map_length; exact Hl]. intros [|i]; rewrite HS; cbn [nth_error].
      * split; [intros (j & b & H & _); discriminate | intros (b & [= <-] & Hp); apply Hq in Hp; congruence].
      * split; [intros (j & b & H & Hb); injection H as <-; exists b; exact Hb | intros (b & Hb); exists i, b; auto].
Qed.
Lemma number_of_unique {A} (p : A -> Prop) c n m : number_of p c n -> number_of p c m -> n = m.
Proof.
  intros (ps & Hn & Hi & <-) (ps' & Hn' & Hi' & <-). apply Permutation_length. apply NoDup_Permutation; [exact Hn | exact Hn' |]. intros i. rewrite Hi, Hi'. reflexivity.
Qed.
Lemma dropna_len {A} (c : list (option A)) : List.length (dropna c) = List.length (filter (fun o => match o with Some _ => true | None => false end) c).
Proof. induction c as [|[a|] c IH]; [reflexivity | cbn; f_equal; exact IH | exact IH]. Qed.
Lemma dropna_In {A} (c : list (option A)) a : In a (dropna c) <-> In (Some a) c.
Proof. induction c as [|[b|] c IH]; cbn; [tauto | rewrite IH; split; (intros [H|H]; [left; congruence | right; exact H]) | rewrite IH; split; [intros H; right; exact H | intros [H|H]; [discriminate | exact H]]]. Qed.
Lemma dropna_perm {A} (c c' : list (option A)) : Permutation c c' -> Permutation (dropna c) (dropna c').
Proof. apply Permutation_flat_map. Qed.
Lemma map_some_dropna {A} (c : list (option A)) : map Some (dropna c) = filter (fun o => match o with Some _ => true | None => false end) c.
Proof. induction c as [|[a|] c IH]; [reflexivity | cbn; f_equal; exact IH | exact IH]. Qed.

Theorem C60_count {A} (c : list (option A)) : number_of present c (count_pd c).
Proof.
  unfold count_pd. rewrite dropna_len. apply number_of_filter. intros [a|]; split; [intros _; exists a; reflexivity | reflexivity | discriminate | intros (a & H); discriminate].
Qed.

(** ** totals *)
Lemma total_qsum c : total c (sum_pd c).
Proof. unfold sum_pd. induction c as [|[x|] c IH]; [constructor | cbn [dropna flat_map some_of app]; rewrite qsum_cons; constructor; exact IH | constructor; exact IH]. Qed.
Lemma total_unique c s s' : total c s -> total c s' -> s = s'.
Proof. intros H. revert s'. induction H as [|c s H IH|x c s H IH]; intros s' H'; inversion H'; subst; [reflexivity | apply IH; assumption | f_equal; apply IH; assumption]. Qed.
Theorem C60_sum c s : total c s <-> s = sum_pd c.
Proof. split; [intros H; exact (total_unique _ _ _ H (total_qsum c)) | intros ->; apply total_qsum]. Qed.

Lemma qlen_q_of {A} (l : list A) : qlen l = q_of (List.length l).
Proof. reflexivity. Qed.
Lemma mean_of (l : list Qc) : l <> [] -> qsum l / qlen l * qlen l = qsum l.
Proof. destruct l as [|x l]; [intros H; destruct (H eq_refl)|]. intros _. pose proof (qlen_pos x l). field. assumption. Qed.
(** the mean times the number of values is their total; with no values the mean is missing *)
Theorem C60_mean c n : number_of present c n ->
  match mean_pd true c with Some m => n <> 0%nat /\ total c (m * q_of n) | None => n = 0%nat end.
Proof.
  intros Hn. rewrite (number_of_unique _ _ _ _ Hn (C60_count c)). unfold mean_pd, count_pd. destruct (dropna c) as [|x l] eqn:E; [reflexivity|]. split; [discriminate|].
  rewrite C60_sum. unfold sum_pd. rewrite E, <- qlen_q_of. apply mean_of. discriminate.
Qed.
(** with skipna=False one missing value makes the mean missing *)
Theorem C60_mean_skipna c : (In None c -> mean_pd false c = None) /\ (~ In None c -> mean_pd false c = mean_pd true c).
Proof.
  unfold mean_pd. split; intros H.
  - assert (forallb (fun o : option Qc => match o with Some _ => true | None => false end) c = false) as ->; [|reflexivity].
    destruct (forallb _ c) eqn:E; [|reflexivity]. rewrite forallb_forall in E. discriminate (E None H).
  - assert (forallb (fun o : option Qc => match o with Some _ => true | None => false end) c = true) as ->; [|reflexivity].
    apply forallb_forall. intros [x|] Hx; [reflexivity | destruct (H Hx)].
Qed.

(** ** smallest and largest *)
Theorem C60_min c : match min_pd c with
  | Some m => In (Some m) c /\ forall x, In (Some x) c -> m <= x
  | None => forall x, ~ In (Some x) c
  end.
Proof.
  pose proof (best_unique qc_leb) as U. unfold min_pd. destruct (best qc_leb None (dropna c)) as [m|] eqn:E.
  - apply U in E as [H1 H2].
    + split; [apply dropna_In; exact H1 | intros x Hx; apply qc_leb_le, H2, dropna_In; exact Hx].
    + intros a. apply qc_leb_le. apply Qcle_refl.
    + intros a b Hab. apply qc_leb_le. apply Qclt_le_weak. apply qc_leb_gt. exact Hab.
    + intros a b d. rewrite !qc_leb_le. apply Qcle_trans.
    + intros a b. rewrite !qc_leb_le. apply Qcle_antisym.
  - intros x Hx. apply dropna_In in Hx. destruct (dropna c) as [|y l]; [destruct Hx|]. cbn [best] in E.
    destruct (best_some qc_leb) with (l := l) (a := y) as (z & Hz & _); [| | |congruence].
    + intros a. apply qc_leb_le. apply Qcle_refl.
    + intros a b Hab. apply qc_leb_le. apply Qclt_le_weak. apply qc_leb_gt. exact Hab.
    + intros a b d. rewrite !qc_leb_le. apply Qcle_trans.
Qed.
Theorem C60_max c : match max_pd c with
  | Some m => In (Some m) c /\ forall x, In (Some x) c -> x <= m
  | None => forall x, ~ In (Some x) c
  end.
Proof.
  pose proof (best_unique (fun a b => qc_leb b a)) as U. unfold max_pd. destruct (best (fun a b => qc_leb b a) None (dropna c)) as [m|] eqn:E.
  - apply U in E as [H1 H2].
    + split; [apply dropna_In; exact H1 | intros x Hx; apply qc_leb_le, H2, dropna_In; exact Hx].
    + intros a. apply qc_leb_le. apply Qcle_refl.
    + intros a b Hab. apply qc_leb_le. apply Qclt_le_weak. apply qc_leb_gt. exact Hab.
    + intros a b d. rewrite !qc_leb_le. intros L1 L2. eapply Qcle_trans; eassumption.
    + intros a b. rewrite !qc_leb_le. intros L1 L2. apply Qcle_antisym; assumption.
  - intros x Hx. apply dropna_In in Hx. destruct (dropna c) as [|y l]; [destruct Hx|]. cbn [best] in E.
    destruct (best_some (fun a b => qc_leb b a)) with (l := l) (a := y) as (z & Hz & _); [| | |congruence].
    + intros a. apply qc_leb_le. apply Qcle_refl.
    + intros a b Hab. apply qc_leb_le. apply Qclt_le_weak. apply qc_leb_gt. exact Hab.
    + intros a b d. rewrite !qc_leb_le. intros L1 L2. eapply Qcle_trans; eassumption.
Qed.

(** ** distinct values, and booleans *)
Theorem C60_num_unique {A} (eqb : A -> A -> bool) (Hs : forall x y, reflect (x = y) (eqb x y)) c l :
  NoDup l -> (forall x, In x l <-> In (Some x) c) -> nunique_pd eqb c = List.length l.
Proof.
  intros Hn Hl. unfold nunique_pd. apply Permutation_length. apply NoDup_Permutation; [apply (dedup_NoDup _ Hs) | exact Hn |].
  intros x. rewrite (dedup_In _ Hs), Hl, dropna_In. cbn [In]. tauto.
Qed.
Lemma bsum_filter l : bsum l = Z.of_nat (List.length (filter (fun b => b) l)).
Proof. induction l as [|b l IH]; [reflexivity|]. change (b :: l) with ([b] ++ l). rewrite bsum_app, IH. destruct b; cbn [filter app List.length bsum fold_left]; lia. Qed.
Theorem C60_num_true c : number_of (fun o => o = Some true) c (Z.to_nat (num_true_pd c)) /\ (0 <= num_true_pd c)%Z.
Proof.
  unfold num_true_pd. rewrite bsum_filter, Nat2Z.id. split; [|lia].
  assert (List.length (filter (fun b => b) (dropna c)) = List.length (filter (fun o => match o with Some true => true | _ => false end) c)) as ->.
  { induction c as [|[[|]|] c IH]; [reflexivity | cbn; f_equal; exact IH | exact IH | exact IH]. }
  apply number_of_filter. intros [[|]|]; split; congruence.
Qed.
Lemma true_filter c : number_of (fun o => o = Some true) c (List.length (filter (fun o => match o with Some true => true | _ => false end) c)).
Proof. apply number_of_filter. intros [[|]|]; split; congruence. Qed.
(** missing values count as false: the share of all rows, not of the present ones *)
Theorem C60_percent_true c n : number_of (fun o => o = Some true) c n ->
  match percent_true_pd c with Some p => c <> [] /\ p * q_of (List.length c) = q_of n | None => c = [] end.
Proof.
  intros Hn. unfold percent_true_pd. destruct c as [|o c]; [reflexivity|]. split; [discriminate|].
  assert (bsum (fillna0 (o :: c)) = Z.of_nat n) as ->.
  { rewrite bsum_filter. f_equal. rewrite (number_of_unique _ _ _ _ Hn (true_filter (o :: c))).
    clear. generalize (o :: c). intros l. induction l as [|[[|]|] l IH]; [reflexivity | cbn; f_equal; exact IH | exact IH | exact IH]. }
  rewrite !qlen_q_of. unfold fillna0. rewrite map_length. change (Q2Qc (Z.of_nat n # 1)) with (q_of n).
  assert (q_of (List.length (o :: c)) <> 0) as H by apply (qlen_pos o c). field. exact H.
Qed.
Theorem C60_any c : any_pd c = true <-> In (Some true) c.
Proof. unfold any_pd. rewrite existsb_exists. split; [intros (b & Hb & ->); apply dropna_In; exact Hb | intros H; exists true; split; [apply dropna_In; exact H | reflexivity]]. Qed.
Theorem C60_all c : all_pd c = true <-> ~ In (Some false) c.
Proof.
  unfold all_pd. rewrite forallb_forall. split.
  - intros H Hin. apply dropna_In in Hin. discriminate (H _ Hin).
  - intros H [|] Hin; [reflexivity|]. destruct H. apply dropna_In. exact Hin.
Qed.

(** ** the middle value *)
Lemma filter_perm {A} (p : A -> bool) l l' : Permutation l l' -> Permutation (filter p l) (filter p l').
Proof. induction 1 as [|a l l' H IH|a b l|l l' l'' H1 IH1 H2 IH2]; cbn [filter]; [constructor | destruct (p a); [constructor|]; exact IH | destruct (p a), (p b); first [apply perm_swap | apply Permutation_refl] | exact (Permutation_trans IH1 IH2)]. Qed.
Lemma filter_all {A} (p : A -> bool) l : (forall x, In x l -> p x = true) -> filter p l = l.
Proof. induction l as [|a l IH]; intros H; [reflexivity|]. cbn [filter]. rewrite (H a (or_introl eq_refl)). f_equal. apply IH. intros x Hx. apply H. right. exact Hx. Qed.
Lemma sorted_unique (a b : list Qc) : StronglySorted Qcle a -> StronglySorted Qcle b -> Permutation a b -> a = b.
Proof.
  revert b. induction a as [|x a IH]; intros b Ha Hb Hp; [symmetry; apply Permutation_nil; exact Hp|].
  destruct b as [|y b]; [apply Permutation_sym, Permutation_nil in Hp; discriminate|].
  inversion Ha as [|? ? Ha' Hxa]; subst. inversion Hb as [|? ? Hb' Hyb]; subst. rewrite Forall_forall in Hxa, Hyb.
  assert (x = y) as ->.
  { apply Qcle_antisym.
    - assert (In y (x :: a)) as [->|H] by (eapply Permutation_in; [apply Permutation_sym; exact Hp | left; reflexivity]); [apply Qcle_refl | apply Hxa; exact H].
    - assert (In x (y :: b)) as [->|H] by (eapply Permutation_in; [exact Hp | left; reflexivity]); [apply Qcle_refl | apply Hyb; exact H]. }
  f_equal. apply IH; [exact Ha' | exact Hb' | exact (Permutation_cons_inv Hp)].
Qed.
Lemma perm_map_some (a b : list Qc) : Permutation (map Some a) (map Some b) -> Permutation a b.
Proof.
  intros H. apply dropna_perm in H. assert (forall l : list Qc, dropna (map Some l) = l) as E by (induction l as [|x l IH]; [reflexivity | cbn; f_equal; exact IH]). rewrite !E in H. exact H.
Qed.
Lemma isort_in_order c : in_order c (isort qc_leb (dropna c)).
Proof.
  split.
  - assert (forall l, StronglySorted (fun a b => qc_leb a b = true) l -> StronglySorted Qcle l) as Hw.
    { induction 1 as [|x l H IH Hx]; constructor; [exact IH|]. rewrite Forall_forall in *. intros y Hy. apply qc_leb_le, Hx, Hy. }
    apply Hw. apply isort_sorted.
    + intros a b. rewrite !qc_leb_le. destruct (Qclt_le_dec a b) as [H|H]; [left; apply Qclt_le_weak; exact H | right; exact H].
    + intros a b d. rewrite !qc_leb_le. apply Qcle_trans.
  - rewrite <- map_some_dropna. apply Permutation_map. apply isort_perm.
Qed.
Lemma in_order_unique c s s' : in_order c s -> in_order c s' -> s = s'.
Proof. intros [H1 H2] [H1' H2']. apply sorted_unique; [exact H1 | exact H1' |]. apply perm_map_some. eapply Permutation_trans; [exact H2 | apply Permutation_sym; exact H2']. Qed.

(** with the values in ascending order: the middle one, or the mean of the middle two *)
Theorem C60_median c s : in_order c s ->
  (s = [] -> median_pd c = None) /\
  (forall k m, List.length s = (2 * k + 1)%nat -> nth_error s k = Some m -> median_pd c = Some m) /\
  (forall k a b, List.length s = (2 * k + 2)%nat -> nth_error s k = Some a -> nth_error s (k + 1) = Some b -> median_pd c = Some ((a + b) / (1 + 1))).
Proof.
  intros Hs. pose proof (in_order_unique _ _ _ Hs (isort_in_order c)) as E. unfold median_pd. rewrite <- E. clear E Hs. repeat apply conj.
  - intros ->. reflexivity.
  - intros k m Hl Hm. rewrite Hl. destruct (Nat.eqb_spec (2 * k + 1) 0); [lia|].
    assert (Nat.odd (2 * k + 1) = true) as -> by (rewrite Nat.odd_spec; exists k; reflexivity).
    assert ((2 * k + 1) / 2 = k)%nat as -> by (symmetry; apply Nat.div_unique with (r := 1%nat); lia). exact Hm.
  - intros k a b Hl Ha Hb. rewrite Hl. destruct (Nat.eqb_spec (2 * k + 2) 0); [lia|].
    assert (Nat.odd (2 * k + 2) = false) as ->.
    { rewrite <- Nat.negb_even. assert (Nat.even (2 * k + 2) = true) as -> by (rewrite Nat.even_spec; exists (k + 1)%nat; lia). reflexivity. }
    assert ((2 * k + 2) / 2 = k + 1)%nat as -> by (symmetry; apply Nat.div_unique with (r := 0%nat); lia).
    replace (k + 1 - 1)%nat with k by lia. rewrite Ha, Hb. reflexivity.
Qed.

(** at least half of the values are not above it, and at least half are not below it *)
Lemma sorted_below s k a b : StronglySorted Qcle s -> nth_error s k = Some a -> a <= b -> (k < List.length (filter (fun x => qc_leb x b) s))%nat.
Proof.
  intros Hs. revert k. induction Hs as [|x s Hs IH Hx]; intros [|k] Hk Hb; cbn [nth_error] in Hk; try discriminate; cbn [filter].
  - injection Hk as ->. rewrite (proj2 (qc_leb_le a b) Hb). cbn; lia.
  - rewrite Forall_forall in Hx. rewrite (proj2 (qc_leb_le x b)); [cbn [List.length]; specialize (IH k Hk Hb); lia|].
    eapply Qcle_trans; [apply Hx; eapply nth_error_In; exact Hk | exact Hb].
Qed.
Lemma sorted_above s k a b : StronglySorted Qcle s -> nth_error s k = Some a -> b <= a -> (List.length s - k <= List.length (filter (fun x => qc_leb b x) s))%nat.
Proof.
  intros Hs. revert k. induction Hs as [|x s Hs IH Hx]; intros [|k] Hk Hb; cbn [nth_error] in Hk; try discriminate; cbn [filter List.length].
  - injection Hk as ->. rewrite Forall_forall in Hx. rewrite (proj2 (qc_leb_le b a) Hb).
    assert (filter (fun x => qc_leb b x) s = s) as ->; [|cbn [List.length]; lia]. apply filter_all. intros y Hy. apply qc_leb_le. eapply Qcle_trans; [exact Hb | apply Hx; exact Hy].
  - specialize (IH k Hk Hb). destruct (qc_leb b x); cbn [List.length]; lia.
Qed.
Lemma half_le a b : a <= b -> a <= (a + b) / (1 + 1) /\ (a + b) / (1 + 1) <= b.
Proof.
  intros H. assert ((1 + 1 : Qc) <> 0) as H2 by (intros E; discriminate E).
  assert (0 <= / (1 + 1)) as Hi by (vm_compute; discriminate).
  assert (0 <= (b - a) * / (1 + 1)) as Hd.
  { replace 0 with (0 * / (1 + 1)) by ring. apply Qcmult_le_compat_r; [|exact Hi]. apply Qcle_minus_iff in H. exact H. }
  split; apply Qcle_minus_iff.
  - replace ((a + b) / (1 + 1) + - a) with ((b - a) * / (1 + 1)) by (field; exact H2). exact Hd.
  - replace (b + - ((a + b) / (1 + 1))) with ((b - a) * / (1 + 1)) by (field; exact H2). exact Hd.
Qed.
Lemma number_present (q : Qc -> bool) (p : Qc -> Prop) c s : (forall x, q x = true <-> p x) -> in_order c s -> number_of (fun o => exists x, o = Some x /\ p x) c (List.length (filter q s)).
Proof.
  intros Hq [_ Hp]. assert (List.length (filter q s) = List.length (filter (fun o => match o with Some x => q x | None => false end) c)) as ->.
  { rewrite <- map_some_dropna in Hp. apply perm_map_some in Hp. rewrite (Permutation_length (filter_perm q _ _ Hp)). clear. induction c as [|[x|] c IH]; [reflexivity | | exact IH]. cbn. destruct (q x); cbn; [f_equal|]; exact IH. }
  apply number_of_filter. intros [x|]; [rewrite Hq; split; [intros H; exists x; auto | intros (y & [= <-] & H); exact H] | split; [discriminate | intros (y & H & _); discriminate]].
Qed.
Theorem C60_median_halves c m n : median_pd c = Some m -> number_of present c n ->
  exists below above, number_of (fun o => exists x, o = Some x /\ x <= m) c below /\ number_of (fun o => exists x, o = Some x /\ m <= x) c above /\
    (n <= 2 * below)%nat /\ (n <= 2 * above)%nat.
Proof.
  intros Hm Hn. pose proof (isort_in_order c) as Ho. remember (isort qc_leb (dropna c)) as s eqn:Es.
  exists (List.length (filter (fun x => qc_leb x m) s)), (List.length (filter (fun x => qc_leb m x) s)).
  split; [apply (number_present (fun x => qc_leb x m) (fun x => x <= m)); [intros x; apply qc_leb_le | exact Ho]|].
  split; [apply (number_present (fun x => qc_leb m x) (fun x => m <= x)); [intros x; apply qc_leb_le | exact Ho]|].
  assert (n = List.length s) as ->.
  { rewrite (number_of_unique _ _ _ _ Hn (C60_count c)). unfold count_pd. rewrite Es. symmetry. apply Permutation_length, isort_perm. }
  destruct (C60_median c s Ho) as (M0 & M1 & M2). destruct Ho as [Hs _]. clear Es Hn.
  destruct (Nat.Even_or_Odd (List.length s)) as [[k Hk]|[k Hk]].
  - destruct k as [|k]; [destruct s; [rewrite (M0 eq_refl) in Hm; discriminate | cbn in Hk; lia]|].
    destruct (nth_error s k) as [a|] eqn:Ea; [|apply nth_error_None in Ea; lia]. destruct (nth_error s (k + 1)) as [b|] eqn:Eb; [|apply nth_error_None in Eb; lia].
    rewrite (M2 k a b) in Hm; [|lia | exact Ea | exact Eb]. injection Hm as <-.
    assert (a <= b) as Hab.
    { clear - Hs Ea Eb. revert k Ea Eb. induction Hs as [|x s Hs IH Hx]; intros [|k] Ea Eb; cbn [nth_error] in *; try discriminate; [|apply (IH k); assumption].
      injection Ea as ->. rewrite Forall_forall in Hx. apply Hx. apply nth_error_In with (n := 0%nat). exact Eb. }
    destruct (half_le a b Hab) as [L1 L2].
    pose proof (sorted_below s k a _ Hs Ea L1). pose proof (sorted_above s (k + 1) b _ Hs Eb L2). lia.
  - destruct (nth_error s k) as [a|] eqn:Ea; [|apply nth_error_None in Ea; lia]. rewrite (M1 k a Hk Ea) in Hm. injection Hm as <-.
    pose proof (sorted_below s k a a Hs Ea (Qcle_refl a)). pose proof (sorted_above s k a a Hs Ea (Qcle_refl a)). lia.
Qed.

(** ** the dispersion *)
(** the squared standard deviation of a feature: times the number of values less one, the total squared distance from the mean;
    missing for fewer than two values *)
Theorem C60_std c n m v : number_of present c n -> mean_pd true c = Some m -> spread c m v ->
  match var_pd c with Some d => (2 <= n)%nat /\ d * (q_of n - 1) = v | None => (n < 2)%nat end.
Proof.
  intros Hn Hm Hv. rewrite (number_of_unique _ _ _ _ Hn (C60_count c)). unfold spread in Hv. apply C60_sum in Hv. subst v.
  unfold var_pd, count_pd, sum_pd, mean_pd in *.
  assert (dropna (map (option_map (fun x => (x - m) * (x - m))) c) = map (fun x => (x - m) * (x - m)) (dropna c)) as ->.
  { clear. induction c as [|[x|] c IH]; [reflexivity | cbn; f_equal; exact IH | exact IH]. }
  destruct (dropna c) as [|x [|y l]]; [discriminate | cbn; lia |]. injection Hm as <-. split; [cbn [List.length]; lia|].
  rewrite <- qlen_q_of. assert (qlen (x :: y :: l) - 1 <> 0) as Hn1.
  { rewrite qlen_cons. replace (qlen (y :: l) + 1 - 1) with (qlen (y :: l)) by ring. apply qlen_pos. }
  set (t := qsum (map _ _)). set (k := qlen (x :: y :: l)) in *. clearbody t. field. exact Hn1.
Qed.
(** the squared standard deviation of the primitive called on a column divides by the number of values *)
Theorem C60_std_call c n m v : number_of present c n -> mean_pd true c = Some m -> spread c m v ->
  exists d, var_call c = Some d /\ d * q_of n = v.
Proof.
  intros Hn Hm Hv. rewrite (number_of_unique _ _ _ _ Hn (C60_count c)). unfold spread in Hv. apply C60_sum in Hv. subst v.
  unfold var_call, count_pd, sum_pd, mean_pd in *.
  assert (dropna (map (option_map (fun x => (x - m) * (x - m))) c) = map (fun x => (x - m) * (x - m)) (dropna c)) as ->.
  { clear. induction c as [|[x|] c IH]; [reflexivity | cbn; f_equal; exact IH | exact IH]. }
  destruct (dropna c) as [|x l]; [discriminate|]. injection Hm as <-. eexists. split; [reflexivity|].
  rewrite <- qlen_q_of. pose proof (qlen_pos x l) as Hn1. set (t := qsum (map _ _)). set (k := qlen (x :: l)) in *. clearbody t. field. exact Hn1.
Qed.
(** so a STD feature does not hold what the primitive documents for the values of the group: Std()([1, 2, 3, 4, 5, None])
    squared is 2 (documented: 1.414), the feature's value squared is 5/2 *)
Theorem C60_std_refuted :
  let c := map (fun z => Some (Q2Qc (z # 1))) [1; 2; 3; 4; 5]%Z ++ [None] in
  var_call c = Some (Q2Qc (2 # 1)) /\ var_pd c = Some (Q2Qc (5 # 2)).
Proof. split; cbn [var_call var_pd dropna flat_map some_of map app]; apply f_equal, Qc_is_canon; vm_compute; reflexivity. Qed.

(** ** first and last *)
Theorem C60_first {A} (c : list (option A)) v : first_pd c = Ok v <-> nth_error c 0 = Some v.
Proof. destruct c as [|x c]; cbn; split; congruence. Qed.
Theorem C60_last {A} (c : list (option A)) v : last_pd c = Ok v <-> c <> [] /\ nth_error c (List.length c - 1) = Some v.
Proof.
  unfold last_pd. destruct c as [|x c] using rev_ind; [cbn; split; [discriminate | intros [H _]; destruct (H eq_refl)]|].
  rewrite rev_app_distr. cbn [rev app]. rewrite app_length, nth_error_app2 by (cbn; lia). cbn [List.length].
  replace (List.length c + 1 - 1 - List.length c)%nat with 0%nat by lia. cbn [nth_error]. split; [intros [= ->]; split; [destruct c; discriminate | reflexivity] | intros [_ [= ->]]; reflexivity].
Qed.

(** ** the order of the rows does not matter, except for the first and the last *)
Lemma mean_alt c : mean_pd true c = if Nat.eqb (List.length (dropna c)) 0 then None else Some (qsum (dropna c) / qlen (dropna c)).
Proof. unfold mean_pd. destruct (dropna c); reflexivity. Qed.
Lemma var_alt c : var_pd c = if Nat.ltb (List.length (dropna c)) 2 then None
  else let m := qsum (dropna c) / qlen (dropna c) in Some (qsum (map (fun x => (x - m) * (x - m)) (dropna c)) / (qlen (dropna c) - 1)).
Proof. unfold var_pd. destruct (dropna c) as [|x [|y l]]; reflexivity. Qed.
Theorem C60_order (c c' : ncol) : Permutation c c' ->
  count_pd c = count_pd c' /\ sum_pd c = sum_pd c' /\ mean_pd true c = mean_pd true c' /\ mean_pd false c = mean_pd false c' /\ min_pd c = min_pd c' /\ max_pd c = max_pd c' /\
  median_pd c = median_pd c' /\ var_pd c = var_pd c'.
Proof.
  intros Hp. pose proof (dropna_perm _ _ Hp) as Hd.
  assert (forall l l', Permutation l l' -> qsum l = qsum l') as Hsum.
  { induction 1 as [|x l l' H IH|x y l|l l' l'' H1 IH1 H2 IH2]; [reflexivity | rewrite !qsum_cons, IH; reflexivity | rewrite !qsum_cons; ring | congruence]. }
  assert (forall l l' : list Qc, Permutation l l' -> qlen l = qlen l') as Hlen by (intros l l' H; unfold qlen; rewrite (Permutation_length H); reflexivity).
  assert (mean_pd true c = mean_pd true c') as Hmean.
  { rewrite !mean_alt, (Hsum _ _ Hd), (Hlen _ _ Hd), (Permutation_length Hd). reflexivity. }
  split; [exact (Permutation_length Hd)|]. split; [exact (Hsum _ _ Hd)|]. split; [exact Hmean|]. split.
  { destruct (C60_mean_skipna c) as [M1 M2], (C60_mean_skipna c') as [M1' M2'].
    assert (In None c \/ ~ In None c) as [H|H] by (clear; induction c as [|[x|] c [IH|IH]]; [right; intros [] | left; right; exact IH | right; intros [H|H]; [discriminate | exact (IH H)] | left; left; reflexivity | left; left; reflexivity]).
    - rewrite (M1 H), M1'; [reflexivity | eapply Permutation_in; eassumption].
    - rewrite (M2 H), M2'; [exact Hmean | intros H'; apply H; eapply Permutation_in; [apply Permutation_sym; exact Hp | exact H']]. }
  split.
  { pose proof (C60_min c) as A. pose proof (C60_min c') as B. destruct (min_pd c) as [m|], (min_pd c') as [m'|]; [| | |reflexivity].
    - f_equal. apply Qcle_antisym; [apply A; eapply Permutation_in; [apply Permutation_sym; exact Hp | apply B] | apply B; eapply Permutation_in; [exact Hp | apply A]].
    - destruct (B m). eapply Permutation_in; [exact Hp | apply A].
    - destruct (A m'). eapply Permutation_in; [apply Permutation_sym; exact Hp | apply B]. }
  split.
  { pose proof (C60_max c) as A. pose proof (C60_max c') as B. destruct (max_pd c) as [m|], (max_pd c') as [m'|]; [| | |reflexivity].
    - f_equal. apply Qcle_antisym; [apply B; eapply Permutation_in; [exact Hp | apply A] | apply A; eapply Permutation_in; [apply Permutation_sym; exact Hp | apply B]].
    - destruct (B m). eapply Permutation_in; [exact Hp | apply A].
    - destruct (A m'). eapply Permutation_in; [apply Permutation_sym; exact Hp | apply B]. }
  split.
  { unfold median_pd. assert (isort qc_leb (dropna c) = isort qc_leb (dropna c')) as ->; [|reflexivity].
    apply (in_order_unique c); [apply isort_in_order|]. destruct (isort_in_order c') as [S P]. split; [exact S|]. eapply Permutation_trans; [exact P | apply filter_perm, Permutation_sym; exact Hp]. }
  rewrite !var_alt. cbv zeta. rewrite (Hsum _ _ Hd), (Hlen _ _ Hd), (Permutation_length Hd).
  rewrite (Hsum _ _ (Permutation_map (fun x => (x - qsum (dropna c') / qlen (dropna c')) * (x - qsum (dropna c') / qlen (dropna c'))) Hd)). reflexivity.
Qed.
(** the first and the last value depend on the order of the rows *)
Theorem C60_first_last_depend_on_order : exists c c' : list (option bool), Permutation c c' /\ first_pd c <> first_pd c' /\ last_pd c <> last_pd c'.
Proof. exists [Some true; Some false], [Some false; Some true]. split; [constructor | split; discriminate]. Qed.

(** ** Percentile: the share of the values below, counting equal values as half below and half not *)
Lemma qc_eqb_spec x y : Qc_eq_bool x y = true <-> x = y.
Proof. unfold Qc_eq_bool. destruct (Qc_eq_dec x y) as [H|H]; split; congruence. Qed.
Theorem C60_percentile c i :
  (nth_error c i = Some None -> nth_error (percentile c) i = Some None) /\
  forall x n less equal, nth_error c i = Some (Some x) -> number_of present c n ->
    number_of (fun o => exists y, o = Some y /\ y < x) c less -> number_of (fun o => o = Some x) c equal ->
    exists p, nth_error (percentile c) i = Some (Some p) /\ (1 + 1) * p * q_of n = (1 + 1) * q_of less + q_of equal + 1.
Proof.
  unfold percentile. split; [intros H; rewrite nth_error_map, H; reflexivity|].
  intros x n less equal Hi Hn Hl He. rewrite nth_error_map, Hi. cbn [option_map]. eexists. split; [reflexivity|].
  assert (n = List.length (dropna c)) as -> by (exact (number_of_unique _ _ _ _ Hn (C60_count c))).
  assert (forall (q : Qc -> bool), List.length (filter q (dropna c)) = List.length (filter (fun o => match o with Some y => q y | None => false end) c)) as Hf.
  { intros q. clear. induction c as [|[y|] c IH]; [reflexivity | | exact IH]. cbn. destruct (q y); cbn; [f_equal|]; exact IH. }
  assert (less = List.length (filter (fun y => negb (qc_leb x y)) (dropna c))) as ->.
  { rewrite Hf. apply (number_of_unique _ _ _ _ Hl). apply number_of_filter. intros [y|]; [|split; [discriminate | intros (y & H & _); discriminate]].
    rewrite negb_true_iff. split; [intros H; exists y; split; [reflexivity | apply qc_leb_gt; exact H] | intros (z & [= <-] & H)].
    destruct (qc_leb x y) eqn:E; [|reflexivity]. apply qc_leb_le in E. destruct (Qclt_not_le _ _ H E). }
  assert (equal = List.length (filter (fun y => Qc_eq_bool x y) (dropna c))) as ->.
  { rewrite Hf. apply (number_of_unique _ _ _ _ He). apply number_of_filter. intros [y|]; [rewrite qc_eqb_spec; split; congruence | split; discriminate]. }
  rewrite <- !qlen_q_of. assert (qlen (dropna c) <> 0) as Hne.
  { assert (In x (dropna c)) as Hx by (apply dropna_In; eapply nth_error_In; exact Hi). destruct (dropna c) as [|y l]; [destruct Hx | apply qlen_pos]. }
  assert ((1 + 1 : Qc) <> 0) as H2 by (intros E; discriminate E).
  generalize (qlen (filter (fun y => negb (qc_leb x y)) (dropna c))), (qlen (filter (fun y => Qc_eq_bool x y) (dropna c))). intros u v. field. auto.
Qed.

(** ** examples: a column with ties and a missing value *)
Definition demo_col : ncol := [Some (Q2Qc (3 # 1)); None; Some (Q2Qc (1 # 1)); Some (Q2Qc (3 # 1)); Some (Q2Qc (7 # 1))].
Example C60_nonvacuous :
  number_of present demo_col 4 /\ total demo_col (Q2Qc (14 # 1)) /\ in_order demo_col [Q2Qc (1 # 1); Q2Qc (3 # 1); Q2Qc (3 # 1); Q2Qc (7 # 1)] /\
  option_map this (mean_pd true demo_col) = Some (7 # 2)%Q /\ option_map this (median_pd demo_col) = Some (3 # 1)%Q /\ option_map this (var_pd demo_col) = Some (19 # 3)%Q /\
  map (option_map this) (percentile demo_col) = [Some (5 # 8)%Q; None; Some (1 # 4)%Q; Some (5 # 8)%Q; Some 1%Q] /\
  option_map this (percent_true_pd [Some true; Some false; None; Some true; Some true]) = Some (3 # 5)%Q.
Proof.
  split; [exact (C60_count demo_col)|]. split.
  { apply C60_sum. apply Qc_is_canon. vm_compute. reflexivity. }
  split.
  { split; [|].
    - repeat (apply SSorted_cons; [|repeat (apply Forall_cons; [vm_compute; discriminate|]); apply Forall_nil]). apply SSorted_nil.
    - cbn [map filter demo_col]. apply (Permutation_trans (perm_swap _ _ _)). constructor. apply Permutation_refl. }
  repeat apply conj; vm_compute; reflexivity.
Qed.

Print Assumptions C60_count. Print Assumptions C60_sum. Print Assumptions C60_mean. Print Assumptions C60_mean_skipna.
Print Assumptions C60_min. Print Assumptions C60_max. Print Assumptions C60_num_unique. Print Assumptions C60_num_true.
Print Assumptions C60_percent_true. Print Assumptions C60_any. Print Assumptions C60_all. Print Assumptions C60_median.
Print Assumptions C60_median_halves. Print Assumptions C60_std. Print Assumptions C60_std_call. Print Assumptions C60_std_refuted.
Print Assumptions C60_first. Print Assumptions C60_last. Print Assumptions C60_order. Print Assumptions C60_first_last_depend_on_order. Print Assumptions C60_percentile.
