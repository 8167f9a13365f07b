(** C81: the primitives about dates give the parts of the date.  C82: Age. *)
From Coq Require Import Lia ZArith QArith.
From Verif Require Import Base M_Calendar S_Calendar L_Calendar.
Local Open Scope Z_scope.

Lemma next_injective p p' q : next_day p q -> next_day p' q -> p = p'.
Proof.
  intros H H'. inversion H as [y m d n L R|y m n L R|y]; inversion H' as [y' m' d' n' L' R'|y' m' n' L' R'|y']; subst;
  match goal with E : (_, _, _) = (_, _, _) |- _ => injection E; clear E; intros end;
  repeat match goal with A : last_day ?y ?m ?n |- _ => assert (1 <= m <= 12) by (unfold last_day in A; cbn [In] in A; lia); revert A end; intros; try (exfalso; lia).
  - assert (d = d') as -> by lia. subst. reflexivity.
  - assert (m = m') as -> by lia. subst. match goal with A : last_day ?y ?m ?n, B : last_day ?y ?m ?n' |- _ => rewrite (last_day_unique y m n n' A B) end. reflexivity.
  - assert (y = y') as -> by lia. reflexivity.
Qed.
(** there is one calendar *)
Lemma calendar_unique D W D' W' : calendar D W -> calendar D' W' -> forall n, D n = D' n /\ W n = W' n.
Proof.
  intros (D0 & W0 & Dn & Wr & Wn) (D0' & W0' & Dn' & Wr' & Wn').
  assert (forall k, D (Z.of_nat k) = D' (Z.of_nat k) /\ W (Z.of_nat k) = W' (Z.of_nat k)) as Hp.
  { induction k as [|k [I J]]; [cbn; rewrite D0, D0', W0, W0'; split; reflexivity|]. replace (Z.of_nat (S k)) with (Z.of_nat k + 1) by lia. split.
    - apply (next_functional (D (Z.of_nat k))); [apply Dn | rewrite I; apply Dn'].
    - rewrite Wn, Wn', J. reflexivity. }
  assert (forall k, D (- Z.of_nat k) = D' (- Z.of_nat k) /\ W (- Z.of_nat k) = W' (- Z.of_nat k)) as Hm.
  { induction k as [|k [I J]]; [cbn; rewrite D0, D0', W0, W0'; split; reflexivity|]. replace (- Z.of_nat k) with (- Z.of_nat (S k) + 1) in I, J by lia. split.
    - apply (next_injective _ _ (D (- Z.of_nat (S k) + 1))); [apply Dn | rewrite I; apply Dn'].
    - rewrite Wn, Wn' in J. pose proof (Wr (- Z.of_nat (S k))). pose proof (Wr' (- Z.of_nat (S k))). destruct (Z.eqb_spec (W (- Z.of_nat (S k))) 6), (Z.eqb_spec (W' (- Z.of_nat (S k))) 6); lia. }
  intros n. destruct (Z.le_gt_cases 0 n); [replace n with (Z.of_nat (Z.to_nat n)) by lia; apply Hp | replace n with (- Z.of_nat (Z.to_nat (- n))) by lia; apply Hm].
Qed.
Local Notation weekday_parts := (fun n : Z => wd (date_parts n)).
Lemma day_length_eq : day_length = a_day.
Proof. reflexivity. Qed.

(** *** What pandas computes is the Gregorian calendar: the one with 1970-01-01 a Thursday. *)
Theorem C81_calendar : calendar date_parts weekday_parts.
Proof.
  split; [reflexivity|]. split; [reflexivity|]. split; [intros n; rewrite parts_next; apply tomorrow_next, parts_valid|]. split; [intros n; apply wd_range|].
  intros n. rewrite (proj2 (wd_range (n + 1))), (proj2 (wd_range n)). destruct (Z.eqb_spec ((n + 3) mod 7) 6); Z.div_mod_to_equations; lia.
Qed.

Lemma on_date_at f t p : date_parts (t / a_day) = p -> on_date f (Some t) = Some (f (fst (fst p)) (snd (fst p)) (snd p)).
Proof. intros <-. unfold on_date, day_of. rewrite day_length_eq. reflexivity. Qed.
Section Calendar.
  Variables (D : Z -> date) (W : Z -> Z).
  Hypothesis HC : calendar D W.
  Lemma D_parts n : D n = date_parts n.
  Proof. exact (proj1 (calendar_unique _ _ _ _ HC C81_calendar n)). Qed.
  Lemma W_parts n : W n = wd (date_parts n).
  Proof. exact (proj2 (calendar_unique _ _ _ _ HC C81_calendar n)). Qed.

  (** *** Year, Month, Day and Weekday are the parts of the date of the day; IsWeekend says whether it is a Saturday or Sunday. *)
  Theorem C81_date t : let n := t / a_day in
    (exists y m d, D n = (y, m, d) /\ year (Some t) = Some y /\ month (Some t) = Some m /\ day (Some t) = Some d) /\
    weekday (Some t) = Some (W n) /\ (is_weekend (Some t) = true <-> W n = 5 \/ W n = 6).
  Proof.
    cbv zeta. rewrite D_parts, W_parts. pose proof (proj1 (wd_range (t / a_day))) as R. remember (date_parts (t / a_day)) as p eqn:E. symmetry in E.
    unfold is_weekend, year, month, day, weekday. rewrite !(on_date_at _ _ _ E). clear E. destruct p as [[y m] d]. unfold wd in *. cbn [fst snd] in *.
    split; [exists y, m, d; auto|]. split; [reflexivity|]. rewrite Z.ltb_lt. lia.
  Qed.
  (** *** Week is the week of ISO 8601. *)
  Lemma year_mono a b : a <= b -> year_of (date_parts a) <= year_of (date_parts b).
  Proof.
    intros H. pose proof (parts_valid a) as Va. pose proof (parts_number a) as Na. pose proof (parts_valid b) as Vb. pose proof (parts_number b) as Nb.
    destruct (date_parts a) as [[ya ma] da], (date_parts b) as [[yb mb] db]. pose proof (number_year _ _ _ Va). pose proof (number_year _ _ _ Vb). unfold year_of. cbn [fst].
    destruct (Z.le_gt_cases ya yb) as [|G]; [assumption|]. pose proof (before_mono (yb + 1) ya). lia.
  Qed.
  Lemma iso_unique n k k' : iso_week D W n k -> iso_week D W n k' -> k = k'.
  Proof.
    unfold iso_week. cbv zeta. rewrite !D_parts. set (t := n + 3 - W n). intros [A B] [A' B']. destruct (Z.lt_trichotomy k k') as [C|[C|C]]; [|exact C|]; exfalso.
    - pose proof (year_mono (t - 7 * (k' - 1)) (t - 7 * k)). lia.
    - pose proof (year_mono (t - 7 * (k - 1)) (t - 7 * k')). lia.
  Qed.
  Lemma week_wk t : week (Some t) = Some (wk (date_parts (t / a_day))).
  Proof. unfold week, wk. rewrite (on_date_at _ t _ eq_refl). reflexivity. Qed.
  Lemma iso_wk n : iso_week D W n (wk (date_parts n)).
  Proof. pose proof (wk_iso n) as H. unfold iso_week in *. cbv zeta in *. rewrite !D_parts, W_parts. exact H. Qed.
  Theorem C81_week t k : week (Some t) = Some k <-> iso_week D W (t / a_day) k.
  Proof.
    rewrite week_wk. split.
    - intros H. injection H as <-. apply iso_wk.
    - intros H. f_equal. apply (iso_unique (t / a_day)); [apply iso_wk | exact H].
  Qed.
  (** *** The documentation of Week says that the first week starts on January 1 and that the number is incremented each Monday.
      That holds in years that begin with a Monday to Thursday, up to the last week that has its Thursday in the year. *)
  Theorem C81_week_partial t y : let n := t / a_day in
    (D n = (y, 1, 1) -> (week (Some t) = Some 1 <-> W n <= 3)) /\
    (forall k, year_of (D n) = y -> year_of (D (n + 1)) = y -> year_of (D (n + 3 - W n)) = y -> year_of (D (n + 1 + 3 - W (n + 1))) = y ->
     week (Some t) = Some k -> week (Some (t + a_day)) = Some (if W (n + 1) =? 0 then k + 1 else k)).
  Proof.
    cbv zeta. set (n := t / a_day). split.
    - intros Hd. rewrite week_wk. fold n. rewrite D_parts in Hd. rewrite W_parts. pose proof (wk_cases n) as [X E]. cbv zeta in X, E. pose proof (parts_number n) as N. rewrite Hd in *. unfold year_of in *. cbn [fst] in *. unfold number in N.
      assert (day_of_year y 1 1 = 1) as Ed by reflexivity. rewrite Ed in N. unfold thursday in *. rewrite Hd in *. pose proof (proj1 (wd_range n)) as R. rewrite Hd in R. set (w := wd (y, 1, 1)) in *. pose proof (leapn_range y).
      assert (n + 3 - w - before_year y = 3 - w) as Ex by lia. rewrite Ex in *. rewrite E. split.
      + destruct (Z.ltb_spec (3 - w) 0); [|lia]. destruct ((3 - w =? -1) || ((3 - w =? -2) && is_leapyear (y - 1))); discriminate.
      + intros H0. destruct (Z.ltb_spec (3 - w) 0); [lia|]. destruct (Z.ltb_spec (3 - w) (365 + leapn y)); [|lia]. rewrite Z.div_small by lia. reflexivity.
    - intros k. rewrite !D_parts, !W_parts, !week_wk. fold n. replace ((t + a_day) / a_day) with (n + 1) by (unfold n; replace (t + a_day) with (t + 1 * a_day) by ring; rewrite Z_div_plus_full by discriminate; reflexivity).
      fold (thursday n) (thursday (n + 1)). intros Y Y1 T T1 H. injection H as <-. f_equal. destruct (wk_cases n) as [X E], (wk_cases (n + 1)) as [X1 E1]. cbv zeta in *. rewrite Y in *. rewrite Y1 in *.
      assert (forall a, year_of (date_parts a) = y -> 0 <= a - before_year y < 365 + leapn y) as Hy.
      { intros a Ha. pose proof (parts_valid a) as V. pose proof (parts_number a) as N. destruct (date_parts a) as [[y' m] d]. unfold year_of in Ha. cbn [fst] in Ha. subst y'. pose proof (number_year _ _ _ V) as B. rewrite N, before_next in B. lia. }
      pose proof (Hy _ T) as R. pose proof (Hy _ T1) as R1. rewrite E, E1.
      destruct (Z.ltb_spec (thursday n - before_year y) 0); [lia|]. destruct (Z.ltb_spec (thursday n - before_year y) (365 + leapn y)); [|lia].
      destruct (Z.ltb_spec (thursday (n + 1) - before_year y) 0); [lia|]. destruct (Z.ltb_spec (thursday (n + 1) - before_year y) (365 + leapn y)); [|lia].
      destruct C81_calendar as (_ & _ & _ & Wr & Wn). pose proof (Wn n) as Wn0. pose proof (Wr n) as Wr0. unfold thursday. rewrite Wn0. destruct (Z.eqb_spec (wd (date_parts n)) 6) as [E6|E6].
      + rewrite E6. cbn [Z.eqb]. replace (n + 1 + 3 - 0 - before_year y) with (n + 3 - 6 - before_year y + 1 * 7) by ring. rewrite Z_div_plus_full by lia. reflexivity.
      + destruct (Z.eqb_spec (wd (date_parts n) + 1) 0); [lia|]. generalize (wd (date_parts n)) (before_year y). intros w b. replace (n + 1 + 3 - (w + 1) - b) with (n + 3 - w - b) by ring. reflexivity.
  Qed.
End Calendar.

(** *** January 1, 2021 is in week 53. *)
Theorem C81_week_refuted : exists t, date_parts (t / a_day) = (2021, 1, 1) /\ week (Some t) = Some 53.
Proof. exists (18628 * a_day). split; reflexivity. Qed.

(** *** Hour, Minute and Second are the time of day. *)
Theorem C81_clock t : exists h mi s rest, hour (Some t) = Some h /\ minute (Some t) = Some mi /\ second (Some t) = Some s /\
  t = (t / a_day) * a_day + ((h * 60 + mi) * 60 + s) * 1000000000 + rest /\ 0 <= h < 24 /\ 0 <= mi < 60 /\ 0 <= s < 60 /\ 0 <= rest < 1000000000.
Proof.
  unfold hour, minute, second, on_clock. rewrite day_length_eq. pose proof (Z.mod_pos_bound t a_day) as B. pose proof (Z.div_mod t a_day) as E. set (r := t mod a_day) in *. unfold a_day in *.
  exists (r / (3600 * 1000000000)), (r / (60 * 1000000000) mod 60), (r / 1000000000 mod 60), (r mod 1000000000). repeat (split; [reflexivity|]).
  set (s := r / 1000000000). assert (r / (60 * 1000000000) = s / 60) as Em by (unfold s; rewrite Z.div_div by lia; f_equal). assert (r / (3600 * 1000000000) = s / 60 / 60) as Eh by (unfold s; rewrite !Z.div_div by lia; f_equal).
  rewrite Em, Eh. pose proof (Z.div_mod r 1000000000) as Er. fold s in Er. pose proof (Z.mod_pos_bound r 1000000000). pose proof (Z.div_mod s 60). pose proof (Z.mod_pos_bound s 60). pose proof (Z.div_mod (s / 60) 60). pose proof (Z.mod_pos_bound (s / 60) 60). lia.
Qed.
(** *** Without a date there are no parts; and it is no weekend. *)
Theorem C81_missing : year None = None /\ month None = None /\ day None = None /\ weekday None = None /\ week None = None /\ hour None = None /\ minute None = None /\ second None = None /\ is_weekend None = false.
Proof. repeat split. Qed.

(** ** C82: Age *)
Section Age.
  Variables (D : Z -> date) (W : Z -> Z).
  Hypothesis HC : calendar D W.
  Lemma birthday_days b k n : 0 <= k -> birthday D b k n -> 365 * k <= n - b <= 366 * k.
  Proof.
    intros Hk. unfold birthday. rewrite !(D_parts D W HC). pose proof (parts_valid b) as Vb. pose proof (parts_number b) as Nb. pose proof (parts_valid n) as Vn. pose proof (parts_number n) as Nn.
    destruct (date_parts b) as [[y m] d]. intros [Hl En]. rewrite En in *. unfold number in *. assert (day_of_year (y + k) m d - day_of_year y m d = if m <? 3 then 0 else leapn (y + k) - leapn y) as Ed.
    { destruct Vb as [Hm _]. clear - Hm. unfold day_of_year, leapn. each_month Hm; destruct (is_leapyear (y + k)), (is_leapyear y); table; repeat match goal with |- context [Z.ltb ?a 3] => let v := eval vm_compute in (Z.ltb a 3) in change (Z.ltb a 3) with v end; cbv iota; lia. }
    destruct (m <? 3).
    - pose proof (before_mono y (y + k)). lia.
    - pose proof (before_mono (y + 1) (y + k + 1)). pose proof (before_next y). pose proof (before_next (y + k)). lia.
  Qed.
  (** *** From the k-th birthday on (in whole days since birth) the age is at least k, and on that day at most k years and k days,
      of 365 days a year. *)
  Theorem C82_birthday_partial b time k n : 0 <= k -> birthday D (b / a_day) k n -> n <= time / a_day -> b mod a_day <= time mod a_day ->
    exists a, age time (Some b) = Some a /\ (k # 1 <= a)%Q /\ (n = time / a_day -> (a <= 366 * k # 365)%Q).
  Proof.
    intros Hk HB Hn Hm. pose proof (birthday_days _ _ _ Hk HB) as R. unfold age. rewrite day_length_eq. eexists. split; [reflexivity|].
    assert ((time - b) / a_day = time / a_day - b / a_day) as E.
    { pose proof (Z.div_mod time a_day) as Et. pose proof (Z.div_mod b a_day) as Eb. pose proof (Z.mod_pos_bound time a_day) as Bt. pose proof (Z.mod_pos_bound b a_day) as Bb. unfold a_day in *.
      symmetry. apply (Z.div_unique _ _ _ (time mod (24 * 60 * 60 * 1000000000) - b mod (24 * 60 * 60 * 1000000000))); lia. }
    rewrite E. split; [unfold Qle; cbn [Qnum Qden]; lia|]. intros Hq. unfold Qle. cbn [Qnum Qden]. lia.
  Qed.
End Age.

(** *** Someone born on 2000-01-01 has the age 4 on 2003-12-31, the day before the fourth birthday. *)
Theorem C82_early_refuted : exists born time n, date_parts (born / a_day) = (2000, 1, 1) /\ birthday date_parts (born / a_day) 4 n /\ time / a_day = n - 1 /\
  age time (Some born) = Some (1460 # 365)%Q /\ (1460 # 365 == 4)%Q.
Proof.
  exists (10957 * a_day), (12417 * a_day), 12418. split; [reflexivity|]. split; [split; [discriminate | reflexivity]|]. split; [reflexivity|]. split; reflexivity.
Qed.
Theorem C82_missing time : age time None = None.
Proof. reflexivity. Qed.

Example C81_nonvacuous : date_parts 11016 = (2000, 2, 29) /\ date_parts (-1) = (1969, 12, 31) /\ date_parts 47541 = (2100, 3, 1) /\ weekday (Some (20774 * a_day)) = Some 1 /\
  is_weekend (Some (20771 * a_day)) = true /\ hour (Some (-1)) = Some 23 /\ year (Some (-1)) = Some 1969 /\ week (Some (20774 * a_day)) = Some 47.
Proof. repeat split. Qed.
Example C82_nonvacuous : birthday date_parts 4901 35 17685 /\ birthday date_parts 10957 4 12418.
Proof. split; (split; [discriminate | reflexivity]). Qed.
Print Assumptions C81_calendar.
Print Assumptions C81_date.
Print Assumptions C81_week.
Print Assumptions C81_week_partial.
Print Assumptions C81_week_refuted.
Print Assumptions C81_clock.
Print Assumptions C81_missing.
Print Assumptions C82_birthday_partial.
Print Assumptions C82_early_refuted.
Print Assumptions C82_missing.
