(** The days of M_Calendar, counted: a date is the number of days before it. *)
From Coq Require Import Lia ZArith.
From Verif Require Import Base M_Calendar S_Calendar.
Local Open Scope Z_scope.

Definition wd (p : date) : Z := dayofweek (fst (fst p)) (snd (fst p)) (snd p).
Definition wk (p : date) : Z := week_of_year (fst (fst p)) (snd (fst p)) (snd p).
Definition leapn (y : Z) : Z := if is_leapyear y then 1 else 0.
(** leap days before the year, days before the year since 1970 *)
Definition leaps (y : Z) : Z := (y - 1) / 4 - (y - 1) / 100 + (y - 1) / 400.
Definition before_year (y : Z) : Z := 365 * (y - 1970) + leaps y - 477.
Definition number (p : date) : Z := let '(y, m, d) := p in before_year y + day_of_year y m d - 1.

Lemma leapn_range y : 0 <= leapn y <= 1.
Proof. unfold leapn. destruct (is_leapyear y); lia. Qed.
Lemma leaps_next y : leaps (y + 1) = leaps y + leapn y.
Proof.
  unfold leaps, leapn, is_leapyear. replace (y + 1 - 1) with y by ring.
  assert (y / 4 = (y - 1) / 4 + if y mod 4 =? 0 then 1 else 0) as -> by (destruct (Z.eqb_spec (y mod 4) 0); Z.div_mod_to_equations; lia).
  assert (y / 100 = (y - 1) / 100 + if y mod 100 =? 0 then 1 else 0) as -> by (destruct (Z.eqb_spec (y mod 100) 0); Z.div_mod_to_equations; lia).
  assert (y / 400 = (y - 1) / 400 + if y mod 400 =? 0 then 1 else 0) as -> by (destruct (Z.eqb_spec (y mod 400) 0); Z.div_mod_to_equations; lia).
  destruct (Z.eqb_spec (y mod 4) 0), (Z.eqb_spec (y mod 100) 0), (Z.eqb_spec (y mod 400) 0); cbn [andb orb negb]; try lia; exfalso; Z.div_mod_to_equations; lia.
Qed.
Lemma before_next y : before_year (y + 1) = before_year y + 365 + leapn y.
Proof. unfold before_year. rewrite leaps_next. lia. Qed.
Lemma before_mono y y' : y <= y' -> before_year y + 365 * (y' - y) <= before_year y' <= before_year y + 366 * (y' - y).
Proof.
  intros H. replace y' with (y + Z.of_nat (Z.to_nat (y' - y))) by lia. generalize (Z.to_nat (y' - y)). intros k. induction k as [|k IH].
  - cbn [Z.of_nat]. rewrite Z.add_0_r. lia.
  - replace (y + Z.of_nat (S k)) with (y + Z.of_nat k + 1) by lia. rewrite before_next. pose proof (leapn_range (y + Z.of_nat k)). lia.
Qed.
Lemma year_unique y y' n : before_year y <= n < before_year (y + 1) -> before_year y' <= n < before_year (y' + 1) -> y = y'.
Proof.
  intros H H'. destruct (Z.lt_trichotomy y y') as [C|[C|C]]; [|exact C|].
  - pose proof (before_mono (y + 1) y'). lia.
  - pose proof (before_mono (y' + 1) y). lia.
Qed.

(** the year and the day in it *)
Lemma yd_spec n : n = before_year (fst (days_to_yearsdays n)) + snd (days_to_yearsdays n) /\ 0 <= snd (days_to_yearsdays n) < 365 + leapn (fst (days_to_yearsdays n)).
Proof.
  unfold days_to_yearsdays. cbv zeta. set (d := n - (365 * 30 + 7)). pose proof (Z.div_mod d 146097). pose proof (Z.mod_pos_bound d 146097).
  set (a := d / 146097) in *. set (r := d mod 146097) in *. unfold leapn, is_leapyear, before_year, leaps.
  destruct (Z.leb_spec 366 r) as [G1|G1].
  - pose proof (Z.div_mod (r - 1) 36524). pose proof (Z.mod_pos_bound (r - 1) 36524). set (b := (r - 1) / 36524) in *. set (r1 := (r - 1) mod 36524) in *. assert (0 <= b <= 3) by lia.
    destruct (Z.leb_spec 365 r1) as [G2|G2].
    + pose proof (Z.div_mod (r1 + 1) 1461). pose proof (Z.mod_pos_bound (r1 + 1) 1461). set (c := (r1 + 1) / 1461) in *. set (r2 := (r1 + 1) mod 1461) in *. assert (0 <= c <= 24) by lia.
      destruct (Z.leb_spec 366 r2) as [G3|G3].
      * pose proof (Z.div_mod (r2 - 1) 365). pose proof (Z.mod_pos_bound (r2 - 1) 365). set (e := (r2 - 1) / 365) in *. set (r3 := (r2 - 1) mod 365) in *. assert (1 <= e <= 3) by lia.
        cbn [fst snd]. set (y := 2000 + 400 * a + 100 * b + 4 * c + e).
        assert ((y - 1) / 4 = 500 + 100 * a + 25 * b + c) as -> by (symmetry; apply (Z.div_unique _ _ _ (e - 1)); unfold y; lia).
        assert ((y - 1) / 100 = 20 + 4 * a + b) as -> by (symmetry; apply (Z.div_unique _ _ _ (4 * c + e - 1)); unfold y; lia).
        assert ((y - 1) / 400 = 5 + a) as -> by (symmetry; apply (Z.div_unique _ _ _ (100 * b + 4 * c + e - 1)); unfold y; lia).
        assert (y mod 4 = e) as -> by (symmetry; apply (Z.mod_unique _ _ (500 + 100 * a + 25 * b + c)); unfold y; lia).
        destruct (Z.eqb_spec e 0); [lia|]. cbn [andb]. unfold y. lia.
      * assert (1 <= c) by lia. cbn [fst snd]. set (y := 2000 + 400 * a + 100 * b + 4 * c).
        assert ((y - 1) / 4 = 499 + 100 * a + 25 * b + c) as -> by (symmetry; apply (Z.div_unique _ _ _ 3); unfold y; lia).
        assert ((y - 1) / 100 = 20 + 4 * a + b) as -> by (symmetry; apply (Z.div_unique _ _ _ (4 * c - 1)); unfold y; lia).
        assert ((y - 1) / 400 = 5 + a) as -> by (symmetry; apply (Z.div_unique _ _ _ (100 * b + 4 * c - 1)); unfold y; lia).
        assert (y mod 4 = 0) as -> by (symmetry; apply (Z.mod_unique _ _ (500 + 100 * a + 25 * b + c)); unfold y; lia).
        assert (y mod 100 = 4 * c) as -> by (symmetry; apply (Z.mod_unique _ _ (20 + 4 * a + b)); unfold y; lia).
        destruct (Z.eqb_spec (4 * c) 0); [lia|]. cbn [Z.eqb andb negb orb]. unfold y. lia.
    + assert (1 <= b) by lia. cbn [fst snd]. set (y := 2000 + 400 * a + 100 * b).
      assert ((y - 1) / 4 = 499 + 100 * a + 25 * b) as -> by (symmetry; apply (Z.div_unique _ _ _ 3); unfold y; lia).
      assert ((y - 1) / 100 = 19 + 4 * a + b) as -> by (symmetry; apply (Z.div_unique _ _ _ 99); unfold y; lia).
      assert ((y - 1) / 400 = 5 + a) as -> by (symmetry; apply (Z.div_unique _ _ _ (100 * b - 1)); unfold y; lia).
      assert (y mod 100 = 0) as -> by (symmetry; apply (Z.mod_unique _ _ (20 + 4 * a + b)); unfold y; lia).
      assert (y mod 400 = 100 * b) as -> by (symmetry; apply (Z.mod_unique _ _ (5 + a)); unfold y; lia).
      destruct (Z.eqb_spec (100 * b) 0); [lia|]. cbn [Z.eqb negb orb]. rewrite andb_false_r. unfold y. lia.
  - cbn [fst snd]. set (y := 2000 + 400 * a).
    assert ((y - 1) / 4 = 499 + 100 * a) as -> by (symmetry; apply (Z.div_unique _ _ _ 3); unfold y; lia).
    assert ((y - 1) / 100 = 19 + 4 * a) as -> by (symmetry; apply (Z.div_unique _ _ _ 99); unfold y; lia).
    assert ((y - 1) / 400 = 4 + a) as -> by (symmetry; apply (Z.div_unique _ _ _ 399); unfold y; lia).
    assert (y mod 4 = 0) as -> by (symmetry; apply (Z.mod_unique _ _ (500 + 100 * a)); unfold y; lia).
    assert (y mod 400 = 0) as -> by (symmetry; apply (Z.mod_unique _ _ (5 + a)); unfold y; lia).
    cbn [Z.eqb andb]. rewrite orb_true_r. unfold y. lia.
Qed.

(** *** months *)
Definition month_length (y m : Z) : Z := nth (Z.to_nat (m - 1)) (days_per_month (is_leapyear y)) 0.
Definition valid (p : date) : Prop := let '(y, m, d) := p in 1 <= m <= 12 /\ 1 <= d <= month_length y m.
Lemma months m : 1 <= m <= 12 -> m = 1 \/ m = 2 \/ m = 3 \/ m = 4 \/ m = 5 \/ m = 6 \/ m = 7 \/ m = 8 \/ m = 9 \/ m = 10 \/ m = 11 \/ m = 12.
Proof. lia. Qed.
Ltac each_month H := apply months in H; destruct H as [-> |[-> |[-> |[-> |[-> |[-> |[-> |[-> |[-> |[-> |[-> | ->]]]]]]]]]]].
Ltac table := repeat match goal with |- context [Z.to_nat ?x] => let v := eval vm_compute in (Z.to_nat x) in change (Z.to_nat x) with v end;
  repeat match goal with H : context [Z.to_nat ?x] |- _ => let v := eval vm_compute in (Z.to_nat x) in change (Z.to_nat x) with v in H end;
  cbn [nth firstn fold_left days_per_month sakamoto] in *.
Lemma find_month_valid y r : 0 <= r < 365 + leapn y ->
  let md := find_month (days_per_month (is_leapyear y)) 1 r in valid (y, fst md, snd md) /\ day_of_year y (fst md) (snd md) = r + 1.
Proof.
  unfold leapn, valid, month_length, day_of_year. cbv zeta. destruct (is_leapyear y); cbn [days_per_month find_month]; intros H;
  repeat match goal with |- context [Z.ltb ?a ?b] => destruct (Z.ltb_spec a b) end; cbn [fst snd]; table; lia.
Qed.
Lemma month_find y m d : valid (y, m, d) -> find_month (days_per_month (is_leapyear y)) 1 (day_of_year y m d - 1) = (m, d).
Proof.
  unfold valid, month_length, day_of_year. intros [Hm Hd]. each_month Hm; destruct (is_leapyear y); table; cbn [find_month days_per_month];
  repeat match goal with |- context [Z.ltb ?a ?b] => destruct (Z.ltb_spec a b); [try (exfalso; lia) | try (exfalso; lia)] end; f_equal; lia.
Qed.
Lemma doy_range y m d : valid (y, m, d) -> 1 <= day_of_year y m d <= 365 + leapn y.
Proof.
  unfold valid, month_length, day_of_year, leapn. intros [Hm Hd]. each_month Hm; destruct (is_leapyear y); table; lia.
Qed.
Lemma parts_valid n : valid (date_parts n).
Proof. unfold date_parts. cbv zeta. destruct (yd_spec n) as [_ H]. apply (find_month_valid _ _ H). Qed.
Lemma parts_number n : number (date_parts n) = n.
Proof. unfold date_parts, number. cbv zeta. destruct (yd_spec n) as [E H]. destruct (find_month_valid _ _ H) as [_ D]. cbv zeta in D. rewrite D. lia. Qed.
Lemma number_year y m d : valid (y, m, d) -> before_year y <= number (y, m, d) < before_year (y + 1).
Proof. intros H. pose proof (doy_range y m d H). unfold number. rewrite before_next. lia. Qed.
Lemma number_inj p q : valid p -> valid q -> number p = number q -> p = q.
Proof.
  destruct p as [[y m] d], q as [[y' m'] d']. intros Hp Hq E. pose proof (number_year y m d Hp) as A. pose proof (number_year y' m' d' Hq) as B. rewrite <- E in B.
  pose proof (year_unique y y' _ A B). subst y'. pose proof (month_find y m d Hp) as F. pose proof (month_find y m' d' Hq) as G.
  assert (day_of_year y m d = day_of_year y m' d') as D by (unfold number in E; lia). rewrite D, G in F. injection F as <- <-. reflexivity.
Qed.
Lemma parts_unique n p : valid p -> number p = n -> date_parts n = p.
Proof. intros V <-. apply number_inj; [apply parts_valid | exact V | apply parts_number]. Qed.
Lemma year_parts n y : before_year y <= n < before_year (y + 1) -> year_of (date_parts n) = y.
Proof.
  intros H. pose proof (parts_valid n) as V. pose proof (parts_number n) as N. destruct (date_parts n) as [[y' m] d]. pose proof (number_year y' m d V) as B. rewrite N in B.
  apply (year_unique y' y n B H).
Qed.

(** *** the next day *)
Lemma leap_spec y : is_leapyear y = true <-> leap_year y.
Proof.
  unfold is_leapyear, leap_year. rewrite andb_true_iff, orb_true_iff, negb_true_iff, !Z.eqb_eq, Z.eqb_neq.
  rewrite <- (Z.mod_divide y 4), <- (Z.mod_divide y 100), <- (Z.mod_divide y 400) by lia. split.
  - intros [A [B|B]]; split; auto. intros C. contradiction.
  - intros [A B]. split; [exact A|]. destruct (Z.eq_dec (y mod 100) 0) as [C|C]; [right; apply B; exact C | left; exact C].
Qed.
Lemma last_day_length y m : 1 <= m <= 12 -> last_day y m (month_length y m).
Proof.
  intros Hm. unfold last_day, month_length. destruct (is_leapyear y) eqn:E.
  - apply leap_spec in E. each_month Hm; cbn; intuition lia.
  - assert (~ leap_year y) as E' by (intros C; apply leap_spec in C; congruence). each_month Hm; cbn; intuition lia.
Qed.
Definition tomorrow (p : date) : date :=
  let '(y, m, d) := p in
  if d <? month_length y m then (y, m, d + 1) else if m <? 12 then (y, m + 1, 1) else (y + 1, 1, 1).
Lemma tomorrow_next p : valid p -> next_day p (tomorrow p).
Proof.
  destruct p as [[y m] d]. intros [Hm Hd]. unfold tomorrow. destruct (Z.ltb_spec d (month_length y m)) as [L|L].
  - apply (SameMonth y m d (month_length y m)); [apply last_day_length; exact Hm | lia].
  - assert (d = month_length y m) as -> by lia. destruct (Z.ltb_spec m 12).
    + apply NextMonth; [apply last_day_length; exact Hm | lia].
    + assert (m = 12) as -> by lia. replace (month_length y 12) with 31 by (unfold month_length; destruct (is_leapyear y); reflexivity). apply NextYear.
Qed.
Lemma tomorrow_number p : valid p -> valid (tomorrow p) /\ number (tomorrow p) = number p + 1.
Proof.
  destruct p as [[y m] d]. intros [Hm Hd]. unfold tomorrow. destruct (Z.ltb_spec d (month_length y m)) as [L|L].
  - split; [split; lia|]. unfold number, day_of_year. lia.
  - assert (d = month_length y m) as -> by lia. destruct (Z.ltb_spec m 12).
    + assert (1 <= m <= 11) as Hm' by lia. split.
      * split; [lia|]. unfold month_length. each_month Hm; try lia; destruct (is_leapyear y); table; lia.
      * unfold number, day_of_year, month_length. each_month Hm; try lia; destruct (is_leapyear y); table; lia.
    + assert (m = 12) as -> by lia. split; [split; [lia|]; unfold month_length; destruct (is_leapyear (y + 1)); table; lia|].
      unfold number. rewrite before_next. unfold leapn, day_of_year, month_length. destruct (is_leapyear y), (is_leapyear (y + 1)); table; lia.
Qed.
Lemma parts_next n : date_parts (n + 1) = tomorrow (date_parts n).
Proof. destruct (tomorrow_number _ (parts_valid n)) as [V N]. apply parts_unique; [exact V|]. rewrite N, parts_number. reflexivity. Qed.

(** *** the day of the week *)
Lemma wd_number p : valid p -> wd p = (number p + 3) mod 7.
Proof.
  destruct p as [[y m] d]. intros [Hm Hd]. unfold wd. cbn [fst snd]. unfold dayofweek. cbv zeta. rewrite Z.add_mod_idemp_l by lia.
  assert (forall x z k, x = z + k * 7 -> x mod 7 = z mod 7) as Hmod by (intros x z k ->; apply Z_mod_plus_full).
  unfold number, day_of_year. unfold before_year. pose proof (leaps_next y) as Hn. unfold leapn in Hn. assert (leaps (y + 1) = y / 4 - y / 100 + y / 400) as Hl by (unfold leaps; replace (y + 1 - 1) with y by ring; reflexivity).
  assert (leaps y = (y - 1) / 4 - (y - 1) / 100 + (y - 1) / 400) as Hl' by reflexivity. rewrite Hl in Hn. clear Hd Hl. 
  each_month Hm; repeat match goal with |- context [Z.ltb ?a 3] => let v := eval vm_compute in (Z.ltb a 3) in change (Z.ltb a 3) with v end; cbv iota; destruct (is_leapyear y); table;
  revert Hn Hl'; generalize (leaps y) ((y - 1) / 4) ((y - 1) / 100) ((y - 1) / 400) (y / 4) (y / 100) (y / 400); intros L a b c a' b' c' Hn Hl';
  first [ apply (Hmod _ _ (- 52 * y + 102790)); lia | apply (Hmod _ _ (- 52 * y + 102786)); lia | apply (Hmod _ _ (- 52 * y + 102782)); lia | apply (Hmod _ _ (- 52 * y + 102778)); lia | apply (Hmod _ _ (- 52 * y + 102773)); lia | apply (Hmod _ _ (- 52 * y + 102769)); lia | apply (Hmod _ _ (- 52 * y + 102765)); lia | apply (Hmod _ _ (- 52 * y + 102760)); lia | apply (Hmod _ _ (- 52 * y + 102756)); lia | apply (Hmod _ _ (- 52 * y + 102752)); lia | apply (Hmod _ _ (- 52 * y + 102747)); lia | apply (Hmod _ _ (- 52 * y + 102743)); lia ].
Qed.

(** *** the week of the year *)
Lemma december y m d : valid (y, m, d) -> (m = 12 /\ day_of_year y m d = 334 + leapn y + d) \/ (m < 12 /\ day_of_year y m d <= 334 + leapn y).
Proof.
  unfold valid, month_length, day_of_year, leapn. intros [Hm Hd]. each_month Hm; destruct (is_leapyear y); table; lia.
Qed.
Lemma wd_range n : 0 <= wd (date_parts n) <= 6 /\ wd (date_parts n) = (n + 3) mod 7.
Proof. rewrite (wd_number _ (parts_valid n)), parts_number. pose proof (Z.mod_pos_bound (n + 3) 7). lia. Qed.
(** the Thursday of the week, counted from January 1 *)
Definition thursday (n : Z) : Z := n + 3 - wd (date_parts n).
Lemma week_arith (d w doy lp : Z) (lprev december : bool) x : 0 <= w <= 6 -> 1 <= doy <= 365 + lp -> 0 <= lp <= 1 ->
  (if december then doy = 334 + lp + d else doy <= 334 + lp) -> x = doy - 1 - w + 3 ->
  (let v := if 0 <=? x then x / 7 + 1 else x in
   if v <? 0 then if (-2 <? v) || ((v =? -2) && lprev) then 53 else 52 else if v =? 53 then if 31 - d + w <? 3 then 1 else 53 else v) =
  if x <? 0 then (if (x =? -1) || ((x =? -2) && lprev) then 53 else 52) else if x <? 365 + lp then x / 7 + 1 else 1.
Proof.
  intros W D L De X. cbv zeta. destruct (Z.leb_spec 0 x) as [G|G].
  - pose proof (Z.div_mod x 7) as Hq. pose proof (Z.mod_pos_bound x 7) as Hr. revert Hq Hr. generalize (x / 7) (x mod 7). intros q r Hq Hr. assert (0 <= q) by lia.
    destruct (Z.ltb_spec (q + 1) 0); [lia|]. destruct (Z.ltb_spec x 0); [lia|]. destruct (Z.ltb_spec x (365 + lp)) as [K|K].
    + destruct (Z.eqb_spec (q + 1) 53) as [E|E]; [|reflexivity]. rewrite E. destruct (Z.ltb_spec (31 - d + w) 3); [|reflexivity]. exfalso. destruct december; lia.
    + destruct (Z.eqb_spec (q + 1) 53) as [E|E]; [|lia]. destruct (Z.ltb_spec (31 - d + w) 3); [reflexivity|]. exfalso. destruct december; lia.
  - destruct (Z.ltb_spec x 0); [|lia]. destruct (Z.ltb_spec (-2) x), (Z.eqb_spec x (-1)); cbn [orb]; try reflexivity; lia.
Qed.
Lemma wk_date p n : valid p -> number p = n -> 0 <= wd p <= 6 -> forall x, x = n + 3 - wd p - before_year (year_of p) ->
  -3 <= x <= 367 + leapn (year_of p) /\
  wk p = if x <? 0 then (if (x =? -1) || ((x =? -2) && is_leapyear (year_of p - 1)) then 53 else 52) else if x <? 365 + leapn (year_of p) then x / 7 + 1 else 1.
Proof.
  destruct p as [[y m] d]. unfold wd, wk, year_of, number. cbn [fst snd]. intros V N W x Ex. pose proof (doy_range y m d V) as D. pose proof (december y m d V) as De. pose proof (leapn_range y) as L.
  assert (x = day_of_year y m d - 1 - dayofweek y m d + 3) as Ex' by lia. split; [lia|]. unfold week_of_year. cbv zeta. rewrite <- Ex'.
  assert ((if m =? 12 then day_of_year y m d = 334 + leapn y + d else day_of_year y m d <= 334 + leapn y)) as De' by (destruct (Z.eqb_spec m 12); lia).
  exact (week_arith d _ _ _ (is_leapyear (y - 1)) _ x W D L De' Ex').
Qed.
Lemma wk_cases n : let y := year_of (date_parts n) in let x := thursday n - before_year y in
  -3 <= x <= 367 + leapn y /\
  wk (date_parts n) = if x <? 0 then (if (x =? -1) || ((x =? -2) && is_leapyear (y - 1)) then 53 else 52) else if x <? 365 + leapn y then x / 7 + 1 else 1.
Proof. exact (wk_date (date_parts n) n (parts_valid n) (parts_number n) (proj1 (wd_range n)) _ eq_refl). Qed.
Lemma wk_iso n : iso_week date_parts (fun n => wd (date_parts n)) n (wk (date_parts n)).
Proof.
  unfold iso_week. cbv zeta. fold (thursday n). destruct (wk_cases n) as [X E]. cbv zeta in X, E. set (y := year_of (date_parts n)) in *. set (k := wk (date_parts n)) in *. set (t := thursday n) in *.
  set (x := t - before_year y) in *. pose proof (leapn_range y). pose proof (leapn_range (y - 1)). pose proof (leapn_range (y + 1)). pose proof (before_next y) as Bn. pose proof (before_next (y - 1)) as Bp. replace (y - 1 + 1) with y in Bp by ring.
  pose proof (before_next (y + 1)) as Bn'. pose proof (before_next (y - 1 - 1)) as Bp'. replace (y - 1 - 1 + 1) with (y - 1) in Bp' by ring. pose proof (leapn_range (y - 1 - 1)).
  assert (t = before_year y + x) as Et by (unfold x; lia).
  destruct (Z.ltb_spec x 0) as [G|G].
  - rewrite (year_parts t (y - 1)) by (replace (y - 1 + 1) with y by ring; lia).
    assert ((k = 53 /\ 364 <= x + 365 + leapn (y - 1)) \/ (k = 52 /\ x + 365 + leapn (y - 1) < 364)) as Hk.
    { unfold leapn in *. destruct (Z.eqb_spec x (-1)), (Z.eqb_spec x (-2)), (is_leapyear (y - 1)); cbn [orb andb] in E; lia. }
    rewrite (year_parts (t - 7 * (k - 1)) (y - 1)) by (replace (y - 1 + 1) with y by ring; lia).
    rewrite (year_parts (t - 7 * k) (y - 1 - 1)) by (replace (y - 1 - 1 + 1) with (y - 1) by ring; lia). lia.
  - destruct (Z.ltb_spec x (365 + leapn y)) as [K|K].
    + rewrite (year_parts t y) by lia. rewrite (year_parts (t - 7 * (k - 1)) y) by (Z.div_mod_to_equations; lia).
      rewrite (year_parts (t - 7 * k) (y - 1)) by (replace (y - 1 + 1) with y by ring; Z.div_mod_to_equations; lia). lia.
    + subst k. rewrite E. rewrite (year_parts t (y + 1)) by lia. rewrite (year_parts (t - 7 * (1 - 1)) (y + 1)) by lia. rewrite (year_parts (t - 7 * 1) y) by lia. lia.
Qed.

(** *** there is one calendar *)
Lemma last_day_unique y m n n' : last_day y m n -> last_day y m n' -> n = n'.
Proof.
  unfold last_day. cbn [In]. intros [[A B]|[[A [B C]]|[[A [B C]]|[A B]]]] [[A' B']|[[A' [B' C']]|[[A' [B' C']]|[A' B']]]]; subst; try reflexivity; try contradiction; try lia.
Qed.
Lemma next_functional p q q' : next_day p q -> next_day p q' -> q = q'.
Proof.
  intros H H'. inversion H; inversion H'; subst; try (injection H5 as -> -> ->); try congruence;
  repeat match goal with E : (_, _, _) = (_, _, _) |- _ => injection E as ? ? ?; subst end; try reflexivity; try congruence; try lia;
  repeat match goal with A : last_day ?y ?m ?n, B : last_day ?y ?m ?n' |- _ => assert (n = n') by (eapply last_day_unique; eassumption); clear A; try subst end; try reflexivity; try lia.
  all: match goal with A : last_day _ 12 _ |- _ => unfold last_day in A; cbn [In] in A; lia | _ => lia end.
Qed.
