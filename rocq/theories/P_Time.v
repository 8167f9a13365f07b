(** C11 rounding of cutoffs, C20 and C21 durations, C48 version checks, C49 temporal cutoffs. *)
From Coq Require Import QArith.
From Verif Require Import Base BaseFacts M_Table M_CFM L_CFM M_Time S_Time L_Time.
Local Close Scope Q_scope.
Local Open Scope string_scope.
Local Open Scope list_scope.

(** ** C20 *)

(** A duration built from units survives saving its arguments and rebuilding it from them. *)
Theorem C20_round_trip : forall ts td, make_td ts = Ok td -> from_dictionary (get_arguments td) = Ok td.
Proof. exact td_round_trip. Qed.

(** Normalising unit names twice is the same as once, for every string and every dictionary. *)
Theorem C20_normalise_idempotent : forall s ts, fix_unit (fix_unit s) = fix_unit s /\ fix_units (fix_units ts) = fix_units ts.
Proof. intros s ts. split; [apply fix_unit_idem | apply fix_units_id; apply fix_units_fixed]. Qed.

(** Every spelling of a unit - short, plural, singular, lower case - means the same unit, in a dictionary
    and in a string. *)
Theorem C20_spellings : forall u r s v, In (u, r) readable_units -> In s (spellings u r) ->
  fix_unit s = u /\ make_td [(s, v)] = make_td [(u, v)] /\
  ((0 <= v)%Z -> parse_timedelta (string_of_Z v ++ " " ++ s)%string = make_td [(u, v)]).
Proof.
  intros u r s v Hu Hs.
  assert (fix_unit s = u /\ fix_unit u = u) as [E E2].
  { clear v. cbn in Hu. repeat (destruct Hu as [E|Hu]; [injection E as <- <-; cbn in Hs; repeat (destruct Hs as [<-|Hs]; [split; reflexivity|]); destruct Hs |]). destruct Hu. }
  assert (make_td [(s, v)] = make_td [(u, v)]) as E3.
  { unfold make_td, fix_units. cbn [fold_left fst snd]. rewrite E, E2. reflexivity. }
  split; [exact E|]. split; [exact E3|]. intros Hv. rewrite (parse_spelling v s u r Hv Hu Hs). exact E3.
Qed.

(** The name of a duration with one unit parses back to the duration. *)
Theorem C20_name_parses : forall u v td s, (0 <= v)%Z -> make_td [(u, v)] = Ok td -> get_name td = Ok s -> parse_timedelta s = Ok td.
Proof.
  intros u v td s Hv Htd Hs. destruct (make_td_times _ _ Htd) as [Ht Hu]. unfold fix_units in Ht. cbn [fold_left fst snd dset] in Ht.
  unfold get_name in Hs. rewrite Ht in Hs. cbn [has_multiple_units List.length Nat.ltb Nat.leb] in Hs. unfold has_multiple_units in Hs. cbn [List.length Nat.ltb Nat.leb] in Hs.
  destruct (dget String.eqb (fix_unit u) readable_units) as [r|] eqn:Er; [|discriminate]. cbn [bind] in Hs. injection Hs as <-.
  apply (dget_In _ String.eqb_spec) in Er. destruct (C20_spellings (fix_unit u) r r v Er) as (_ & _ & H); [right; left; reflexivity|].
  specialize (H Hv). cbn [append] in H. rewrite H. rewrite <- Htd. unfold make_td, fix_units. cbn [fold_left fst snd dset]. rewrite fix_unit_idem. reflexivity.
Qed.

(** Non-vacuity: "2 Weeks" is 1209600 seconds; mixed units make a calendar duration. *)
Example C20_nonvacuous :
  parse_timedelta "2 weeks" = Ok (mkTimedelta [("w", 2%Z)] (DAbs 1209600000000000)) /\
  get_name (mkTimedelta [("w", 2%Z)] (DAbs 1209600000000000)) = Ok "2 Weeks" /\
  make_td [("Years", 1%Z); ("day", 3%Z)] = Ok (mkTimedelta [("Y", 1%Z); ("d", 3%Z)] (DRel 12 (3 * 86400000000000))) /\
  from_dictionary (ArgMany ["Y"; "d"] [1%Z; 3%Z]) = make_td [("Years", 1%Z); ("day", 3%Z)].
Proof. repeat split; vm_compute; reflexivity. Qed.

(** "Any form of capitalization" is refuted: capitals in the short unit or at the end of a plural are rejected. *)
Theorem C20_capitals_refuted :
  ~ (forall v u u', (0 < v)%Z -> lower u = lower u' -> parse_timedelta (string_of_Z v ++ " " ++ u)%string = parse_timedelta (string_of_Z v ++ " " ++ u')%string) /\
  parse_timedelta "5 DAYS" = Err KeyError /\ parse_timedelta "5 H" = Err KeyError.
Proof. split; [|split; vm_compute; reflexivity]. intros H. specialize (H 5%Z "DAYS" "days" eq_refl eq_refl). vm_compute in H. discriminate H. Qed.

(** Two spellings of one unit in a dictionary: a value is lost without an error. *)
Theorem C20_repeated_unit_refuted :
  make_td [("day", 1%Z); ("days", 2%Z)] = make_td [("d", 2%Z)] /\ exists td, make_td [("day", 1%Z); ("days", 2%Z)] = Ok td.
Proof. split; [|eexists]; vm_compute; reflexivity. Qed.

(** A duration wrapping a pandas offset does not survive its own arguments. *)
Theorem C20_special_offset_refuted :
  exists td, built td /\ ~ counts_observations td /\ from_dictionary (get_arguments td) <> Ok td.
Proof.
  exists (make_td_with [("BusinessDay", 3%Z)] (DRel 0 259200000000000)). repeat split.
  - right. exists [("BusinessDay", 3%Z)], (DRel 0 259200000000000). repeat split; [discriminate|]. vm_compute. intros [H|[]]; discriminate.
  - vm_compute. intros [H|[]]; discriminate.
  - vm_compute. discriminate.
Qed.

(** One millisecond is called one minute when several units are named. *)
Theorem C20_name_of_millisecond_refuted :
  get_name (make_td_with [("milliseconds", 1%Z); ("seconds", 2%Z)] (DAbs 2001000000)) = Ok "1 Minutes 2 Seconds" /\
  make_td [("milliseconds", 1%Z); ("seconds", 2%Z)] = Err TypeError.
Proof. split; vm_compute; reflexivity. Qed.

(** ** C21 *)

Theorem C21_negation_involutive : forall td, built td -> exists n, td_neg td = Ok n /\ td_neg n = Ok td.
Proof. intros td H. destruct (td_neg_neg td (built_wf _ H)) as (n & H1 & _ & H2). eauto. Qed.

(** subtracting is adding the negation, for every calendar *)
Theorem C21_subtract_is_add_negation : forall shift t td n, built td -> td_neg td = Ok n ->
  td_rsub shift t td = td_radd shift t n.
Proof. intros shift t td n H Hn. apply td_sub_add_neg; [apply built_wf; exact H | exact Hn]. Qed.

Lemma unit_length_spec u len : In (u, len) unit_lengths -> In u absolute_units /\ unit_ns u = len.
Proof. cbn. intros H. repeat (destruct H as [E|H]; [injection E as <- <-; split; [tauto | reflexivity]|]). destruct H. Qed.
(** a fixed duration can be subtracted and added back *)
Theorem C21_absolute_inverse : forall shift t u v td len, In (fix_unit u, len) unit_lengths -> make_td [(u, v)] = Ok td ->
  exists t', td_rsub shift t td = Ok t' /\ t' = (t - v * len)%Z /\ td_radd shift t' td = Ok t.
Proof.
  intros shift t u v td len Hl. destruct (unit_length_spec _ _ Hl) as [Hu <-]. clear Hl. revert shift t u v td Hu.
  intros shift t u v td Hu H. unfold make_td, fix_units, get_unit_type in H. cbn [fold_left fst snd dset map mem_str existsb] in H.
  assert (("o" =? fix_unit u)%string = false) as E.
  { cbn in Hu. repeat (destruct Hu as [<-|Hu]; [reflexivity|]). destruct Hu. }
  unfold is_absolute, has_multiple_units in H. cbn [forallb fst List.length Nat.ltb Nat.leb negb] in H. rewrite E in H. cbn [orb] in H.
  rewrite (proj2 (mem_str_In _ _) Hu) in H. cbn [andb bind] in H. injection H as <-. unfold td_rsub, td_radd. cbn [times delta_obj map fst].
  unfold mem_str. cbn [existsb]. rewrite E. cbn [orb sub_delta add_delta]. eexists. split; [reflexivity|]. split; [reflexivity|]. f_equal. lia.
Qed.

(** arithmetic with a time is refused exactly for durations that count observations *)
Theorem C21_observations_refused : forall shift t td, built td ->
  (counts_observations td -> td_radd shift t td = Err RuntimeError /\ td_rsub shift t td = Err RuntimeError) /\
  (~ counts_observations td -> exists a b, td_radd shift t td = Ok a /\ td_rsub shift t td = Ok b).
Proof.
  intros shift t td H. destruct (built_wf _ H) as [Hf Ho]. unfold counts_observations, td_radd, td_rsub. split; intros Hc.
  - rewrite (proj2 (mem_str_In _ _) Hc). auto.
  - rewrite (proj2 (mem_str_nIn _ _) Hc). destruct (delta_obj td); [tauto | |]; cbn [add_delta sub_delta]; eauto.
Qed.

Example C21_nonvacuous :
  (exists td, make_td [("Hours", 3%Z)] = Ok td /\ built td /\ ~ counts_observations td) /\
  (exists td, make_td [("observations", 3%Z)] = Ok td /\ built td /\ counts_observations td) /\
  (exists td, make_td [("months", 1%Z); ("w", 2%Z)] = Ok td /\ built td /\ ~ counts_observations td).
Proof.
  assert (forall ts td, make_td ts = Ok td -> built td) as HB by (intros ts td H; left; eauto).
  split; [|split].
  - exists (mkTimedelta [("h", 3%Z)] (DAbs 10800000000000)). assert (make_td [("Hours", 3%Z)] = Ok (mkTimedelta [("h", 3%Z)] (DAbs 10800000000000))) as E by (vm_compute; reflexivity).
    split; [exact E|]. split; [exact (HB _ _ E)|]. intros [H|[]]; discriminate.
  - exists (mkTimedelta [("o", 3%Z)] DNone). assert (make_td [("observations", 3%Z)] = Ok (mkTimedelta [("o", 3%Z)] DNone)) as E by (vm_compute; reflexivity).
    split; [exact E|]. split; [exact (HB _ _ E)|]. left; reflexivity.
  - exists (mkTimedelta [("mo", 1%Z); ("w", 2%Z)] (DRel 1 1209600000000000)).
    assert (make_td [("months", 1%Z); ("w", 2%Z)] = Ok (mkTimedelta [("mo", 1%Z); ("w", 2%Z)] (DRel 1 1209600000000000))) as E by (vm_compute; reflexivity).
    split; [exact E|]. split; [exact (HB _ _ E)|]. intros [H|[H|[]]]; discriminate.
Qed.

(** With calendar months subtracting and adding back need not return: a month before March 31 is
    February 28 (days clamped). [shift] here is the calendar of one year with days only. *)
Theorem C21_calendar_not_inverse : exists shift t td t', built td /\ td_rsub shift t td = Ok t' /\ td_radd shift t' td <> Ok t.
Proof.
  exists (fun m t => if (m =? -1)%Z then if (t =? 90)%Z then 59%Z else t else if (t =? 59)%Z then 87%Z else t), 90%Z.
  eexists (mkTimedelta [("mo", 1%Z)] (DRel 1 0)), 59%Z. split; [left; exists [("months", 1%Z)]; vm_compute; reflexivity|]. split; vm_compute; [reflexivity|discriminate].
Qed.

(** ** C11 *)

(** With a window of one fixed unit, each cutoff keeps its instance and pass columns, remembers its original time and
    is moved to the greatest multiple of the window not after it. *)
Theorem C11_rounds_down : forall u v td cs len, make_td [(u, v)] = Ok td -> In (fix_unit u, len) unit_lengths -> (0 < v)%Z ->
  exists bs, bin_cutoffs td cs = Ok bs /\
    Forall2 (fun c b => c_id b = c_id c /\ c_pass b = c_pass c /\ c_orig b = c_time c /\
      match c_time c, c_time b with
      | Some t, Some t' => greatest_multiple (v * len) t t' /\ (t - v * len < t' <= t)%Z
      | None, None => True
      | _, _ => False
      end) cs bs.
Proof.
  intros u v td cs len H Hl Hv. destruct (unit_length_spec _ _ Hl) as [Hu <-]. destruct (make_td_times _ _ H) as [Ht _]. unfold fix_units in Ht. cbn [fold_left fst snd dset] in Ht.
  assert (0 < v * unit_ns (fix_unit u))%Z as Hw by (pose proof (unit_ns_pos _ Hu); nia).
  unfold bin_cutoffs, datetime_round. rewrite Ht. unfold is_absolute. cbn [forallb fst]. rewrite (proj2 (mem_str_In _ _) Hu). cbn [andb negb].
  destruct (Z.ltb_spec 0 v); [|lia]. cbn [bind]. eexists. split; [reflexivity|].
  induction cs as [|c cs IH]; cbn [map]; constructor; [|exact IH]. cbn [c_id c_pass c_orig c_time]. repeat split.
  destruct (c_time c) as [t|]; cbn [option_map]; [|exact I]. split; [apply floor_greatest; exact Hw | apply floor_near; exact Hw].
Qed.

(** Rounding again changes nothing; times in one bin get one time; order is kept. *)
Theorem C11_rounding_laws : forall w t t', (0 < w)%Z ->
  floor_to w (floor_to w t) = floor_to w t /\
  (floor_to w t = floor_to w t' <-> exists k, k * w <= t < (k + 1) * w /\ k * w <= t' < (k + 1) * w)%Z /\
  (t <= t' -> floor_to w t <= floor_to w t')%Z.
Proof.
  intros w t t' Hw. split; [apply floor_idem; exact Hw|]. unfold floor_to. split.
  - pose proof (Z.div_mod t w). pose proof (Z.mod_pos_bound t w Hw). pose proof (Z.div_mod t' w). pose proof (Z.mod_pos_bound t' w Hw). split.
    + intros E. assert (t / w = t' / w)%Z as E2 by nia. exists (t / w)%Z. nia.
    + intros (k & Hk & Hk'). assert (t / w = k)%Z as -> by (symmetry; apply Z.div_unique_pos with (t - k * w)%Z; nia).
      assert (t' / w = k)%Z as -> by (symmetry; apply Z.div_unique_pos with (t' - k * w)%Z; nia). reflexivity.
  - intros H. pose proof (Z.div_le_mono t t' w Hw H). nia.
Qed.

Example C11_nonvacuous :
  exists td, make_td [("days", 1%Z)] = Ok td /\ In (fix_unit "days") absolute_units /\
  bin_cutoffs td [mkCutoff (VNum 1) (Some 86400000000001%Z) None []; mkCutoff (VNum 2) None None []] =
    Ok [mkCutoff (VNum 1) (Some 86400000000000%Z) (Some 86400000000001%Z) []; mkCutoff (VNum 2) None None []].
Proof. eexists. split; [vm_compute; reflexivity|]. split; [cbn; auto 8 | vm_compute; reflexivity]. Qed.

(** An integer window does not round at all: [x / b * b] is [x]. *)
Theorem C11_integer_window_refuted :
  (forall b x, b <> 0%Z -> exists q, bin_int b x = Ok q /\ Qeq q (inject_Z x)) /\
  ~ (forall b x, (0 < b)%Z -> exists q, bin_int b x = Ok q /\ Qeq q (inject_Z (floor_to b x))).
Proof.
  assert (forall b x, b <> 0%Z -> exists q, bin_int b x = Ok q /\ Qeq q (inject_Z x)) as H.
  { intros b x Hb. unfold bin_int. destruct (Z.eqb_spec b 0); [contradiction|]. eexists. split; [reflexivity|].
    rewrite Qmult_comm. apply Qmult_div_r. unfold Qeq, inject_Z. cbn. lia. }
  split; [exact H|]. intros Hc. destruct (H 10%Z 7%Z) as (q & E & Eq); [lia|]. destruct (Hc 10%Z 7%Z) as (q' & E' & Eq'); [lia|].
  rewrite E in E'. injection E' as <-. rewrite Eq in Eq'. vm_compute in Eq'. discriminate Eq'.
Qed.

(** A window of several fixed units loses every cutoff time. *)
Theorem C11_several_units_refuted : exists td cs bs,
  is_absolute (times td) = true /\ make_td [("days", 1%Z); ("hours", 2%Z)] = Ok td /\ bin_cutoffs td cs = Ok bs /\
  map c_time cs = [Some 5%Z; Some 7%Z] /\ map c_time bs = [None; None].
Proof.
  eexists _, [mkCutoff (VNum 1) (Some 5%Z) None []; mkCutoff (VNum 2) (Some 7%Z) None []], _. split; [|split; [vm_compute; reflexivity|]]; [reflexivity|]. repeat split; vm_compute; reflexivity.
Qed.

(** ** C48 *)

(** The running version never warns about itself. *)
Theorem C48_own_version_silent : forall v, check_schema_version v v = Ok (false, false).
Proof. intros v. unfold check_schema_version. rewrite newer_refl, compare_refl. reflexivity. Qed.

(** For versions with the same number of one-digit components: the upgrade warning says exactly that
    the saved version is newer, the other exactly that the saved major version is older. *)
Theorem C48_digits_partial : forall current saved, current <> [] -> List.length current = List.length saved ->
  Forall (fun n => n <= 9) current -> Forall (fun n => n <= 9) saved ->
  check_schema_version (dotted current) (dotted saved) =
    Ok (version_older current saved, Nat.ltb (hd 0 saved) (hd 0 current)).
Proof.
  intros a b Ha Hl H1 H2. assert (b <> []) as Hb by (destruct a, b; cbn in Hl; congruence).
  unfold check_schema_version. rewrite (dotted_split _ Ha), (dotted_split _ Hb), newer_digits by assumption. cbn [bind]. do 2 f_equal.
  destruct a as [|x a], b as [|y b]; try congruence. cbn [map hd]. inversion H1; inversion H2; subst. rewrite digit_compare by assumption.
  destruct (Nat.compare_spec x y); symmetry; [apply Nat.ltb_ge | apply Nat.ltb_ge | apply Nat.ltb_lt]; lia.
Qed.

Example C48_nonvacuous :
  dotted [6; 0; 0] = "6.0.0" /\ check_schema_version "6.0.0" "6.1.0" = Ok (true, false) /\ check_schema_version "6.0.0" "5.9.0" = Ok (false, true).
Proof. repeat split; vm_compute; reflexivity. Qed.

(** Version 10 is taken to be older than the library's version 6, with the wrong warning; a version with another
    number of components is a TypeError. *)
Theorem C48_two_digits_refuted :
  version_older [6; 0; 0] [10; 0; 0] = true /\ check_schema_version (dotted [6; 0; 0]) (dotted [10; 0; 0]) = Ok (false, true) /\
  check_schema_version (dotted [6; 0; 0]) (dotted [6; 0]) = Err TypeError.
Proof. repeat split; vm_compute; reflexivity. Qed.

(** ** C49 *)

(** A window size and a number of windows: each instance gets that many cutoffs, the window apart, the last
    one being its cutoff; in the order of the instances. *)
Theorem C49_size_and_number : forall ids cuts w n out, make_temporal_cutoffs ids cuts (Some w) (Some n) None = Ok out ->
  exists parts, out = List.concat parts /\ List.length parts = List.length (combine ids cuts) /\
    forall i id t part, nth_error (combine ids cuts) i = Some (id, t) -> nth_error parts i = Some part ->
      map fst part = repeat id (Z.to_nat n) /\ spaced w (map snd part) /\
      ((0 < n)%Z -> nth_error (map snd part) (Z.to_nat n - 1) = Some t).
Proof.
  intros ids cuts w n out H. destruct (temporal_blocks _ _ _ _ _ _ H) as (parts & E & Hl & Hp). exists parts. split; [exact E|]. split; [exact Hl|].
  intros i id t part Hi Hpart. specialize (Hp i id t part Hi Hpart). unfold temporal_block in Hp. cbn [bind fst snd] in Hp.
  apply bind_Ok in Hp as (ts & Hts & Hp). injection Hp as <-. unfold date_range in Hts. destruct (w <=? 0)%Z; [discriminate|].
  destruct (n <? 0)%Z; [discriminate|]. injection Hts as <-. rewrite !map_map. cbn [fst snd]. rewrite map_id. split; [|split].
  - unfold range_back. rewrite map_map. clear. generalize (Z.to_nat n) as k, 0 as s. intros k. induction k as [|k IH]; intros s; cbn; [reflexivity|]. rewrite IH. reflexivity.
  - apply range_back_spaced.
  - intros Hn. rewrite range_back_nth by lia. f_equal. replace (Z.to_nat n - 1 - (Z.to_nat n - 1)) with 0 by lia. lia.
Qed.

(** A start and a number of windows (two or more): evenly spaced cutoffs ending at the cutoff, the first
    one at the start up to the rounding of the window to a nanosecond. *)
Theorem C49_start_and_number : forall ids cuts starts n out, (2 <= n)%Z ->
  make_temporal_cutoffs ids cuts None (Some n) (Some starts) = Ok out ->
  exists parts, out = List.concat parts /\ List.length parts = List.length (combine ids cuts) /\
    forall i id t part, nth_error (combine ids cuts) i = Some (id, t) -> nth_error parts i = Some part ->
      exists s w first, nth_error starts i = Some s /\
      map fst part = repeat id (Z.to_nat n) /\ spaced w (map snd part) /\
      nth_error (map snd part) (Z.to_nat n - 1) = Some t /\
      nth_error (map snd part) 0 = Some first /\ (s <= first < s + (n - 1))%Z.
Proof.
  intros ids cuts starts n out Hn H. destruct (temporal_blocks _ _ _ _ _ _ H) as (parts & E & Hl & Hp). exists parts. split; [exact E|]. split; [exact Hl|].
  intros i id t part Hi Hpart. specialize (Hp i id t part Hi Hpart). unfold temporal_block in Hp.
  destruct (nth_error starts i) as [s|] eqn:Es; [|discriminate Hp]. unfold window_between in Hp. destruct (Z.eqb_spec (n - 1) 0); [lia|]. cbn [bind fst snd] in Hp.
  apply bind_Ok in Hp as (ts & Hts & Hp). injection Hp as <-. unfold date_range in Hts. set (w := Z.quot (t - s) (n - 1)) in *.
  destruct (Z.leb_spec w 0); [discriminate|]. destruct (Z.ltb_spec n 0); [lia|]. injection Hts as <-.
  assert (s <= t)%Z as Hst. { destruct (Z.le_gt_cases s t); [assumption|]. exfalso. assert (w <= 0)%Z; [|lia]. unfold w. rewrite <- (Z.opp_involutive (t - s)), Z.quot_opp_l by lia.
    pose proof (Z.quot_pos (- (t - s)) (n - 1)). lia. }
  assert (w * (n - 1) <= t - s < w * (n - 1) + (n - 1))%Z as Hw.
  { unfold w. rewrite Z.quot_div_nonneg by lia. pose proof (Z.div_mod (t - s) (n - 1)). pose proof (Z.mod_pos_bound (t - s) (n - 1)). nia. }
  exists s, w. eexists. rewrite !map_map. cbn [fst snd]. rewrite map_id. split; [reflexivity|]. split; [|split; [|split; [|split]]].
  - unfold range_back. rewrite map_map. clear. generalize (Z.to_nat n) as k, 0 as s. intros k. induction k as [|k IH]; intros s; cbn; [reflexivity|]. rewrite IH. reflexivity.
  - apply range_back_spaced.
  - rewrite range_back_nth by lia. f_equal. replace (Z.to_nat n - 1 - (Z.to_nat n - 1)) with 0 by lia. lia.
  - rewrite range_back_nth by lia. reflexivity.
  - replace (Z.of_nat (Z.to_nat n - 1 - 0)) with (n - 1)%Z by lia. lia.
Qed.

(** A window size and a start: from the start, the window apart, up to the last one not after the cutoff. *)
Theorem C49_size_and_start : forall ids cuts starts w out,
  make_temporal_cutoffs ids cuts (Some w) None (Some starts) = Ok out ->
  exists parts, out = List.concat parts /\ List.length parts = List.length (combine ids cuts) /\
    forall i id t part, nth_error (combine ids cuts) i = Some (id, t) -> nth_error parts i = Some part ->
      exists s, nth_error starts i = Some s /\ (forall x, In x (map fst part) -> x = id) /\
      ((t < s)%Z -> part = []) /\
      ((s <= t)%Z -> nth_error (map snd part) 0 = Some s /\ spaced w (map snd part) /\
         exists last, nth_error (map snd part) (List.length part - 1) = Some last /\ (last <= t < last + w)%Z).
Proof.
  intros ids cuts starts w out H. destruct (temporal_blocks _ _ _ _ _ _ H) as (parts & E & Hl & Hp). exists parts. split; [exact E|]. split; [exact Hl|].
  intros i id t part Hi Hpart. specialize (Hp i id t part Hi Hpart). unfold temporal_block in Hp.
  destruct (nth_error starts i) as [s|] eqn:Es; [|discriminate Hp]. cbn [bind fst snd] in Hp.
  apply bind_Ok in Hp as (ts & Hts & Hp). injection Hp as <-. unfold date_range in Hts.
  destruct (Z.leb_spec w 0); [discriminate|]. injection Hts as <-. exists s. split; [reflexivity|]. split; [|split].
  - intros x Hx. rewrite map_map in Hx. apply in_map_iff in Hx as (y & <- & _). reflexivity.
  - intros Hlt. unfold range_up. destruct (Z.ltb_spec t s); [reflexivity|lia].
  - intros Hle. rewrite map_map. cbn [snd]. rewrite map_id, map_length, range_up_length by exact Hle.
    pose proof (Z.div_mod (t - s) w ltac:(lia)). pose proof (Z.mod_pos_bound (t - s) w ltac:(lia)). assert (0 <= (t - s) / w)%Z by (apply Z.div_pos; lia).
    split; [|split].
    + rewrite range_up_nth by (assumption || lia). f_equal. lia.
    + intros k a b Ha Hb. pose proof (nth_error_lt _ _ _ Hb) as Hk. rewrite range_up_length in Hk by exact Hle.
      rewrite range_up_nth in Ha by (assumption || lia). rewrite range_up_nth in Hb by (assumption || lia). rewrite Nat2Z.inj_succ in Hb. injection Ha as <-. injection Hb as <-. ring.
    + exists (s + (t - s) / w * w)%Z. rewrite range_up_nth by (assumption || lia). split; [f_equal; f_equal; f_equal; lia | lia].
Qed.

Example C49_nonvacuous :
  make_temporal_cutoffs [VNum 1; VNum 2] [100%Z; 50%Z] (Some 10%Z) (Some 3%Z) None =
    Ok [(VNum 1, 80%Z); (VNum 1, 90%Z); (VNum 1, 100%Z); (VNum 2, 30%Z); (VNum 2, 40%Z); (VNum 2, 50%Z)] /\
  make_temporal_cutoffs [VNum 1] [100%Z] None (Some 3%Z) (Some [0%Z]) = Ok [(VNum 1, 0%Z); (VNum 1, 50%Z); (VNum 1, 100%Z)] /\
  make_temporal_cutoffs [VNum 1] [100%Z] (Some 50%Z) None (Some [0%Z]) = Ok [(VNum 1, 0%Z); (VNum 1, 50%Z); (VNum 1, 100%Z)].
Proof. repeat split; vm_compute; reflexivity. Qed.

(** One window from a start divides by zero; a window size and a start need not end at the cutoff. *)
Theorem C49_one_window_refuted : forall id t s, make_temporal_cutoffs [id] [t] None (Some 1%Z) (Some [s]) = Err ZeroDivisionError.
Proof. reflexivity. Qed.
Theorem C49_last_is_cutoff_refuted :
  make_temporal_cutoffs [VNum 1] [100%Z] (Some 30%Z) None (Some [0%Z]) = Ok [(VNum 1, 0%Z); (VNum 1, 30%Z); (VNum 1, 60%Z); (VNum 1, 90%Z)].
Proof. vm_compute; reflexivity. Qed.

Print Assumptions C20_round_trip.
Print Assumptions C20_spellings.
Print Assumptions C20_name_parses.
Print Assumptions C21_subtract_is_add_negation.
Print Assumptions C11_rounds_down.
Print Assumptions C11_integer_window_refuted.
Print Assumptions C48_digits_partial.
Print Assumptions C49_size_and_number.
Print Assumptions C49_start_and_number.
Print Assumptions C49_size_and_start.
