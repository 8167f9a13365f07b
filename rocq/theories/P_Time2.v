(** C20 and C21: what a duration stands for, which strings are durations, which durations count observations. *)
From Coq Require Import QArith DecimalString.
From Verif Require Import Base BaseFacts M_Table M_CFM M_Time S_Time L_Time P_Time.
Local Close Scope Q_scope.
Local Open Scope string_scope.
Local Open Scope list_scope.

(** how many of unit [u] a dictionary of units asks for, whatever spelling it uses *)
Fixpoint amount (u : string) (ts : list (string * Z)) : Z :=
  match ts with [] => 0 | (s, v) :: ts => (if String.eqb (fix_unit s) u then v else 0) + amount u ts end%Z.
(** the fixed time a dictionary asks for *)
Definition fixed_time (ts : list (string * Z)) : Z := fold_right (fun ul a => amount (fst ul) ts * snd ul + a)%Z 0%Z unit_lengths.

Definition single (u : string) (v : Z) : Z := fold_right (fun ul a => (if String.eqb u (fst ul) then v else 0) * snd ul + a)%Z 0%Z unit_lengths.
Lemma fixed_time_cons s v ts : fixed_time ((s, v) :: ts) = (single (fix_unit s) v + fixed_time ts)%Z.
Proof. unfold fixed_time, single. cbn [amount]. induction unit_lengths as [|ul l IH]; cbn [fold_right]; [reflexivity|]. rewrite IH. ring. Qed.
Lemma single_ns u v : single u v = (v * unit_ns u)%Z.
Proof.
  unfold single, unit_ns. cbn [unit_lengths fold_right fst snd].
  destruct (String.eqb_spec u "ms") as [->|]; [reflexivity || (cbn; ring)|]. destruct (String.eqb_spec u "s") as [->|]; [cbn; ring|]. destruct (String.eqb_spec u "m") as [->|]; [cbn; ring|].
  destruct (String.eqb_spec u "h") as [->|]; [cbn; ring|]. destruct (String.eqb_spec u "d") as [->|]; [cbn; ring|]. destruct (String.eqb_spec u "w") as [->|]; [cbn; ring|]. cbn. ring.
Qed.
Definition canon (ts : list (string * Z)) := map (fun uv => (fix_unit (fst uv), snd uv)) ts.
Lemma fix_units_canon ts : NoDup (map (fun uv => fix_unit (fst uv)) ts) -> fix_units ts = canon ts.
Proof.
  unfold fix_units. intros H. change (canon ts) with ([] ++ canon ts). assert (NoDup (map fst (@nil (string * Z)) ++ map (fun uv => fix_unit (fst uv)) ts)) as H' by exact H. revert H'. clear H. generalize (@nil (string * Z)) as d.
  induction ts as [|[s v] ts IH]; intros d H; cbn [fold_left canon map fst snd]; [rewrite app_nil_r; reflexivity|]. cbn [map fst] in H.
  rewrite dset_new; [|intros Hin; apply NoDup_remove_2 in H; apply H; apply in_app_iff; left; exact Hin]. rewrite IH; [|rewrite map_app; cbn [map fst]; rewrite <- app_assoc; exact H]. rewrite <- app_assoc. reflexivity.
Qed.
Lemma fixed_canon ts : fold_right (fun uv a => snd uv * unit_ns (fst uv) + a)%Z 0%Z (canon ts) = fixed_time ts.
Proof. induction ts as [|[s v] ts IH]; [reflexivity|]. rewrite fixed_time_cons, single_ns. cbn [canon map fold_right fst snd]. rewrite <- IH. reflexivity. Qed.
Lemma months_canon ts : fold_right (fun uv a => snd uv * rel_months (fst uv) + a)%Z 0%Z (canon ts) = (12 * amount "Y" ts + amount "mo" ts)%Z.
Proof.
  induction ts as [|[s v] ts IH]; [reflexivity|]. cbn [canon map fold_right fst snd amount]. unfold canon in IH. rewrite IH. unfold rel_months.
  destruct (String.eqb_spec (fix_unit s) "Y") as [E|N]; [rewrite E; change ("Y" =? "mo") with false; cbv iota; ring|]. destruct (String.eqb (fix_unit s) "mo"); ring.
Qed.
Lemma absolute_no_months ts u : forallb (fun uv => mem_str (fst uv) absolute_units) (canon ts) = true -> u = "Y" \/ u = "mo" -> amount u ts = 0%Z.
Proof.
  intros H Hu. induction ts as [|[s v] ts IH]; [reflexivity|]. cbn [canon map forallb fst snd] in H. apply andb_true_iff in H as [H1 H2]. cbn [amount]. rewrite (IH H2).
  destruct (String.eqb_spec (fix_unit s) u) as [E|]; [|reflexivity]. rewrite E in H1. destruct Hu as [-> | ->]; vm_compute in H1; discriminate.
Qed.

(** *** Adding a duration moves a time by its years and months on the calendar and then by its weeks, days, hours, minutes,
    seconds and milliseconds; a year is twelve months, and a unit not mentioned contributes nothing.  [shift k t] is the
    calendar: [t] moved by [k] months. *)
Theorem C20_meaning : forall shift ts td t, (forall x, shift 0%Z x = x) ->
  NoDup (map (fun uv => fix_unit (fst uv)) ts) -> make_td ts = Ok td -> ~ counts_observations td ->
  td_radd shift t td = Ok (shift (12 * amount "Y" ts + amount "mo" ts) t + fixed_time ts)%Z.
Proof.
  intros shift ts td t H0 Hd Htd Ho. destruct (make_td_times _ _ Htd) as [Ht Hu]. unfold td_radd. unfold counts_observations in Ho.
  destruct (mem_str "o" (map fst (times td))) eqn:Eo; [apply mem_str_In in Eo; contradiction|]. unfold get_unit_type in Hu. rewrite Eo in Hu.
  rewrite Ht in Hu. rewrite (fix_units_canon _ Hd) in Hu. destruct (is_absolute (canon ts) && negb (has_multiple_units (canon ts)))%bool eqn:Ea.
  - apply andb_true_iff in Ea as [Ea Em]. pose proof (absolute_no_months ts "Y" Ea (or_introl eq_refl)) as ->. pose proof (absolute_no_months ts "mo" Ea (or_intror eq_refl)) as ->.
    change (12 * 0 + 0)%Z with 0%Z. rewrite H0. destruct ts as [|[s v] [|? ?]]; [discriminate | | discriminate]. cbn [canon map fst snd] in Hu. injection Hu as <-. cbn [add_delta].
    rewrite fixed_time_cons, single_ns. change (fixed_time []) with 0%Z. rewrite Z.add_0_r. reflexivity.
  - unfold relative_of in Hu. destruct (mapM _ (canon ts)); [|discriminate]. cbn [bind] in Hu. destruct (existsb _ _); [discriminate|]. rewrite fixed_canon, months_canon in Hu. injection Hu as <-. reflexivity.
Qed.

(** *** A string is a duration only if it is digits, then spaces, then letters, and nothing else; it then means that many of
    that unit. *)
Definition all_chars (p : ascii -> bool) (s : string) : Prop := forall a, In a (list_ascii_of_string s) -> p a = true.
Lemma span_spec p s : forall x y, span p s = (x, y) -> s = (x ++ y)%string /\ all_chars p x.
Proof.
  induction s as [|a s IH]; intros x y; cbn [span]; [intros [= <- <-]; split; [reflexivity | intros ? []]|].
  destruct (p a) eqn:E; [|intros [= <- <-]; split; [reflexivity | intros ? []]]. destruct (span p s) as [x' y'] eqn:Es. intros [= <- <-]. destruct (IH _ _ eq_refl) as [-> H]. split; [reflexivity|].
  intros b [<-|Hb]; [exact E | exact (H b Hb)].
Qed.
Theorem C20_strings : forall s td, parse_timedelta s = Ok td ->
  exists n sp u, s = (NilEmpty.string_of_uint n ++ sp ++ u)%string /\ n <> Decimal.Nil /\ u <> "" /\
    all_chars (fun a => Ascii.eqb a " ") sp /\ all_chars is_alpha u /\ make_td [(u, Z.of_uint n)] = Ok td.
Proof.
  intros s td. unfold parse_timedelta. destruct (span is_digit s) as [ds s1] eqn:E1. destruct (span (fun a => Ascii.eqb a " ") s1) as [sp s2] eqn:E2. destruct (span is_alpha s2) as [us s3] eqn:E3.
  destruct (String.eqb_spec ds "") as [|Hds]; [discriminate|]. destruct (String.eqb_spec us "") as [|Hus]; [discriminate|]. destruct (String.eqb_spec s3 "") as [->|]; [|discriminate]. cbn [orb negb].
  apply span_spec in E1 as [-> _]. apply span_spec in E2 as [-> Hsp]. apply span_spec in E3 as [-> Hal]. unfold int_of_digits. destruct (NilEmpty.uint_of_string ds) as [n|] eqn:En; [|discriminate]. cbn [bind]. intros H.
  apply NilEmpty.sus in En. exists n, sp, us. rewrite En. split; [rewrite append_nil_r; reflexivity|]. split; [intros ->; apply Hds; symmetry; exact En|]. auto.
Qed.

(** *** The test the library uses to tell durations in observations from durations in time is exact. *)
Theorem C21_observations_recognised : forall ts td, make_td ts = Ok td -> (td_has_no_observations td = true <-> ~ counts_observations td).
Proof.
  intros ts td H. destruct (make_td_times _ _ H) as [_ Hu]. unfold td_has_no_observations, counts_observations. rewrite negb_true_iff. split.
  - intros He Hin. apply in_map_iff in Hin as ([u v] & E & Hin). cbn [fst] in E. subst u. assert (existsb (fun uv => ((fst uv =? "o") || (fst uv =? ""))%bool) (times td) = true) as Ht by (apply existsb_exists; exists ("o", v); split; [exact Hin | reflexivity]). congruence.
  - intros Hno. apply Bool.not_true_is_false. intros He. apply existsb_exists in He as ([u v] & Hin & E). cbn [fst] in E. apply orb_true_iff in E as [E|E]; apply String.eqb_eq in E; subst u; [apply Hno; apply in_map_iff; exists ("o", v); auto|].
    unfold get_unit_type in Hu. destruct (mem_str "o" (map fst (times td))) eqn:Eo; [apply mem_str_In in Eo; contradiction|]. destruct (is_absolute (times td) && negb (has_multiple_units (times td)))%bool eqn:Ea.
    + apply andb_true_iff in Ea as [Ea _]. unfold is_absolute in Ea. rewrite forallb_forall in Ea. specialize (Ea _ Hin). vm_compute in Ea. discriminate.
    + unfold relative_of in Hu. destruct (mapM _ (times td)) as [l|] eqn:Em; [|discriminate]. clear -Em Hin. revert l Em. induction (times td) as [|x r IH]; intros l Em; [destruct Hin|]. cbn [mapM] in Em.
      destruct Hin as [->|Hin]; [cbn in Em; discriminate|]. destruct (match dget _ _ _ with Some _ => _ | None => _ end); [|discriminate]. cbn [bind] in Em. destruct (mapM _ r) as [l'|]; [|discriminate]. exact (IH Hin _ eq_refl).
Qed.

(** Non-vacuity: a year, two months and three days in mixed spelling; a string with trailing text. *)
Example C20_meaning_nonvacuous :
  let ts := [("years", 1%Z); ("Month", 2%Z); ("day", 3%Z)] in
  NoDup (map (fun uv => fix_unit (fst uv)) ts) /\ make_td ts = Ok (mkTimedelta [("Y", 1%Z); ("mo", 2%Z); ("d", 3%Z)] (DRel 14 259200000000000)) /\
  (12 * amount "Y" ts + amount "mo" ts = 14)%Z /\ fixed_time ts = 259200000000000%Z /\
  td_radd (fun k t => (t + k * 30 * day_ns)%Z) 0%Z (mkTimedelta [("Y", 1%Z); ("mo", 2%Z); ("d", 3%Z)] (DRel 14 259200000000000)) = Ok (423 * day_ns)%Z /\
  parse_timedelta "3 days" = make_td [("d", 3%Z)] /\ parse_timedelta "3 days!" = Err AttributeError /\ parse_timedelta "days" = Err AttributeError /\
  (exists td, make_td [("observations", 4%Z)] = Ok td /\ counts_observations td /\ td_has_no_observations td = false).
Proof.
  split; [cbn [map fst]; repeat (constructor; [vm_compute; intuition discriminate|]); constructor|]. split; [vm_compute; reflexivity|]. split; [vm_compute; reflexivity|]. split; [vm_compute; reflexivity|].
  split; [vm_compute; reflexivity|]. split; [vm_compute; reflexivity|]. split; [vm_compute; reflexivity|]. split; [vm_compute; reflexivity|].
  eexists. split; [vm_compute; reflexivity|]. split; [left; reflexivity | reflexivity].
Qed.

Print Assumptions C20_meaning.
Print Assumptions C20_strings.
Print Assumptions C21_observations_recognised.
