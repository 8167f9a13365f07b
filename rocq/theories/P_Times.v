(** C56, C57, C58: averages of gaps, most common values, linear trend. *)
From Coq Require Import QArith Qcanon Field.
From Verif Require Import Base BaseFacts M_Prims M_Prims2 P_Partition.
Local Open Scope Qc_scope.

(** ** C56: the average time between events *)
(** the differences between consecutive elements *)
Fixpoint gaps (l : list Z) : list Z :=
  match l with
  | a :: ((b :: _) as l') => (b - a)%Z :: gaps l'
  | _ => []
  end.
(** the mean of a list of integers *)
Definition mean_of (l : list Z) : Qc := qsum (map qz l) / qlen l.

Lemma qz_add a b : qz (a + b) = qz a + qz b.
Proof. apply Qc_is_canon. change (Qred (a + b # 1) == Qred (Qred (a # 1) + Qred (b # 1)))%Q. rewrite !Qred_correct. unfold Qeq, Qplus. cbn [Qnum Qden]. lia. Qed.
Lemma qz_0 : qz 0 = 0.
Proof. apply Qc_is_canon. reflexivity. Qed.
Lemma qz_sub a b : qz (a - b) = qz a - qz b.
Proof. replace (qz a) with (qz ((a - b) + b)) by (f_equal; lia). rewrite qz_add. ring. Qed.
Lemma gaps_sum a l : qsum (map qz (gaps (a :: l))) = qz (last (a :: l) 0%Z - a).
Proof.
  revert a. induction l as [|b l IH]; intros a.
  - cbn [gaps map last]. rewrite Z.sub_diag, qz_0. reflexivity.
  - change (gaps (a :: b :: l)) with ((b - a)%Z :: gaps (b :: l)). cbn [map]. rewrite qsum_cons, IH, <- qz_add. f_equal. change (last (a :: b :: l) 0%Z) with (last (b :: l) 0%Z). lia.
Qed.
Lemma gaps_length a l : List.length (gaps (a :: l)) = List.length l.
Proof. revert a. induction l as [|b l IH]; intros a; [reflexivity|]. change (gaps (a :: b :: l)) with ((b - a)%Z :: gaps (b :: l)). cbn [List.length]. f_equal. apply IH. Qed.
Lemma fold_max l a : In (fold_left Z.max l a) (a :: l) /\ forall x, In x (a :: l) -> (x <= fold_left Z.max l a)%Z.
Proof.
  revert a. induction l as [|b l IH]; intros a; cbn [fold_left].
  - split; [left; reflexivity | intros x [->|[]]; lia].
  - destruct (IH (Z.max a b)) as [H1 H2]. split.
    + destruct H1 as [E|H]; [|right; right; exact H]. rewrite <- E. destruct (Z.max_spec a b) as [[_ ->]|[_ ->]]; [right; left | left]; reflexivity.
    + pose proof (H2 _ (or_introl eq_refl)). intros x [->|[->|Hx]]; [lia | lia | apply H2; right; exact Hx].
Qed.
Lemma fold_min l a : In (fold_left Z.min l a) (a :: l) /\ forall x, In x (a :: l) -> (fold_left Z.min l a <= x)%Z.
Proof.
  revert a. induction l as [|b l IH]; intros a; cbn [fold_left].
  - split; [left; reflexivity | intros x [->|[]]; lia].
  - destruct (IH (Z.min a b)) as [H1 H2]. split.
    + destruct H1 as [E|H]; [|right; right; exact H]. rewrite <- E. destruct (Z.min_spec a b) as [[_ ->]|[_ ->]]; [left | right; left]; reflexivity.
    + pose proof (H2 _ (or_introl eq_refl)). intros x [->|[->|Hx]]; [lia | lia | apply H2; right; exact Hx].
Qed.
Lemma last_In {A} (d : A) l : l <> [] -> In (last l d) l.
Proof. induction l as [|a [|b l] IH]; intros H; [destruct (H eq_refl) | left; reflexivity | right; apply IH; discriminate]. Qed.
Lemma last_greatest l : StronglySorted Z.le l -> forall x, In x l -> (x <= last l 0)%Z.
Proof.
  induction l as [|a l IH]; intros H x Hx; [destruct Hx|]. inversion H as [|a' l' Hs Hf]; subst. destruct l as [|b l].
  - destruct Hx as [->|[]]. cbn. lia.
  - change (last (a :: b :: l) 0%Z) with (last (b :: l) 0%Z). destruct Hx as [->|Hx]; [|apply IH; [exact Hs | exact Hx]].
    rewrite Forall_forall in Hf. apply Hf. apply last_In. discriminate.
Qed.

(** two or more known times: the mean of the gaps between consecutive times, whatever the order of the rows *)
Theorem C56_avg_time_between unit d x s : dget String.eqb unit unit_divs = Some d -> Permutation s (dropna x) -> StronglySorted Z.le s -> (2 <= List.length s)%nat ->
  avg_time_between unit x = Ok (Some (mean_of (gaps s) * ns / d)).
Proof.
  intros Hd Hp Hs Hl. unfold avg_time_between. pose proof (Permutation_length Hp) as El. destruct (dropna x) as [|t [|t2 l]] eqn:Ex; [cbn in El; lia | cbn in El; lia |].
  unfold convert_time_units. rewrite Hd. cbn [bind]. destruct s as [|a s]; [cbn in El; discriminate|].
  assert (fold_left Z.max (t2 :: l) t = last (a :: s) 0%Z) as Emax.
  { destruct (fold_max (t2 :: l) t) as [H1 H2]. apply Z.le_antisymm.
    - apply last_greatest; [exact Hs|]. apply (Permutation_in _ (Permutation_sym Hp)). exact H1.
    - apply H2. apply (Permutation_in _ Hp). apply last_In. discriminate. }
  assert (fold_left Z.min (t2 :: l) t = a) as Emin.
  { destruct (fold_min (t2 :: l) t) as [H1 H2]. apply Z.le_antisymm.
    - apply H2. apply (Permutation_in _ Hp). left; reflexivity.
    - apply (Permutation_in _ (Permutation_sym Hp)) in H1. inversion Hs as [|a' s' _ Hf]; subst. rewrite Forall_forall in Hf. destruct H1 as [<-|H1]; [lia | apply Hf; exact H1]. }
  rewrite Emax, Emin. unfold mean_of. rewrite gaps_sum.
  assert (qlen (t :: t2 :: l) - 1 = qlen (gaps (a :: s))) as ->; [|reflexivity].
  rewrite qlen_cons. replace (qlen (t2 :: l) + 1 - 1) with (qlen (t2 :: l)) by ring. unfold qlen. do 3 f_equal. rewrite gaps_length. cbn [List.length] in *. lia.
Qed.
(** fewer than two known times: missing; an unknown unit raises as soon as there is something to convert *)
Theorem C56_too_few unit x : (List.length (dropna x) < 2)%nat -> avg_time_between unit x = Ok None.
Proof. unfold avg_time_between. destruct (dropna x) as [|t [|t2 l]]; cbn [List.length]; intros H; [reflexivity | reflexivity | lia]. Qed.
Theorem C56_unknown_unit unit x : dget String.eqb unit unit_divs = None -> (2 <= List.length (dropna x))%nat -> avg_time_between unit x = Err ValueError.
Proof. unfold avg_time_between, convert_time_units. intros ->. destruct (dropna x) as [|t [|t2 l]]; cbn [List.length]; intros H; [lia | lia | reflexivity]. Qed.
(** the units agree with each other up to days; a year is neither twelve months nor 365 days *)
Theorem C56_units : forall s, convert_time_units (qz 60 * s) "minutes" = convert_time_units s "seconds" /\ convert_time_units (qz 60 * s) "hours" = convert_time_units s "minutes" /\
  convert_time_units (qz 24 * s) "days" = convert_time_units s "hours" /\ convert_time_units s "milliseconds" = convert_time_units (qz 1000 * s) "seconds" /\
  convert_time_units s "nanoseconds" = convert_time_units (qz 1000000000 * s) "seconds" /\ convert_time_units s "seconds" = Ok s.
Proof.
  intros s. unfold convert_time_units. cbn [dget unit_divs String.eqb Ascii.eqb Bool.eqb].
  assert (forall (a b c : Qc) , a <> 0 -> b <> 0 -> b = a * c -> forall u, c * u / b = u / a) as H.
  { intros a b c Ha Hb -> u. field. split; [exact Ha|]. intros ->. apply Hb. ring. }
  repeat split; f_equal.
  - apply H; [discriminate | discriminate | apply Qc_is_canon; reflexivity].
  - apply H; [discriminate | discriminate | apply Qc_is_canon; reflexivity].
  - apply H; [discriminate | discriminate | apply Qc_is_canon; reflexivity].
  - symmetry. apply H; [discriminate | discriminate | apply Qc_is_canon; reflexivity].
  - symmetry. apply H; [discriminate | discriminate | apply Qc_is_canon; reflexivity].
  - match goal with |- _ / ?d = _ => replace d with 1 by (apply Qc_is_canon; reflexivity) end. field. discriminate.
Qed.
Theorem C56_year_refuted : exists s, convert_time_units (qz 12 * s) "years" <> convert_time_units s "months" /\ convert_time_units (qz 365 * s) "years" <> convert_time_units s "days".
Proof. exists 1. split; intros E; injection E as E; discriminate E. Qed.

(** twelve months are 365 days; a year is 31540000 seconds *)
Theorem C56_long_units s : exists d m y, convert_time_units s "days" = Ok d /\ convert_time_units s "months" = Ok m /\ convert_time_units s "years" = Ok y /\
  qz 365 * m = qz 12 * d /\ qz 31540000 * y = s.
Proof.
  unfold convert_time_units. cbn [dget unit_divs String.eqb Ascii.eqb Bool.eqb]. do 3 eexists. split; [reflexivity|]. split; [reflexivity|]. split; [reflexivity|]. split.
  - replace (qz 2628000) with (qz 365 * qz 7200) by (apply Qc_is_canon; reflexivity). replace (qz 86400) with (qz 12 * qz 7200) by (apply Qc_is_canon; reflexivity).
    field. repeat split; discriminate.
  - field. discriminate.
Qed.

(** rows in time order: the time since the last (first) event is measured from the latest (earliest) time *)
Theorem C56_time_since unit d cutoff x : dget String.eqb unit unit_divs = Some d -> StronglySorted Z.le x -> x <> [] ->
  exists latest earliest, In latest x /\ In earliest x /\ (forall t, In t x -> (earliest <= t <= latest)%Z) /\
    time_since_last unit cutoff x = Ok (qz (cutoff - latest) * ns / d) /\ time_since_first unit cutoff x = Ok (qz (cutoff - earliest) * ns / d).
Proof.
  intros Hd Hs Hn. destruct x as [|a x]; [destruct (Hn eq_refl)|]. exists (last (a :: x) 0%Z), a. split; [apply last_In; discriminate|]. split; [left; reflexivity|]. split.
  - intros t Ht. split; [|apply last_greatest; assumption]. inversion Hs as [|a' s' _ Hf]; subst. rewrite Forall_forall in Hf. destruct Ht as [<-|Ht]; [lia | apply Hf; exact Ht].
  - unfold time_since_last, time_since_first, time_since, convert_time_units. rewrite Hd. split; [|reflexivity].
    assert (exists l, rev (a :: x) = last (a :: x) 0%Z :: l) as (l & ->); [|reflexivity].
    exists (rev (removelast (a :: x))). pose proof (@app_removelast_last Z (a :: x) 0%Z ltac:(discriminate)) as E. rewrite E at 1. rewrite rev_app_distr. reflexivity.
Qed.

(** ** C57: most common values *)
Section MostCommon.
  Context {A : Type} (eqb : A -> A -> bool) (eqb_spec : forall x y, reflect (x = y) (eqb x y)).
  (** [order] lists the distinct values by falling frequency *)
  Definition by_frequency (order : list A -> list A) : Prop :=
    forall l, (forall a, In a (order l) <-> In a l) /\ NoDup (order l) /\ StronglySorted (fun a b => (occurrences eqb b l <= occurrences eqb a l)%nat) (order l).

  Lemma sorted_prefix {B} (R : B -> B -> Prop) n l : StronglySorted R l -> forall a b, In a (firstn n l) -> In b (skipn n l) -> R a b.
  Proof.
    intros Hs. revert n. induction Hs as [|x l Hs IH Hf]; intros n a b Ha Hb; [rewrite firstn_nil in Ha; destruct Ha|].
    destruct n as [|n]; [destruct Ha|]. cbn [firstn skipn] in *.
    destruct Ha as [<-|Ha]; [|apply (IH n); assumption]. rewrite Forall_forall in Hf. apply Hf.
    rewrite <- (firstn_skipn n l). apply in_or_app. right; exact Hb.
  Qed.
  Lemma NoDup_firstn {B} n (l : list B) : NoDup l -> NoDup (firstn n l).
  Proof. revert n. induction l as [|x l IH]; intros [|n] H; cbn [firstn]; try constructor; inversion H as [|x' l' Hx Hl]; subst; [|apply IH; exact Hl]. intros Hin. apply Hx. rewrite <- (firstn_skipn n l). apply in_or_app; left; exact Hin. Qed.

  Theorem C57_n_most_common order n c : by_frequency order ->
    exists top k, n_most_common order n c = map Some top ++ repeat None k /\ (List.length top + k = n)%nat /\
      NoDup top /\ (forall a, In a top -> In (Some a) c) /\
      (forall a b, In a top -> In (Some b) c -> ~ In b top -> (occurrences eqb b (dropna c) <= occurrences eqb a (dropna c))%nat) /\
      (k <> 0%nat -> forall a, In (Some a) c -> In a top).
  Proof.
    intros Ho. destruct (Ho (dropna c)) as (H1 & H2 & H3).
    assert (forall a, In a (dropna c) <-> In (Some a) c) as HD.
    { intros a. unfold dropna. rewrite in_flat_map. split; [intros ([b|] & Hb & Hx); [destruct Hx as [->|[]]; exact Hb | destruct Hx] | intros H; exists (Some a); split; [exact H | left; reflexivity]]. }
    exists (firstn n (order (dropna c))), (n - List.length (map Some (firstn n (order (dropna c)))))%nat.
    assert (forall a, In a (firstn n (order (dropna c))) -> In a (dropna c)) as Hin.
    { intros a Ha. apply H1. rewrite <- (firstn_skipn n). apply in_or_app; left; exact Ha. }
    split; [reflexivity|]. rewrite map_length. split; [rewrite firstn_length; lia|]. split; [apply NoDup_firstn; exact H2|]. split; [intros a Ha; apply HD; apply Hin; exact Ha|].
    assert (forall b, In (Some b) c -> ~ In b (firstn n (order (dropna c))) -> In b (skipn n (order (dropna c)))) as Hrest.
    { intros b Hb Hn. apply HD, H1 in Hb. rewrite <- (firstn_skipn n) in Hb. apply in_app_or in Hb as [Hb|Hb]; [contradiction | exact Hb]. }
    split.
    - intros a b Ha Hb Hn. exact (sorted_prefix _ n _ H3 a b Ha (Hrest b Hb Hn)).
    - intros Hk a Ha. rewrite firstn_length in Hk. rewrite firstn_all2 by lia. apply H1, HD. exact Ha.
  Qed.

  (** such an order exists: sort the distinct values by frequency *)
  Lemma by_frequency_exists : by_frequency (fun l => isort (fun a b => Nat.leb (occurrences eqb b l) (occurrences eqb a l)) (dedup_by eqb [] l)).
  Proof.
    intros l. set (le := fun a b => Nat.leb (occurrences eqb b l) (occurrences eqb a l)). pose proof (isort_perm le (dedup_by eqb [] l)) as Hp. split; [|split].
    - intros a. split; intros H.
      + apply (Permutation_in _ Hp) in H. apply (dedup_In eqb eqb_spec) in H. tauto.
      + apply (Permutation_in _ (Permutation_sym Hp)). apply (dedup_In eqb eqb_spec). split; [exact H | intros []].
    - apply (Permutation_NoDup (Permutation_sym Hp)). apply (dedup_NoDup eqb eqb_spec).
    - assert (StronglySorted (fun x y => le x y = true) (isort le (dedup_by eqb [] l))) as Hs.
      { apply isort_sorted; unfold le; [intros x y | intros x y z]; rewrite ?Nat.leb_le; lia. }
      clear -Hs. induction Hs as [|a s Hs IH Hf]; constructor; [exact IH|]. eapply Forall_impl; [|exact Hf]. intros b Hb. unfold le in Hb. apply Nat.leb_le. exact Hb.
  Qed.

  Variable leb : A -> A -> bool.
  Hypothesis leb_total : forall x y, leb x y = true \/ leb y x = true.
  Hypothesis leb_trans : forall x y z, leb x y = true -> leb y z = true -> leb x z = true.

  (** the mode occurs at least as often as every other value; of the values that occur as often it is the first in the order of values *)
  Theorem C57_mode c a : mode eqb leb c = Some a ->
    In (Some a) c /\ forall b, In (Some b) c ->
      (occurrences eqb b (dropna c) < occurrences eqb a (dropna c))%nat \/ (occurrences eqb b (dropna c) = occurrences eqb a (dropna c) /\ leb a b = true).
  Proof.
    assert (forall a, In a (dropna c) <-> In (Some a) c) as HD.
    { intros x. unfold dropna. rewrite in_flat_map. split; [intros ([b|] & Hb & Hx); [destruct Hx as [->|[]]; exact Hb | destruct Hx] | intros H; exists (Some x); split; [exact H | left; reflexivity]]. }
    unfold mode. set (l := dropna c) in *. set (top := fold_left Nat.max _ 0%nat). set (cand := filter _ (dedup_by eqb [] l)). intros H.
    assert (forall m acc, (acc <= fold_left Nat.max m acc)%nat /\ forall x, In x m -> (x <= fold_left Nat.max m acc)%nat) as Hmax.
    { induction m as [|y m IH]; intros acc; cbn [fold_left]; [split; [lia | intros x []]|]. destruct (IH (Nat.max acc y)) as [I1 I2]. split; [lia|]. intros x [<-|Hx]; [lia | apply I2; exact Hx]. }
    assert (forall b, In b l -> (occurrences eqb b l <= top)%nat) as Htop.
    { intros b Hb. apply (proj2 (Hmax (map (fun a => occurrences eqb a l) l) 0%nat)). apply in_map_iff. exists b; auto. }
    assert (forall b, In b cand <-> In b l /\ occurrences eqb b l = top) as Hc.
    { intros b. unfold cand. rewrite filter_In, (dedup_In eqb eqb_spec), Nat.eqb_eq. cbn [In]. tauto. }
    pose proof (isort_perm leb cand) as Hp. assert (StronglySorted (fun x y => leb x y = true) (isort leb cand)) as Hs by (apply isort_sorted; [intros x y; apply leb_total | intros x y z; apply leb_trans]).
    destruct (isort leb cand) as [|x s] eqn:E; [discriminate|]. injection H as ->.
    assert (In a cand) as Ha by (apply (Permutation_in _ Hp); left; reflexivity). apply Hc in Ha as [Ha1 Ha2]. split; [apply HD; exact Ha1|].
    intros b Hb. apply HD in Hb. rewrite Ha2. pose proof (Htop b Hb). destruct (Nat.eq_dec (occurrences eqb b l) top) as [Eb|Nb]; [right | left; lia]. split; [exact Eb|].
    assert (In b (a :: s)) as Hbs by (apply (Permutation_in _ (Permutation_sym Hp)); apply Hc; auto). inversion Hs as [|a' s' _ Hf]; subst. destruct Hbs as [->|Hbs]; [destruct (leb_total b b); assumption|].
    rewrite Forall_forall in Hf. apply Hf. exact Hbs.
  Qed.
  Theorem C57_mode_missing c : mode eqb leb c = None <-> forall a, ~ In (Some a) c.
  Proof.
    assert (forall a, In a (dropna c) <-> In (Some a) c) as HD.
    { intros x. unfold dropna. rewrite in_flat_map. split; [intros ([b|] & Hb & Hx); [destruct Hx as [->|[]]; exact Hb | destruct Hx] | intros H; exists (Some x); split; [exact H | left; reflexivity]]. }
    split.
    - intros H a Ha. apply HD in Ha. unfold mode in H. set (l := dropna c) in *. set (top := fold_left Nat.max _ 0%nat) in *. set (cand := filter _ (dedup_by eqb [] l)) in *.
      assert (forall m acc, In (fold_left Nat.max m acc) (acc :: m)) as Hm.
      { induction m as [|y m IH]; intros acc; cbn [fold_left]; [left; reflexivity|]. destruct (IH (Nat.max acc y)) as [E|Hi]; [|right; right; exact Hi]. rewrite <- E.
        destruct (Nat.max_spec acc y) as [[_ ->]|[_ ->]]; [right; left | left]; reflexivity. }
      assert (exists b, In b cand) as (b & Hb).
      { destruct (Hm (map (fun a => occurrences eqb a l) l) 0%nat) as [E|Hi].
        - (* the maximum is 0, yet [a] occurs *) exfalso. assert (1 <= occurrences eqb a l)%nat as H1.
          { unfold occurrences. assert (In a (filter (eqb a) l)) as Hf by (apply filter_In; split; [exact Ha | destruct (eqb_spec a a); [reflexivity | congruence]]). destruct (filter (eqb a) l); [destruct Hf | cbn; lia]. }
          assert (forall m acc x, In x m -> (x <= fold_left Nat.max m acc)%nat) as Hle.
          { assert (forall m acc, (acc <= fold_left Nat.max m acc)%nat) as Hacc by (induction m as [|y m IH]; intros acc; cbn [fold_left]; [lia | specialize (IH (Nat.max acc y)); lia]).
            induction m as [|y m IH]; intros acc x Hx; [destruct Hx|]. cbn [fold_left]. destruct Hx as [->|Hx]; [specialize (Hacc m (Nat.max acc x)); lia | apply IH; exact Hx]. }
          specialize (Hle (map (fun a => occurrences eqb a l) l) 0%nat (occurrences eqb a l)). rewrite <- E in Hle. assert (In (occurrences eqb a l) (map (fun a => occurrences eqb a l) l)) as Hin by (apply in_map_iff; exists a; auto). specialize (Hle Hin). lia.
        - apply in_map_iff in Hi as (b & Eb & Hb). exists b. unfold cand. apply filter_In. split; [apply (dedup_In eqb eqb_spec); split; [exact Hb | intros []] | apply Nat.eqb_eq; exact Eb]. }
      apply (Permutation_in _ (Permutation_sym (isort_perm leb cand))) in Hb. destruct (isort leb cand); [destruct Hb | discriminate].
    - intros H. unfold mode. assert (dropna c = []) as ->; [|reflexivity]. destruct (dropna c) as [|x l] eqn:E; [reflexivity|]. exfalso. apply (H x). apply HD. left; reflexivity.
  Qed.
End MostCommon.

(** ** C58: the linear trend *)
(** the rows where both the value and the time are known *)
Fixpoint known (y : list (option Qc)) (x : list (option Z)) : list (Qc * Z) :=
  match y, x with
  | Some a :: y', Some b :: x' => (a, b) :: known y' x'
  | _ :: y', _ :: x' => known y' x'
  | _, _ => []
  end.
(** squared error of the line with slope [s] and intercept [c]; [unit] is the length of the unit of time in nanoseconds *)
Definition squared_error (unit s c : Qc) (pts : list (Qc * Z)) : Qc :=
  qsum (map (fun p : Qc * Z => let e := fst p - (s * (qz (snd p) / unit) + c) in e * e) pts).

Lemma qsum_ext {B} (f g : B -> Qc) l : (forall b, f b = g b) -> qsum (map f l) = qsum (map g l).
Proof. intros H. rewrite (map_ext f g H). reflexivity. Qed.
Lemma qsum_plus {B} (f g : B -> Qc) l : qsum (map (fun b => f b + g b) l) = qsum (map f l) + qsum (map g l).
Proof. induction l as [|b l IH]; cbn [map]; [cbn; ring|]. rewrite !qsum_cons, IH. ring. Qed.
Lemma qsum_scale {B} (k : Qc) (f : B -> Qc) l : qsum (map (fun b => k * f b) l) = k * qsum (map f l).
Proof. induction l as [|b l IH]; cbn [map]; [cbn; ring|]. rewrite !qsum_cons, IH. ring. Qed.
Lemma qsum_const {B} (k : Qc) (l : list B) : qsum (map (fun _ => k) l) = qlen l * k.
Proof. induction l as [|b l IH]; cbn [map]; [assert (qlen (@nil B) = 0) as -> by (apply Qc_is_canon; reflexivity); cbn; ring|]. rewrite qsum_cons, IH, qlen_cons. ring. Qed.
Lemma square_nonneg (a : Qc) : 0 <= a * a.
Proof.
  unfold Qcle, Qcmult. change (Qred 0 <= Qred (this a * this a))%Q. rewrite !Qred_correct. destruct (this a) as [n d]. unfold Qle, Qmult. cbn [Qnum Qden]. nia.
Qed.
Lemma qsum_nonneg l : (forall a, In a l -> 0 <= a) -> 0 <= qsum l.
Proof.
  induction l as [|a l IH]; intros H; [apply Qcle_refl|]. rewrite qsum_cons. replace 0 with (0 + 0) by ring. apply Qcplus_le_compat; [apply H; left; reflexivity | apply IH; intros b Hb; apply H; right; exact Hb].
Qed.
Lemma qsum_zero l : (forall a, In a l -> 0 <= a) -> qsum l = 0 -> forall a, In a l -> a = 0.
Proof.
  induction l as [|b l IH]; intros H E a Ha; [destruct Ha|]. rewrite qsum_cons in E.
  assert (0 <= b) as Hb by (apply H; left; reflexivity). assert (0 <= qsum l) as Hl by (apply qsum_nonneg; intros c Hc; apply H; right; exact Hc).
  assert (b = 0) as Eb. { apply Qcle_antisym; [|exact Hb]. replace b with (0 - qsum l) by (rewrite <- E; ring). replace 0 with (qsum l - qsum l) at 2 by ring. unfold Qcminus. apply Qcplus_le_compat; [exact Hl | apply Qcle_refl]. }
  destruct Ha as [<-|Ha]; [exact Eb|]. apply IH; [intros c Hc; apply H; right; exact Hc | rewrite Eb in E; rewrite <- E; ring | exact Ha].
Qed.

Section LeastSquares.
  Variable pts : list (Qc * Qc).
  Hypothesis Hne : pts <> [].
  Let S (f : Qc * Qc -> Qc) : Qc := qsum (map f pts).
  Let mx := S fst / qlen pts.
  Let my := S snd / qlen pts.

  Lemma centred (f : Qc * Qc -> Qc) : S (fun p => f p - S f / qlen pts) = 0.
  Proof.
    unfold S. rewrite (qsum_ext _ (fun p => f p + (- (qsum (map f pts) / qlen pts)))) by (intros b; ring). rewrite qsum_plus, qsum_const.
    assert (qlen pts <> 0) as Hn by (destruct pts; [destruct (Hne eq_refl) | apply qlen_pos]). field. exact Hn.
  Qed.

  Lemma normal_minimal b : b * S (fun p => (fst p - mx) * (fst p - mx)) = S (fun p => (fst p - mx) * (snd p - my)) ->
    forall s' c', S (fun p => (snd p - (b * fst p + (my - b * mx))) * (snd p - (b * fst p + (my - b * mx)))) <= S (fun p => (snd p - (s' * fst p + c')) * (snd p - (s' * fst p + c'))).
  Proof.
    intros Hb s' c'. set (e := fun p : Qc * Qc => (snd p - my) - b * (fst p - mx)). set (k := my - s' * mx - c').
    assert (S e = 0) as He.
    { unfold S, e. rewrite (qsum_ext _ (fun p => (snd p - my) + (- b) * (fst p - mx))) by (intros q; ring). rewrite qsum_plus, qsum_scale.
      fold (S (fun p => snd p - my)). fold (S (fun p => fst p - mx)). unfold my, mx. rewrite !centred. ring. }
    assert (S (fun p => e p * (fst p - mx)) = 0) as Hex.
    { unfold S, e. rewrite (qsum_ext _ (fun p => (fst p - mx) * (snd p - my) + (- b) * ((fst p - mx) * (fst p - mx)))) by (intros q; ring). rewrite qsum_plus, qsum_scale.
      fold (S (fun p => (fst p - mx) * (snd p - my))). fold (S (fun p => (fst p - mx) * (fst p - mx))). rewrite <- Hb. ring. }
    assert (S (fun p => (snd p - (s' * fst p + c')) * (snd p - (s' * fst p + c'))) =
            S (fun p => e p * e p) + ((1 + 1) * (b - s') * S (fun p => e p * (fst p - mx)) + ((1 + 1) * k * S e + S (fun p => ((b - s') * (fst p - mx) + k) * ((b - s') * (fst p - mx) + k))))) as ->.
    { unfold S. rewrite <- !qsum_scale, <- !qsum_plus. apply qsum_ext. intros p. unfold e, k. ring. }
    rewrite He, Hex. unfold S. rewrite (qsum_ext _ (fun p => e p * e p)) by (intros p; unfold e; ring).
    match goal with |- ?a <= ?a + (?u + (?v + ?w)) => replace (a + (u + (v + w))) with (a + w) by ring; replace a with (a + 0) at 1 by ring end.
    apply Qcplus_le_compat; [apply Qcle_refl|]. apply qsum_nonneg. intros a Ha. apply in_map_iff in Ha as (p & <- & _). apply square_nonneg.
  Qed.
End LeastSquares.

Lemma combine_map2 {A B C D} (f : A -> C) (g : B -> D) (l : list (A * B)) : combine (map (fun p => f (fst p)) l) (map (fun p => g (snd p)) l) = map (fun p => (f (fst p), g (snd p))) l.
Proof. induction l as [|p l IH]; cbn [map combine]; [reflexivity | rewrite IH; reflexivity]. Qed.

Lemma known_dropna y x : dropna (map (fun yx : option Qc * option Z => match yx with (Some a, Some b) => Some (a, b) | _ => None end) (combine y x)) = known y x.
Proof.
  revert x. induction y as [|a y IH]; intros [|b x]; [reflexivity | reflexivity | destruct a; reflexivity |]. cbn [combine map known]. destruct a as [a|], b as [b|]; [exact (f_equal (cons (a, b)) (IH x)) | exact (IH x) | exact (IH x) | exact (IH x)].
Qed.

Definition qc_eqb (a b : Qc) : bool := if Qc_eq_dec a b then true else false.
Lemma qc_eqb_spec a b : reflect (a = b) (qc_eqb a b).
Proof. unfold qc_eqb. destruct (Qc_eq_dec a b); constructor; assumption. Qed.
Lemma dedup_one l : List.length (dedup_by qc_eqb [] l) = 1%nat <-> l <> [] /\ exists v, forall a, In a l -> a = v.
Proof.
  assert (forall x, In x (dedup_by qc_eqb [] l) <-> In x l) as HD by (intros x; rewrite (dedup_In qc_eqb qc_eqb_spec); cbn [In]; tauto).
  pose proof (dedup_NoDup qc_eqb qc_eqb_spec [] l) as Hn. split.
  - destruct (dedup_by qc_eqb [] l) as [|v [|w m]] eqn:E; intros H; try discriminate. split; [intros ->; discriminate|]. exists v. intros a Ha. apply HD in Ha as [->|[]]. reflexivity.
  - intros [Hne (v & Hv)]. destruct (dedup_by qc_eqb [] l) as [|a [|b m]] eqn:E.
    + destruct l as [|x l]; [destruct (Hne eq_refl)|]. destruct (proj2 (HD x) (or_introl eq_refl)).
    + reflexivity.
    + exfalso. inversion Hn as [|a' l' Ha _]; subst. apply Ha. left. rewrite (Hv a), (Hv b); [reflexivity | apply HD; right; left; reflexivity | apply HD; left; reflexivity].
Qed.

(** the unit of time: a day, an hour, a minute or a second, the longest that divides the first known time (in whole seconds) *)
Definition trend_unit (pts : list (Qc * Z)) : Qc :=
  match pts with [] => 1 | p :: _ => qz (find_dividend (Z.quot (snd p) 1000000000)) / ns end.

Lemma find_dividend_pos s : (0 < find_dividend s)%Z.
Proof. unfold find_dividend. repeat (match goal with |- context [if ?c then _ else _] => destruct c end); lia. Qed.
Lemma qz_nonzero z : (0 < z)%Z -> qz z <> 0.
Proof. intros H E. apply (f_equal this) in E. change (Qred (z # 1) = Qred 0) in E. assert (z # 1 == 0)%Q as E' by (rewrite <- Qred_correct, E; reflexivity). unfold Qeq in E'. cbn [Qnum Qden] in E'. lia. Qed.
Lemma ns_nonzero : ns <> 0.
Proof. discriminate. Qed.

(** with three or more known points, the trend is the slope of a line with the smallest squared error *)
Theorem C58_least_squares y x b : trend y x = Some b ->
  exists c, forall s' c', squared_error (trend_unit (known y x)) b c (known y x) <= squared_error (trend_unit (known y x)) s' c' (known y x).
Proof.
  unfold trend. rewrite known_dropna. set (df := known y x). cbv zeta. destruct (Nat.leb_spec (List.length df) 2) as [|Hl]; [discriminate|].
  destruct df as [|p0 df'] eqn:Edf; [cbn in Hl; lia|]. rewrite <- Edf in *. set (u := ns / qz (find_dividend (Z.quot (snd p0) 1000000000))).
  assert (datetime_to_floats (map snd df) = map (fun p => qz (snd p) * u) df) as Efl.
  { rewrite Edf. unfold datetime_to_floats. cbn [map]. fold u. rewrite map_map. reflexivity. }
  rewrite Efl. set (pts := map (fun p : Qc * Z => (qz (snd p) * u, fst p)) df).
  assert (pts <> []) as Hne by (unfold pts; rewrite Edf; discriminate).
  assert (map (fun p : Qc * Z => qz (snd p) * u) df = map fst pts) as -> by (unfold pts; rewrite map_map; reflexivity).
  assert (map (@fst Qc Z) df = map snd pts) as -> by (unfold pts; rewrite map_map; reflexivity).
  set (mx := qsum (map fst pts) / qlen pts). set (my := qsum (map snd pts) / qlen pts).
  assert (qmean (map fst pts) = mx) as -> by (unfold qmean, mx, qlen; rewrite map_length; reflexivity).
  assert (qmean (map snd pts) = my) as -> by (unfold qmean, my, qlen; rewrite map_length; reflexivity).
  rewrite !map_map. set (xc := map (fun p : Qc * Qc => fst p - mx) pts). set (yc := map (fun p : Qc * Qc => snd p - my) pts).
  assert (qsum xc = 0) as Hx0 by (apply (centred pts Hne fst)). assert (qsum yc = 0) as Hy0 by (apply (centred pts Hne snd)).
  assert (qdot xc yc = qsum (map (fun p => (fst p - mx) * (snd p - my)) pts)) as Exy.
  { unfold qdot, xc, yc. rewrite (combine_map2 (fun a => a - mx) (fun a => a - my)), map_map. reflexivity. }
  assert (qdot xc xc = qsum (map (fun p => (fst p - mx) * (fst p - mx)) pts)) as Exx.
  { unfold qdot, xc. assert (forall l : list (Qc * Qc), combine (map (fun p => fst p - mx) l) (map (fun p => fst p - mx) l) = map (fun p => (fst p - mx, fst p - mx)) l) as ->.
    { induction l as [|q l IH]; cbn [map combine]; [reflexivity | rewrite IH; reflexivity]. } rewrite map_map. reflexivity. }
  assert (qlen pts <> 0) as Hn by (destruct pts; [destruct (Hne eq_refl) | apply qlen_pos]).
  assert (qlen xc = qlen pts) as En by (unfold qlen, xc; rewrite map_length; reflexivity).
  intros Hb. assert (b * qdot xc xc = qdot xc yc) as Hnormal.
  { fold qc_eqb in Hb. change (fun a b : Qc => if Qc_eq_dec a b then true else false) with qc_eqb in Hb. destruct (Nat.eqb_spec (List.length (dedup_by qc_eqb [] xc)) 1) as [E1|E1]; injection Hb as <-.
    - apply dedup_one in E1 as [_ (v & Hv)].
      assert (v = 0) as Ev.
      { assert (qsum xc = qlen xc * v) as Es. { rewrite <- qsum_const. f_equal. transitivity (map (fun a => a) xc); [rewrite map_id; reflexivity|]. apply map_ext_in. exact Hv. }
        rewrite Hx0, En in Es. replace v with (qlen pts * v / qlen pts) by (field; exact Hn). rewrite <- Es. field. exact Hn. }
      rewrite Exy. assert (forall p, In p pts -> fst p - mx = 0) as Hz. { intros p Hp. rewrite <- Ev. apply Hv. unfold xc. apply (in_map (fun p : Qc * Qc => fst p - mx)). exact Hp. }
      replace (0 * qdot xc xc) with (qlen pts * 0) by ring. rewrite <- (qsum_const 0 pts). f_equal. apply map_ext_in. intros p Hp. rewrite (Hz p Hp). ring.
    - unfold polyfit_slope. rewrite Hx0, Hy0, En. assert (qdot xc xc <> 0) as Hxx.
      { intros E0. apply E1. apply dedup_one. split; [unfold xc; destruct pts; [destruct (Hne eq_refl) | discriminate]|]. exists 0. intros a Ha.
        rewrite Exx in E0. unfold xc in Ha. apply in_map_iff in Ha as (p & <- & Hp).
        assert ((fst p - mx) * (fst p - mx) = 0) as Esq.
        { apply (qsum_zero _ ltac:(intros a Ha; apply in_map_iff in Ha as (q & <- & _); apply square_nonneg) E0). apply (in_map (fun p : Qc * Qc => (fst p - mx) * (fst p - mx))). exact Hp. }
        destruct (Qcmult_integral _ _ Esq); assumption. }
      field. split; [exact Hxx | exact Hn]. }
  exists (my - b * mx). intros s' c'.
  rewrite Exx, Exy in Hnormal. pose proof (normal_minimal pts Hne b Hnormal s' c') as Hmin.
  assert (forall s c, squared_error (trend_unit df) s c df = qsum (map (fun p : Qc * Qc => (snd p - (s * fst p + c)) * (snd p - (s * fst p + c))) pts)) as Hse.
  { intros s c. unfold squared_error, pts. rewrite map_map. apply qsum_ext. intros p. cbn [fst snd].
    assert (qz (snd p) / trend_unit df = qz (snd p) * u) as ->; [|reflexivity]. unfold trend_unit. rewrite Edf. unfold u. field. split; [apply qz_nonzero, find_dividend_pos | exact ns_nonzero]. }
  rewrite !Hse. exact Hmin.
Qed.
(** the unit, in nanoseconds, is that of the longest of day, hour, minute and second that divides the first known time in whole seconds *)
Theorem C58_unit a t rest : exists k, In k [86400; 3600; 60; 1]%Z /\ trend_unit ((a, t) :: rest) = qz (k * 1000000000) /\
  (k | Z.quot t 1000000000)%Z /\ forall k', In k' [86400; 3600; 60; 1]%Z -> (k' | Z.quot t 1000000000)%Z -> (k' <= k)%Z.
Proof.
  unfold trend_unit. cbn [snd]. set (s := Z.quot t 1000000000). exists (find_dividend s). unfold find_dividend.
  destruct (Z.eqb_spec (s mod 86400) 0) as [E1|E1]; [|destruct (Z.eqb_spec (s mod 3600) 0) as [E2|E2]; [|destruct (Z.eqb_spec (s mod 60) 0) as [E3|E3]]].
  - split; [left; reflexivity|]. split; [apply Qc_is_canon; reflexivity|]. split; [apply Z.mod_divide; [lia | exact E1]|]. intros k' [<-|[<-|[<-|[<-|[]]]]] _; lia.
  - split; [right; left; reflexivity|]. split; [apply Qc_is_canon; reflexivity|]. split; [apply Z.mod_divide; [lia | exact E2]|].
    intros k' [<-|[<-|[<-|[<-|[]]]]] Hd; [exfalso; apply E1, Z.mod_divide; [lia | exact Hd] | lia | lia | lia].
  - split; [right; right; left; reflexivity|]. split; [apply Qc_is_canon; reflexivity|]. split; [apply Z.mod_divide; [lia | exact E3]|].
    intros k' [<-|[<-|[<-|[<-|[]]]]] Hd; [exfalso; apply E1, Z.mod_divide; [lia | exact Hd] | exfalso; apply E2, Z.mod_divide; [lia | exact Hd] | lia | lia].
  - split; [right; right; right; left; reflexivity|]. split; [apply Qc_is_canon; reflexivity|]. split; [apply Z.divide_1_l|].
    intros k' [<-|[<-|[<-|[<-|[]]]]] Hd; [exfalso; apply E1, Z.mod_divide; [lia | exact Hd] | exfalso; apply E2, Z.mod_divide; [lia | exact Hd] | exfalso; apply E3, Z.mod_divide; [lia | exact Hd] | lia].
Qed.
Theorem C58_too_few y x : trend y x = None <-> (List.length (known y x) <= 2)%nat.
Proof.
  unfold trend. rewrite known_dropna. cbv zeta. destruct (Nat.leb_spec (List.length (known y x)) 2) as [H|H]; [tauto|]. split; [|lia]. destruct (Nat.eqb _ 1); discriminate.
Qed.

(** The trend of the same values with the same spacing in time depends on the clock time of the first event: one more second
    divides it by 86400 *)
Theorem C58_shift_refuted : exists y x (seconds : Z), let later := map (option_map (Z.add (seconds * 1000000000))) x in
  trend y x = Some 1 /\ trend y later = Some (Q2Qc (1 # 86400)).
Proof.
  exists [Some 0; Some 1; Some (qz 2)], [Some 0; Some 86400000000000; Some 172800000000000]%Z, 1%Z. cbv zeta. split; vm_compute; f_equal; apply Qc_is_canon; reflexivity.
Qed.

Example C56_nonvacuous : exists v, avg_time_between "minutes" [Some 600000000000; None; Some 0; Some 120000000000]%Z = Ok (Some v) /\ v = qz 5 /\
  StronglySorted Z.le [0; 120000000000; 600000000000]%Z /\ Permutation [0; 120000000000; 600000000000]%Z (dropna [Some 600000000000; None; Some 0; Some 120000000000]%Z).
Proof.
  eexists. split; [reflexivity|]. split; [apply Qc_is_canon; reflexivity|]. split; [repeat constructor; discriminate|].
  apply (Permutation_cons_app [600000000000%Z] [120000000000%Z]). apply perm_swap.
Qed.
Example C57_nonvacuous : by_frequency Nat.eqb (fun l => isort (fun a b => Nat.leb (occurrences Nat.eqb b l) (occurrences Nat.eqb a l)) (dedup_by Nat.eqb [] l)) /\
  n_most_common (fun l => isort (fun a b => Nat.leb (occurrences Nat.eqb b l) (occurrences Nat.eqb a l)) (dedup_by Nat.eqb [] l)) 3 [Some 4; None; Some 5; Some 5]%nat = [Some 5; Some 4; None]%nat /\
  mode Nat.eqb Nat.leb [Some 4; None; Some 5; Some 5; Some 4]%nat = Some 4%nat.
Proof. split; [apply by_frequency_exists; apply Nat.eqb_spec|]. split; reflexivity. Qed.
Example C58_nonvacuous : trend [Some 0; None; Some 1; Some (qz 5); Some (qz 6)] [Some 0; Some 7; Some 3600000000000; None; Some 7200000000000]%Z = Some (qz 72).
Proof. vm_compute. f_equal. apply Qc_is_canon. reflexivity. Qed.

Print Assumptions C56_long_units.
Print Assumptions C56_avg_time_between.
Print Assumptions C56_too_few.
Print Assumptions C56_unknown_unit.
Print Assumptions C56_units.
Print Assumptions C56_year_refuted.
Print Assumptions C56_time_since.
Print Assumptions C57_n_most_common.
Print Assumptions C57_mode.
Print Assumptions C57_mode_missing.
Print Assumptions C58_least_squares.
Print Assumptions C58_unit.
Print Assumptions C58_too_few.
Print Assumptions C58_shift_refuted.
