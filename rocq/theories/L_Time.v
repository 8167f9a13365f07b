From Coq Require Import DecimalString DecimalZ DecimalFacts DecimalPos QArith.
From Verif Require Import Base BaseFacts M_Table M_CFM L_CFM M_Time S_Time.
Local Close Scope Q_scope.
Local Open Scope string_scope.
Local Open Scope list_scope.

(** ** unit spellings *)
Lemma lower_ascii_idem a : lower_ascii (lower_ascii a) = lower_ascii a.
Proof. destruct a as [[] [] [] [] [] [] [] []]; reflexivity. Qed.
Lemma lower_idem s : lower (lower s) = lower s.
Proof. induction s as [|a s IH]; cbn [lower]; [reflexivity|]. rewrite lower_ascii_idem, IH. reflexivity. Qed.
Lemma lower_length s : String.length (lower s) = String.length s.
Proof. induction s; cbn; congruence. Qed.
Lemma append_length s t : String.length (s ++ t)%string = (String.length s + String.length t)%nat.
Proof. induction s; cbn; congruence. Qed.

Lemma ends_s_cons a b s : ends_s (String a (String b s)) = ends_s (String b s).
Proof. reflexivity. Qed.
Lemma ends_lower s : ends_s s = true -> ends_s (lower s) = true.
Proof.
  induction s as [|a s IH]; [discriminate|]. destruct s as [|b s].
  - cbn. intros H. apply Ascii.eqb_eq in H. subst. reflexivity.
  - rewrite ends_s_cons. cbn [lower]. intros H. rewrite ends_s_cons. apply IH. exact H.
Qed.
Lemma ends_append_s s : ends_s (s ++ "s")%string = true.
Proof. induction s as [|a s IH]; [reflexivity|]. destruct s as [|b s]; [reflexivity|]. cbn [append]. rewrite ends_s_cons. exact IH. Qed.

Lemma check_plural_idem s : check_unit_plural (check_unit_plural s) = check_unit_plural s.
Proof.
  unfold check_unit_plural at 2 3. destruct ((2 <? String.length s)%nat && negb (ends_s s)) eqn:E.
  - unfold check_unit_plural. rewrite (ends_lower _ (ends_append_s s)). cbn [negb]. rewrite andb_false_r, lower_idem, lower_length.
    rewrite append_length. destruct (1 <? _)%nat eqn:E2; reflexivity.
  - destruct (1 <? String.length s)%nat eqn:E1.
    + unfold check_unit_plural. rewrite lower_length. destruct (2 <? String.length s)%nat eqn:E2; cbn [andb] in *.
      * apply negb_false_iff in E. rewrite (ends_lower _ E). cbn [negb]. rewrite E1, lower_idem. reflexivity.
      * rewrite E1, lower_idem. reflexivity.
    + unfold check_unit_plural. rewrite E, E1. reflexivity.
Qed.

Lemma fix_unit_idem s : fix_unit (fix_unit s) = fix_unit s.
Proof.
  unfold fix_unit at 2 3. destruct (dget String.eqb (check_unit_plural s) readable_to_unit) as [k|] eqn:E.
  - apply (dget_In _ String.eqb_spec) in E. cbn in E. repeat (destruct E as [E|E]; [injection E as _ <-; reflexivity|]). destruct E.
  - unfold fix_unit. rewrite check_plural_idem, E. reflexivity.
Qed.

(** ** fix_units *)
Definition fixed (ts : list (string * Z)) : Prop := NoDup (map fst ts) /\ forall u, In u (map fst ts) -> fix_unit u = u.

Lemma fix_units_fixed_go ts : forall d, fixed d -> fixed (fold_left (fun d uv => dset String.eqb (fix_unit (fst uv)) (snd uv) d) ts d).
Proof.
  induction ts as [|[u v] ts IH]; intros d [H1 H2]; cbn [fold_left fst snd]; [split; assumption|]. apply IH. split.
  - apply (dset_NoDup _ String.eqb_spec). exact H1.
  - intros x Hx. rewrite (dset_keys _ String.eqb_spec) in Hx. destruct (existsb _ _); [auto|]. apply in_app_iff in Hx as [Hx|[<-|[]]]; [auto | apply fix_unit_idem].
Qed.
Lemma fix_units_fixed ts : fixed (fix_units ts).
Proof. apply fix_units_fixed_go. split; [constructor | intros u []]. Qed.

Lemma dset_new {V} k (v : V) (d : list (string * V)) : ~ In k (map fst d) -> dset String.eqb k v d = d ++ [(k, v)].
Proof.
  induction d as [|[k' v'] d IH]; intros H; cbn [dset app]; [reflexivity|]. destruct (String.eqb_spec k k') as [->|Hd].
  - exfalso; apply H; left; reflexivity.
  - rewrite IH; [reflexivity|]. intros Hin; apply H; right; exact Hin.
Qed.

Lemma rebuild_go (f : string -> string) (ts : list (string * Z)) : forall d, NoDup (map fst (d ++ ts)) -> (forall u, In u (map fst ts) -> f u = u) ->
  fold_left (fun d uv => dset String.eqb (f (fst uv)) (snd uv) d) ts d = d ++ ts.
Proof.
  induction ts as [|[u v] ts IH]; intros d Hn Hf; cbn [fold_left fst snd]; [rewrite app_nil_r; reflexivity|].
  rewrite Hf by (left; reflexivity). rewrite dset_new.
  - rewrite IH; [rewrite <- app_assoc; reflexivity | rewrite <- app_assoc; exact Hn | intros; apply Hf; right; assumption].
  - intros Hin. rewrite map_app in Hn. cbn [map fst] in Hn. apply NoDup_remove_2 in Hn. apply Hn. apply in_or_app; left; exact Hin.
Qed.

Lemma fix_units_id ts : fixed ts -> fix_units ts = ts.
Proof. intros [H1 H2]. unfold fix_units. rewrite rebuild_go; [reflexivity | exact H1 | exact H2]. Qed.

Lemma make_td_times ts td : make_td ts = Ok td -> times td = fix_units ts /\ get_unit_type (times td) = Ok (delta_obj td).
Proof. unfold make_td. intros H. apply bind_Ok in H as (d & Hd & H). injection H as <-. cbn. auto. Qed.

Lemma make_td_fixed td : fixed (times td) -> get_unit_type (times td) = Ok (delta_obj td) -> make_td (times td) = Ok td.
Proof. intros Hf Hu. unfold make_td. rewrite (fix_units_id _ Hf), Hu. destruct td; reflexivity. Qed.

Lemma combine_fst_snd {A B} (l : list (A * B)) : combine (map fst l) (map snd l) = l.
Proof. induction l as [|[a b] l IH]; cbn; congruence. Qed.

Lemma td_round_trip ts td : make_td ts = Ok td -> from_dictionary (get_arguments td) = Ok td.
Proof.
  intros H. apply make_td_times in H as [H1 H2]. assert (fixed (times td)) as Hf by (rewrite H1; apply fix_units_fixed).
  pose proof (make_td_fixed td Hf H2) as H. unfold get_arguments.
  assert (from_dictionary (ArgMany (map fst (times td)) (map snd (times td))) = Ok td) as HM.
  { cbn [from_dictionary]. rewrite !map_length, Nat.ltb_irrefl, combine_fst_snd. rewrite (rebuild_go (fun u => u)); [exact H | exact (proj1 Hf) | auto]. }
  destruct (times td) as [|[u v] [|uv2 l]] eqn:E; [exact HM | exact H | exact HM].
Qed.

(** ** arithmetic *)
Definition neg_times (ts : list (string * Z)) := map (fun uv => (fst uv, (- snd uv)%Z)) ts.
Lemma neg_times_keys ts : map fst (neg_times ts) = map fst ts.
Proof. unfold neg_times. rewrite map_map. reflexivity. Qed.
Lemma neg_times_neg ts : neg_times (neg_times ts) = ts.
Proof. unfold neg_times. rewrite map_map. cbn. rewrite <- (map_id ts) at 2. apply map_ext. intros [u v]; cbn. rewrite Z.opp_involutive. reflexivity. Qed.
Lemma neg_fixed ts : fixed ts -> fixed (neg_times ts).
Proof. intros [H1 H2]. split; rewrite neg_times_keys; assumption. Qed.
Lemma neg_delta_neg d : neg_delta (neg_delta d) = d.
Proof. destruct d; cbn; rewrite ?Z.opp_involutive; reflexivity. Qed.

Definition wf_td (td : timedelta) : Prop := fixed (times td) /\ (delta_obj td = DNone <-> In "o" (map fst (times td))).

Lemma get_unit_type_None ts d : get_unit_type ts = Ok d -> (d = DNone <-> In "o" (map fst ts)).
Proof.
  unfold get_unit_type. destruct (mem_str "o" (map fst ts)) eqn:E; intros H.
  - injection H as <-. apply mem_str_In in E. tauto.
  - apply mem_str_nIn in E. split; [|tauto]. intros ->. destruct (is_absolute ts && _); [destruct ts as [|[u v] ts]; discriminate|].
    unfold relative_of in H. apply bind_Ok in H as (x & _ & H). destruct (existsb _ _); discriminate.
Qed.

Lemma built_wf td : built td -> wf_td td.
Proof.
  intros [(ts & H)|(ts & d & -> & Hd & Ho)].
  - apply make_td_times in H as [H1 H2]. split; [rewrite H1; apply fix_units_fixed | apply get_unit_type_None; exact H2].
  - split; [apply fix_units_fixed|]. cbn [make_td_with delta_obj]. tauto.
Qed.

Lemma td_neg_eq td : wf_td td -> td_neg td = Ok (mkTimedelta (neg_times (times td)) (neg_delta (delta_obj td))).
Proof.
  intros [Hf Ho]. unfold td_neg. fold (neg_times (times td)). pose proof (neg_fixed _ Hf) as Hn.
  assert (forall d, make_td_with (neg_times (times td)) d = mkTimedelta (neg_times (times td)) d) as E
    by (intros; unfold make_td_with; rewrite (fix_units_id _ Hn); reflexivity).
  destruct (delta_obj td) eqn:Ed; try (rewrite E; reflexivity).
  unfold make_td. rewrite (fix_units_id _ Hn). unfold get_unit_type. rewrite neg_times_keys.
  rewrite (proj2 (mem_str_In _ _) (proj1 Ho eq_refl)). reflexivity.
Qed.
Lemma neg_wf td : wf_td td -> wf_td (mkTimedelta (neg_times (times td)) (neg_delta (delta_obj td))).
Proof.
  intros [Hf Ho]. split; cbn [times delta_obj]; [apply neg_fixed; exact Hf|]. rewrite neg_times_keys, <- Ho.
  destruct (delta_obj td); cbn; split; congruence.
Qed.

Lemma td_neg_neg td : wf_td td -> exists n, td_neg td = Ok n /\ wf_td n /\ td_neg n = Ok td.
Proof.
  intros H. eexists. split; [apply td_neg_eq; exact H|]. split; [apply neg_wf; exact H|]. rewrite td_neg_eq by (apply neg_wf; exact H).
  cbn [times delta_obj]. rewrite neg_times_neg, neg_delta_neg. destruct td; reflexivity.
Qed.

Lemma td_sub_add_neg shift t td n : wf_td td -> td_neg td = Ok n -> td_rsub shift t td = td_radd shift t n.
Proof.
  intros H Hn. rewrite (td_neg_eq _ H) in Hn. injection Hn as <-. unfold td_rsub, td_radd. cbn [times delta_obj]. rewrite neg_times_keys.
  destruct (mem_str "o" (map fst (times td))); [reflexivity|]. destruct (delta_obj td); cbn [sub_delta add_delta neg_delta]; try reflexivity.
Qed.

(** ** rounding *)
Lemma floor_greatest w t : (0 < w)%Z -> greatest_multiple w t (floor_to w t).
Proof.
  intros H. unfold greatest_multiple, floor_to. pose proof (Z.div_mod t w). pose proof (Z.mod_pos_bound t w H). split; [eauto|]. split; [nia|].
  intros k Hk. assert (k <= t / w)%Z by (apply Z.div_le_lower_bound; lia). nia.
Qed.
Lemma floor_near w t : (0 < w)%Z -> (t - w < floor_to w t <= t)%Z.
Proof. intros H. unfold floor_to. pose proof (Z.div_mod t w). pose proof (Z.mod_pos_bound t w H). nia. Qed.
Lemma floor_idem w t : (0 < w)%Z -> floor_to w (floor_to w t) = floor_to w t.
Proof. intros H. unfold floor_to. rewrite Z.div_mul by lia. reflexivity. Qed.

Lemma unit_ns_pos u : In u absolute_units -> (0 < unit_ns u)%Z.
Proof. intros H. cbn in H. repeat (destruct H as [<-|H]; [reflexivity|]). destruct H. Qed.

(** ** parsing *)
Lemma span_app p s t : (forall a, In a (list_ascii_of_string s) -> p a = true) ->
  match t with EmptyString => True | String a _ => p a = false end -> span p (s ++ t)%string = (s, t).
Proof.
  induction s as [|a s IH]; intros Hs Ht; cbn [append].
  - destruct t as [|b t]; cbn [span]; [reflexivity|]. rewrite Ht. reflexivity.
  - cbn [span]. rewrite (Hs a (or_introl eq_refl)). rewrite IH; [reflexivity | intros; apply Hs; right; assumption | exact Ht].
Qed.
Lemma digits_uint u a : In a (list_ascii_of_string (NilEmpty.string_of_uint u)) -> is_digit a = true.
Proof. induction u; cbn; try contradiction; intros [<-|H]; try reflexivity; auto. Qed.

Lemma string_of_Z_uint v : (0 <= v)%Z -> exists u, string_of_Z v = NilEmpty.string_of_uint u /\ Z.of_uint u = v /\ u <> Decimal.Nil.
Proof.
  intros H. unfold string_of_Z. pose proof (DecimalZ.of_to v) as Hv. destruct (Z.to_int v) as [u|u] eqn:E.
  - exists u. split; [reflexivity|]. split; [exact Hv|]. intros ->. destruct v as [|p|p]; cbn in E; try discriminate.
  - exfalso. destruct v; cbn in E; try discriminate. lia.
Qed.

Lemma readable_alpha u r a : In (u, r) readable_units -> In a (list_ascii_of_string r) -> is_alpha a = true.
Proof. intros H. cbn in H. repeat (destruct H as [E|H]; [injection E as <- <-; cbn; intros Ha; repeat (destruct Ha as [<-|Ha]; [reflexivity|]); destruct Ha |]). destruct H. Qed.

Lemma append_nil_r s : (s ++ "")%string = s.
Proof. induction s; cbn; congruence. Qed.

Lemma parse_spelling v r u rd : (0 <= v)%Z -> In (u, rd) readable_units -> In r (spellings u rd) ->
  parse_timedelta (string_of_Z v ++ " " ++ r)%string = make_td [(r, v)].
Proof.
  intros Hv Hu Hr. destruct (string_of_Z_uint v Hv) as (d & -> & Hd & Hn). unfold parse_timedelta.
  rewrite span_app; [|apply digits_uint | reflexivity].
  assert (r <> "" /\ (forall a, In a (list_ascii_of_string r) -> is_alpha a = true)) as [Hr0 Hra].
  { cbn in Hu. repeat (destruct Hu as [E|Hu]; [injection E as <- <-; cbn in Hr; repeat (destruct Hr as [<-|Hr]; [split; [discriminate | intros a Ha; cbn in Ha; repeat (destruct Ha as [<-|Ha]; [reflexivity|]); destruct Ha]|]); destruct Hr |]). destruct Hu. }
  rewrite (span_app _ " " r); [| intros a [<-|[]]; reflexivity |].
  2: { destruct r as [|a r]; [exact I|]. specialize (Hra a (or_introl eq_refl)). destruct (Ascii.eqb_spec a " ") as [->|]; [discriminate | reflexivity]. }
  pose proof (span_app is_alpha r "" Hra I) as Hs. rewrite append_nil_r in Hs. rewrite Hs.
  assert ((NilEmpty.string_of_uint d =? "") = false) as ->.
  { destruct d; try reflexivity. congruence. }
  destruct (String.eqb_spec r "") as [|_]; [contradiction|]. cbn [orb negb String.eqb].
  unfold int_of_digits. rewrite NilEmpty.usu. cbn [bind]. rewrite Hd. reflexivity.
Qed.

(** ** make_temporal_cutoffs *)
Lemma range_back_nth stop w n i : i < n -> nth_error (range_back stop w n) i = Some (stop - Z.of_nat (n - 1 - i) * w)%Z.
Proof.
  intros H. unfold range_back. rewrite nth_error_map. rewrite (nth_error_nth' _ 0) by (rewrite seq_length; exact H). rewrite seq_nth by exact H. reflexivity.
Qed.
Lemma range_back_length stop w n : List.length (range_back stop w n) = n.
Proof. unfold range_back. rewrite map_length, seq_length. reflexivity. Qed.
Lemma nth_error_lt {A} (l : list A) i a : nth_error l i = Some a -> i < List.length l.
Proof. intros H. apply nth_error_Some. congruence. Qed.
Lemma range_back_spaced stop w n : spaced w (range_back stop w n).
Proof.
  intros i a b Ha Hb. pose proof (nth_error_lt _ _ _ Hb) as Hl. rewrite range_back_length in Hl.
  rewrite range_back_nth in Ha by lia. rewrite range_back_nth in Hb by lia. injection Ha as <-. injection Hb as <-.
  replace (Z.of_nat (n - 1 - i)) with (Z.of_nat (n - 1 - S i) + 1)%Z by lia. lia.
Qed.
Lemma range_up_nth s stop w i : (0 < w)%Z -> (s <= stop)%Z -> i < S (Z.to_nat ((stop - s) / w)) ->
  nth_error (range_up s stop w) i = Some (s + Z.of_nat i * w)%Z.
Proof.
  intros Hw Hs H. unfold range_up. destruct (Z.ltb_spec stop s); [lia|]. rewrite nth_error_map.
  rewrite (nth_error_nth' _ 0) by (rewrite seq_length; exact H). rewrite seq_nth by exact H. reflexivity.
Qed.
Lemma range_up_length s stop w : (s <= stop)%Z -> List.length (range_up s stop w) = S (Z.to_nat ((stop - s) / w)).
Proof. intros Hs. unfold range_up. destruct (Z.ltb_spec stop s); [lia|]. rewrite map_length, seq_length. reflexivity. Qed.

Lemma combine_seq_snd {A} (l : list A) k : map snd (combine (seq k (List.length l)) l) = l.
Proof. revert k. induction l as [|a l IH]; intros k; cbn; [reflexivity|]. rewrite IH. reflexivity. Qed.

(** every instance contributes one block *)
Lemma nth_combine_seq {A} (l : list A) : forall k i x, nth_error l i = Some x -> nth_error (combine (seq k (List.length l)) l) i = Some (k + i, x).
Proof.
  induction l as [|a l IH]; intros k i x Hx; destruct i; cbn in *; try discriminate.
  - rewrite Nat.add_0_r. congruence.
  - rewrite (IH (S k) i x Hx). do 2 f_equal. lia.
Qed.
Lemma Forall2_nth {A B} (R : A -> B -> Prop) l l' : Forall2 R l l' -> forall i a b, nth_error l i = Some a -> nth_error l' i = Some b -> R a b.
Proof. induction 1; intros i a b Ha Hb; destruct i; cbn in *; try discriminate; [congruence | eauto]. Qed.

Lemma temporal_blocks ids cuts window num start out :
  make_temporal_cutoffs ids cuts window num start = Ok out ->
  exists parts, out = List.concat parts /\ List.length parts = List.length (combine ids cuts) /\
    forall i id t part, nth_error (combine ids cuts) i = Some (id, t) -> nth_error parts i = Some part ->
      temporal_block window num start i id t = Ok part.
Proof.
  intros H. unfold make_temporal_cutoffs in H.
  set (items := combine (seq 0 (List.length (combine ids cuts))) (combine ids cuts)) in H.
  assert (exists parts, mapM (fun it => temporal_block window num start (fst it) (fst (snd it)) (snd (snd it))) items = Ok parts /\ out = List.concat parts) as (parts & Hp & ->).
  { destruct window as [w|], num as [n|], start as [ss|]; try discriminate H; apply bind_Ok in H as (parts & Hp & H); destruct parts as [|p parts]; try discriminate H;
      injection H as <-; eauto. }
  exists parts. split; [reflexivity|]. apply mapM_Ok_Forall2 in Hp.
  assert (List.length items = List.length parts) as Hl by (clear -Hp; induction Hp; cbn; congruence).
  unfold items in Hl. rewrite combine_length, seq_length, Nat.min_id in Hl. split; [symmetry; exact Hl|]. intros i id t part Hi Hpart.
  pose proof (Forall2_nth _ _ _ Hp i _ _ (nth_combine_seq _ 0 i _ Hi) Hpart) as HH. exact HH.
Qed.

(** ** versions *)
Lemma append_assoc a b c : ((a ++ b) ++ c)%string = (a ++ b ++ c)%string.
Proof. induction a; cbn; congruence. Qed.
Definition dot_free (s : string) := forall a, In a (list_ascii_of_string s) -> a <> "."%char.
Lemma split_go_app s : forall acc t, dot_free s -> split_dots_go (s ++ t) acc = split_dots_go t (acc ++ s)%string.
Proof.
  induction s as [|a s IH]; intros acc t H; cbn [append].
  - rewrite append_nil_r. reflexivity.
  - cbn [split_dots_go]. destruct (Ascii.eqb_spec a ".") as [E|_]; [exfalso; apply (H a (or_introl eq_refl)); exact E|].
    rewrite IH by (intros b Hb; apply H; right; exact Hb). rewrite append_assoc. reflexivity.
Qed.
Lemma split_dots_concat l : l <> [] -> Forall dot_free l -> split_dots (String.concat "." l) = l.
Proof.
  unfold split_dots. induction l as [|s l IH]; intros Hn H; [congruence|]. inversion H; subst. destruct l as [|s' l].
  - cbn [String.concat]. rewrite <- (append_nil_r s) at 1. rewrite split_go_app by assumption. reflexivity.
  - change (String.concat "." (s :: s' :: l)) with (s ++ String "."%char (String.concat "." (s' :: l)))%string.
    rewrite split_go_app by assumption. cbn [append split_dots_go]. rewrite Ascii.eqb_refl. rewrite IH by (assumption || discriminate). reflexivity.
Qed.
Definition num_str (n : nat) := string_of_Z (Z.of_nat n).
Lemma num_dot_free n : dot_free (num_str n).
Proof.
  unfold num_str. destruct (string_of_Z_uint (Z.of_nat n)) as (u & -> & _ & _); [lia|]. intros a Ha. apply digits_uint in Ha. intros ->. discriminate.
Qed.
Lemma dotted_split v : v <> [] -> split_dots (dotted v) = map num_str v.
Proof.
  intros H. unfold dotted. apply split_dots_concat; [destruct v; [congruence | discriminate]|]. apply Forall_forall. intros s Hs. apply in_map_iff in Hs as (n & <- & _). apply num_dot_free.
Qed.
Lemma digit_cases n : n <= 9 -> In n (seq 0 10).
Proof. intros H. apply in_seq. lia. Qed.
Lemma digit_compare a b : a <= 9 -> b <= 9 -> String.compare (num_str a) (num_str b) = Nat.compare a b.
Proof.
  intros Ha Hb. apply digit_cases in Ha, Hb.
  assert (forallb (fun a => forallb (fun b => match String.compare (num_str a) (num_str b), Nat.compare a b with Eq, Eq | Lt, Lt | Gt, Gt => true | _, _ => false end) (seq 0 10)) (seq 0 10) = true) as H by (vm_compute; reflexivity).
  rewrite forallb_forall in H. specialize (H _ Ha). rewrite forallb_forall in H. specialize (H _ Hb).
  destruct (String.compare _ _), (Nat.compare _ _); congruence.
Qed.
Lemma newer_digits a : forall b, List.length a = List.length b -> Forall (fun n => n <= 9) a -> Forall (fun n => n <= 9) b ->
  newer (map num_str a) (map num_str b) = Ok (version_older a b).
Proof.
  induction a as [|x a IH]; intros [|y b] Hl Ha Hb; cbn [map newer version_older existsb List.length] in *; try discriminate; [reflexivity|].
  inversion Ha; inversion Hb; subst. rewrite digit_compare by assumption. destruct (Nat.compare_spec x y) as [->|H|H].
  - rewrite Nat.eqb_refl. apply IH; auto.
  - destruct (Nat.eqb_spec x y); [lia|]. f_equal. symmetry. apply Nat.ltb_lt. exact H.
  - destruct (Nat.eqb_spec x y); [lia|]. f_equal. symmetry. apply Nat.ltb_ge. lia.
Qed.
Lemma compare_refl s : String.compare s s = Eq.
Proof. induction s as [|a s IH]; cbn [String.compare]; [reflexivity|]. unfold Ascii.compare. rewrite N.compare_refl. exact IH. Qed.
Lemma newer_refl l : newer l l = Ok false.
Proof. induction l as [|s l IH]; cbn [newer]; [reflexivity|]. rewrite compare_refl. exact IH. Qed.
