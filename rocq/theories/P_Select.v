(** C34-C37: feature selection. *)
From Coq Require Import QArith.
From Verif Require Import Base BaseFacts M_Schema M_Feature M_Select S_Select.
Local Close Scope Q_scope.

(** ** lemmas *)
Lemma to_dict_go {V} (g : list val -> V) m : forall d, NoDup (map fst d ++ map fst m) ->
  fold_left (fun d c => dset String.eqb (fst c) (g (snd c)) d) m d = d ++ map (fun c => (fst c, g (snd c))) m.
Proof.
  induction m as [|c m IH]; intros d H; cbn [fold_left map]; [rewrite app_nil_r; reflexivity|].
  assert (dset String.eqb (fst c) (g (snd c)) d = d ++ [(fst c, g (snd c))]) as ->.
  { assert (~ In (fst c) (map fst d)) as Hn.
    { intros Hin. cbn [map] in H. apply NoDup_remove_2 in H. apply H. apply in_or_app; left; exact Hin. }
    clear -Hn. induction d as [|[k v] d IH]; cbn [dset app]; [reflexivity|]. destruct (String.eqb_spec (fst c) k) as [E|_]; [exfalso; apply Hn; left; symmetry; exact E|].
    rewrite IH; [reflexivity|]. intros Hin. apply Hn. right. exact Hin. }
  rewrite IH; [rewrite <- app_assoc; reflexivity|]. rewrite map_app, <- app_assoc. exact H.
Qed.
Lemma to_dict_eq {V} (g : list val -> V) m : NoDup (map fst m) -> to_dict g m = map (fun c => (fst c, g (snd c))) m.
Proof. intros H. unfold to_dict. rewrite to_dict_go; [reflexivity | exact H]. Qed.

Lemma select_skip k c m : fst c <> k -> filter (fun c' : string * list val => String.eqb (fst c') k) (c :: m) = filter (fun c' => String.eqb (fst c') k) m.
Proof. intros H. cbn [filter]. destruct (String.eqb_spec (fst c) k); [contradiction | reflexivity]. Qed.

Lemma select_cons_other keep c m : ~ In (fst c) keep -> select keep (c :: m) = select keep m.
Proof.
  intros H. unfold select. induction keep as [|k keep IH]; cbn [flat_map]; [reflexivity|]. rewrite select_skip by (intros E; apply H; left; symmetry; exact E).
  rewrite IH; [reflexivity|]. intros Hin. apply H. right. exact Hin.
Qed.

Lemma filter_fst_none k (m : fmatrix) : ~ In k (map fst m) -> filter (fun c => String.eqb (fst c) k) m = [].
Proof.
  induction m as [|c m IH]; intros H; cbn [filter]; [reflexivity|]. destruct (String.eqb_spec (fst c) k) as [E|_]; [exfalso; apply H; left; exact E|].
  apply IH. intros Hin. apply H. right. exact Hin.
Qed.

Lemma select_filter p m : NoDup (map fst m) -> select (map fst (filter p m)) m = filter p m.
Proof.
  induction m as [|c m IH]; intros H; cbn [filter map]; [reflexivity|]. inversion H as [|x l Hn Hm]; subst. destruct (p c) eqn:E.
  - cbn [map]. unfold select at 1. cbn [flat_map]. fold (select (map fst (filter p m)) (c :: m)). cbn [filter]. rewrite String.eqb_refl.
    rewrite (filter_fst_none _ _ Hn). cbn [app]. f_equal. rewrite select_cons_other; [apply IH; exact Hm|].
    intros Hin. apply Hn. apply in_map_iff in Hin as (c' & E' & Hc'). apply filter_In in Hc' as [Hc' _]. rewrite <- E'. apply in_map. exact Hc'.
  - rewrite select_cons_other; [apply IH; exact Hm|].
    intros Hin. apply Hn. apply in_map_iff in Hin as (c' & E' & Hc'). apply filter_In in Hc' as [Hc' _]. rewrite <- E'. apply in_map. exact Hc'.
Qed.

Lemma map_fst_filter_map {V} (g : list val -> V) (q : V -> bool) (m : fmatrix) :
  map fst (filter (fun nc => q (snd nc)) (map (fun c => (fst c, g (snd c))) m)) = map fst (filter (fun c => q (g (snd c))) m).
Proof. induction m as [|c m IH]; cbn [map filter snd]; [reflexivity|]. destruct (q (g (snd c))); cbn [map fst]; rewrite IH; reflexivity. Qed.

Lemma select_dict {V} (g : list val -> V) (q : V -> bool) m : NoDup (map fst m) ->
  select (map fst (filter (fun nc => q (snd nc)) (to_dict g m))) m = filter (fun c => q (g (snd c))) m.
Proof. intros H. rewrite (to_dict_eq g m H), map_fst_filter_map. apply select_filter. exact H. Qed.

(** ** C34 *)
Lemma null_mean_cmp col t : col <> [] ->
  mean_le (null_mean col) t = (match null_fraction_cmp col t with Gt => false | _ => true end) /\
  mean_lt (null_mean col) t = (match null_fraction_cmp col t with Lt => true | _ => false end).
Proof.
  intros H. unfold null_mean, null_fraction_cmp, rows_of, nulls. destruct (List.length col) as [|k] eqn:E; [destruct col; [congruence | discriminate]|].
  cbn [mean_le mean_lt]. set (n := Z.of_nat (List.length (filter is_null col))).
  assert (Zpos (Pos.of_succ_nat k) = Z.of_nat (S k)) as Ek by lia.
  split.
  - destruct (Qle_bool _ t) eqn:Eq.
    + apply Qle_bool_iff in Eq. unfold Qle in Eq. cbn [Qnum Qden] in Eq. rewrite Ek in Eq. destruct (Z.compare_spec (n * Zpos (Qden t)) (Qnum t * Z.of_nat (S k))); try reflexivity. lia.
    + destruct (Z.compare_spec (n * Zpos (Qden t)) (Qnum t * Z.of_nat (S k))) as [Hc|Hc|Hc]; [| |reflexivity]; exfalso;
        (assert (Qle_bool (n # Pos.of_succ_nat k) t = true) as Hx; [apply Qle_bool_iff; unfold Qle; cbn [Qnum Qden]; rewrite Ek; lia | congruence]).
  - destruct (Qle_bool t _) eqn:Eq; cbn [negb].
    + apply Qle_bool_iff in Eq. unfold Qle in Eq. cbn [Qnum Qden] in Eq. rewrite Ek in Eq. destruct (Z.compare_spec (n * Zpos (Qden t)) (Qnum t * Z.of_nat (S k))); try reflexivity. lia.
    + destruct (Z.compare_spec (n * Zpos (Qden t)) (Qnum t * Z.of_nat (S k))) as [Hc|Hc|Hc]; [|reflexivity|]; exfalso;
        (assert (Qle_bool t (n # Pos.of_succ_nat k) = true) as Hx; [apply Qle_bool_iff; unfold Qle; cbn [Qnum Qden]; rewrite Ek; lia | congruence]).
Qed.

(** For a matrix with rows: columns above the threshold go, columns below it stay, and at threshold 0 exactly the
    columns without nulls stay. Missing: a column exactly at a positive threshold should stay and goes. *)
Theorem C34_partial : forall rels t m fs, NoDup (map fst m) -> (forall c, In c m -> snd c <> []) ->
  (0 <= t)%Q -> (t <= 1)%Q ->
  exists m' fs', remove_highly_null rels t m fs = Ok (m', fs') /\
    keeps_exactly (fun c => match null_fraction_cmp (snd c) t with Lt => True | Eq => (t == 0)%Q | Gt => False end) m m'.
Proof.
  intros rels t m fs Hn Hr H0 H1. unfold remove_highly_null.
  rewrite (proj2 (Qle_bool_iff 0 t) H0), (proj2 (Qle_bool_iff t 1) H1). cbn [negb orb]. eexists _, _. split; [reflexivity|].
  rewrite (select_dict null_mean (fun p => if Qeq_bool t 0 then mean_le p t else mean_lt p t) m Hn).
  eexists. split; [reflexivity|]. intros c Hc. cbn beta. destruct (null_mean_cmp (snd c) t (Hr c Hc)) as [-> ->].
  destruct (Qeq_bool t 0) eqn:Et.
  - apply Qeq_bool_iff in Et. destruct (null_fraction_cmp (snd c) t); intuition congruence.
  - assert (~ (t == 0)%Q) by (intros E; apply Qeq_bool_iff in E; congruence). destruct (null_fraction_cmp (snd c) t); intuition congruence.
Qed.

Theorem C34_threshold_checked : forall rels t m fs, ~ ((0 <= t)%Q /\ (t <= 1)%Q) -> remove_highly_null rels t m fs = Err ValueError.
Proof.
  intros rels t m fs H. unfold remove_highly_null. destruct (Qle_bool 0 t) eqn:E0; [|reflexivity]. destruct (Qle_bool t 1) eqn:E1; [|reflexivity].
  exfalso. apply H. split; apply Qle_bool_iff; assumption.
Qed.

Local Open Scope string_scope.
Local Open Scope list_scope.
Definition sel_demo : fmatrix := [("a", [VNum 1; VNull]); ("b", [VNum 1; VNum 2]); ("c", [VNull; VNull])].

Example C34_nonvacuous : NoDup (map fst sel_demo) /\ (forall c, In c sel_demo -> snd c <> []) /\
  remove_highly_null [] (3 # 4) sel_demo [] = Ok ([("a", [VNum 1; VNull]); ("b", [VNum 1; VNum 2])], []) /\
  remove_highly_null [] 0 sel_demo [] = Ok ([("b", [VNum 1; VNum 2])], []).
Proof.
  split; [repeat constructor; cbn; intuition discriminate|]. split; [|split; vm_compute; reflexivity].
  intros c Hc. cbn in Hc. repeat (destruct Hc as [<-|Hc]; [discriminate|]). destruct Hc.
Qed.

(** Half of the column is null and the threshold is one half: nothing exceeds it, yet the column is removed.  Without
    rows every column is removed. *)
Theorem C34_at_threshold_refuted :
  null_fraction_cmp [VNum 1; VNull] (1 # 2) = Eq /\
  remove_highly_null [] (1 # 2) [("a", [VNum 1; VNull])] [] = Ok ([], []) /\
  remove_highly_null [] 1 [("a", [])] [] = Ok ([], []).
Proof. repeat split; vm_compute; reflexivity. Qed.

(** ** C35 *)
Lemma nunique_two dropna col : (1 <? nunique dropna col)%nat = true <-> two_values (negb dropna) col.
Proof.
  unfold nunique. set (l := if dropna then _ else col).
  assert (forall v, In v l <-> In v col /\ (negb dropna = false -> v <> VNull)) as Hl.
  { intros v. unfold l. destruct dropna; cbn [negb]; [rewrite filter_In|]; split.
    - intros [H1 H2]. split; [exact H1|]. intros _ ->. discriminate.
    - intros [H1 H2]. split; [exact H1|]. destruct v; try reflexivity. exfalso; apply H2; reflexivity.
    - intros H. split; [exact H | discriminate].
    - tauto. }
  assert ((1 < List.length (dedup_by val_eqb [] l))%nat <-> exists a b, In a l /\ In b l /\ a <> b) as Hd.
  { pose proof (dedup_NoDup val_eqb val_eqb_spec [] l) as Hnd.
    assert (forall v, In v (dedup_by val_eqb [] l) <-> In v l) as Hin by (intros v; rewrite (dedup_In val_eqb val_eqb_spec); cbn; tauto). split.
    - intros H. destruct (dedup_by val_eqb [] l) as [|a [|b r]] eqn:E; cbn in H; try lia. exists a, b.
      split; [apply Hin; left; reflexivity|]. split; [apply Hin; right; left; reflexivity|]. inversion Hnd; subst. intros ->. apply H2. left; reflexivity.
    - intros (a & b & Ha & Hb & Hab). apply Hin in Ha, Hb. destruct (dedup_by val_eqb [] l) as [|x [|y r]]; cbn in *; try tauto; try lia.
      destruct Ha as [->|[]], Hb as [->|[]]. congruence. }
  rewrite Nat.ltb_lt, Hd. unfold two_values. split.
  - intros (a & b & Ha & Hb & Hab). apply Hl in Ha as [Ha1 Ha2], Hb as [Hb1 Hb2]. exists a, b. repeat split; auto.
  - intros (a & b & Ha & Hb & Hab & H). exists a, b. rewrite !Hl. repeat split; auto; apply H; assumption.
Qed.

(** A column is kept exactly when it has two different values, nulls counting when asked. *)
Theorem C35_single_value_exact : forall rels count_nan m fs, NoDup (map fst m) ->
  keeps_exactly (fun c => two_values count_nan (snd c)) m (fst (remove_single_value rels count_nan m fs)).
Proof.
  intros rels cn m fs H. unfold remove_single_value, apply_selection. cbn [fst].
  rewrite (select_dict (nunique (negb cn)) (fun n => 1 <? n)%nat m H). eexists. split; [reflexivity|]. intros c _. cbn beta.
  rewrite nunique_two, negb_involutive. tauto.
Qed.

(** the older function keeps exactly the columns with two different values, nulls counting *)
Theorem C35_low_information_exact : forall rels m fs, NoDup (map fst m) ->
  keeps_exactly (fun c => two_values true (snd c)) m (fst (remove_low_information rels m fs)).
Proof.
  intros rels m fs H. unfold remove_low_information. cbn [fst]. rewrite select_filter by exact H. eexists. split; [reflexivity|]. intros c _. cbn beta.
  rewrite andb_true_iff, (nunique_two false). cbn [negb]. split; [tauto|]. intros (a & b & Ha & Hb & Hab & Hx). split; [exists a, b; auto|].
  apply Nat.ltb_lt. assert (exists v, In v (filter (fun v => negb (is_null v)) (snd c))) as (v & Hv).
  { destruct a; [exists b | eexists; apply filter_In; split; [exact Ha | reflexivity] ..]. apply filter_In. split; [exact Hb|]. destruct b; [congruence | reflexivity ..]. }
  destruct (filter _ (snd c)); [destruct Hv | cbn; lia].
Qed.

Example C35_nonvacuous :
  fst (remove_single_value [] true sel_demo []) = [("a", [VNum 1; VNull]); ("b", [VNum 1; VNum 2])] /\
  fst (remove_single_value [] false sel_demo []) = [("b", [VNum 1; VNum 2])].
Proof. split; vm_compute; reflexivity. Qed.

(** ** C36 *)
Lemma dropped_go_iff corr t l n : NoDup (map fst l) ->
  (In n (dropped_go corr t l) <-> exists x c y, l = x ++ c :: y /\ fst c = n /\ exists c', In c' y /\ high corr t (snd c) (snd c') = true).
Proof.
  induction l as [|c l IH]; intros Hn; cbn [dropped_go].
  - split; [intros [] | intros (x & c & y & E & _); destruct x; discriminate].
  - inversion Hn; subst. rewrite in_app_iff, IH by assumption. split.
    + intros [H|(x & c0 & y & -> & E & Hc)].
      * destruct (existsb _ l) eqn:E; [|destruct H]. destruct H as [<-|[]]. exists [], c, l. split; [reflexivity|]. split; [reflexivity|].
        apply existsb_exists in E. exact E.
      * exists (c :: x), c0, y. auto.
    + intros (x & c0 & y & E & Ec & Hc). destruct x as [|x0 x]; injection E as -> ->.
      * left. rewrite (proj2 (existsb_exists _ _) Hc). left. exact Ec.
      * right. exists x, c0, y. auto.
Qed.

Section Correlated.
  Variables (rels : list relationship) (numeric : list val -> bool) (corr : list val -> list val -> option Q).
  Variables (t : Q) (check keep_always : option (list string)) (m m' : fmatrix) (fs fs' : list feat).
  Hypothesis names : NoDup (map fst m).
  Hypothesis check_names : forall l, check = Some l -> NoDup l.
  Hypothesis ran : remove_highly_correlated rels numeric corr t check keep_always m fs = Ok (m', fs').

  (** the columns that are compared, in the order in which they are compared *)
  Definition compared : fmatrix :=
    filter (fun c => numeric (snd c)) (select (match check with Some l => l | None => map fst m end) m).

  Lemma select_perm_names l : NoDup l -> incl l (map fst m) -> map fst (select l m) = l /\ forall c, In c (select l m) <-> In c m /\ In (fst c) l.
  Proof.
    intros Hl Hi. split.
    - clear Hl. induction l as [|k l IH]; [reflexivity|]. unfold select. cbn [flat_map]. fold (select l m). rewrite map_app, IH by (intros x Hx; apply Hi; right; exact Hx).
      assert (map fst (filter (fun c => String.eqb (fst c) k) m) = [k]) as ->; [|reflexivity].
      assert (In k (map fst m)) as Hk by (apply Hi; left; reflexivity). clear -names Hk. induction m as [|c l IH]; [destruct Hk|]. cbn [filter map] in *. inversion names; subst.
      destruct (String.eqb_spec (fst c) k) as [E|E].
      + rewrite filter_fst_none by (rewrite <- E; assumption). cbn. congruence.
      + destruct Hk as [Hk|Hk]; [contradiction|]. apply IH; assumption.
    - intros c. unfold select. rewrite in_flat_map. split.
      + intros (k & Hk & Hc). apply filter_In in Hc as [Hc E]. apply String.eqb_eq in E. rewrite E. auto.
      + intros [Hc Hk]. exists (fst c). split; [exact Hk|]. apply filter_In. split; [exact Hc | apply String.eqb_refl].
  Qed.

  Lemma ran_inv : incl (match check with Some l => l | None => map fst m end) (map fst m) /\ NoDup (match check with Some l => l | None => map fst m end) /\
    m' = filter (fun c => (mem_str (fst c) (match keep_always with Some l => l | None => [] end) || negb (mem_str (fst c) (dropped corr t compared)))%bool) m.
  Proof.
    unfold remove_highly_correlated in ran. destruct (negb (Qle_bool 0 t) || negb (Qle_bool t 1))%bool; [discriminate|].
    apply bind_Ok in ran as (chk & Hc & Hr). assert (chk = (match check with Some l => l | None => map fst m end) /\ incl chk (map fst m)) as [Ec Hi].
    { destruct check as [l|]; [|injection Hc as <-; split; [reflexivity | apply incl_refl]].
      destruct (forallb _ l) eqn:E; [|discriminate]. injection Hc as <-. split; [reflexivity|]. intros x Hx. rewrite forallb_forall in E. apply mem_str_In. apply E. exact Hx. }
    rewrite <- Ec. split; [exact Hi|]. split; [rewrite Ec; destruct check as [l|] eqn:El; [apply check_names; reflexivity | exact names]|].
    injection Hr as <- _. assert (forall p, filter p (map fst m) = map fst (filter (fun c => p (fst c)) m)) as Hf.
    { intros p. generalize m as q. induction q as [|c q IH]; cbn; [reflexivity|]. destruct (p (fst c)); cbn; rewrite IH; reflexivity. }
    rewrite Hf. rewrite select_filter by exact names. unfold compared. rewrite Ec. reflexivity.
  Qed.

  Lemma compared_names : NoDup (map fst compared).
  Proof.
    destruct ran_inv as (Hi & Hn & _). unfold compared. destruct (select_perm_names _ Hn Hi) as [E _]. set (s := select _ m) in *. rewrite <- E in Hn. clear -Hn.
    induction s as [|c s IH]; cbn [filter map] in *; [constructor|]. inversion Hn; subst. destruct (numeric (snd c)); [|apply IH; assumption]. cbn [map]. constructor; [|apply IH; assumption].
    intros H. apply H1. apply in_map_iff in H as (c' & E & Hc'). apply filter_In in Hc' as [Hc' _]. rewrite <- E. apply in_map. exact Hc'.
  Qed.

  Lemma dropped_iff n : In n (dropped corr t compared) <-> exists c c', fst c = n /\ before c' c compared /\ high corr t (snd c) (snd c') = true.
  Proof.
    unfold dropped. rewrite dropped_go_iff by (rewrite map_rev; apply NoDup_rev; exact compared_names). split.
    - intros (x & c & y & E & Ec & c' & Hc' & Hh). exists c, c'. split; [exact Ec|]. split; [|exact Hh]. apply in_split in Hc' as (y1 & y2 & ->).
      apply (f_equal (@rev _)) in E. rewrite rev_involutive in E. exists (rev y2), (rev y1), (rev x). rewrite E. rewrite rev_app_distr. cbn [rev]. rewrite rev_app_distr. cbn [rev].
      rewrite <- !app_assoc. cbn [app]. rewrite <- ?app_assoc. reflexivity.
    - intros (c & c' & Ec & (x & y & z & E) & Hh). exists (rev z), c, (rev y ++ c' :: rev x). split.
      + rewrite E. rewrite rev_app_distr. cbn [rev]. rewrite rev_app_distr. cbn [rev]. rewrite <- !app_assoc. reflexivity.
      + split; [exact Ec|]. exists c'. split; [apply in_or_app; right; left; reflexivity | exact Hh].
  Qed.
End Correlated.

(** No two remaining compared columns are correlated (except columns kept on request); columns not compared and
    columns to keep stay; every removed column is correlated with a compared column to its left. Missing: that column may
    itself have been removed. *)
Lemma high_spec corr t a b : high corr t a b = true <-> correlated corr t a b.
Proof.
  unfold high, correlated. destruct (corr a b) as [c|]; split.
  - intros H. exists c. split; [reflexivity | apply Qle_bool_iff; exact H].
  - intros (c' & [= ->] & H). apply Qle_bool_iff. exact H.
  - discriminate.
  - intros (c' & [=] & _).
Qed.
Theorem C36_partial : forall rels numeric corr t check keep_always m m' fs fs',
  NoDup (map fst m) -> (forall l, check = Some l -> NoDup l) ->
  remove_highly_correlated rels numeric corr t check keep_always m fs = Ok (m', fs') ->
  let ka := match keep_always with Some l => l | None => [] end in
  let checked := match check with Some l => l | None => map fst m end in
  (exists keepb, m' = filter keepb m) /\
  (forall c, In c m -> In (fst c) ka \/ ~ In (fst c) checked \/ numeric (snd c) = false -> In c m') /\
  (forall c c', In c m' -> In c' m' -> before c' c (compared numeric check m) -> ~ In (fst c) ka -> ~ correlated corr t (snd c) (snd c')) /\
  (forall c, In c m -> ~ In c m' -> exists c', before c' c (compared numeric check m) /\ correlated corr t (snd c) (snd c')).
Proof.
  enough (forall rels numeric corr t check keep_always m m' fs fs',
    NoDup (map fst m) -> (forall l, check = Some l -> NoDup l) ->
    remove_highly_correlated rels numeric corr t check keep_always m fs = Ok (m', fs') ->
    let ka := match keep_always with Some l => l | None => [] end in
    let checked := match check with Some l => l | None => map fst m end in
    (exists keepb, m' = filter keepb m) /\
    (forall c, In c m -> In (fst c) ka \/ ~ In (fst c) checked \/ numeric (snd c) = false -> In c m') /\
    (forall c c', In c m' -> In c' m' -> before c' c (compared numeric check m) -> ~ In (fst c) ka -> high corr t (snd c) (snd c') = false) /\
    (forall c, In c m -> ~ In c m' -> exists c', before c' c (compared numeric check m) /\ high corr t (snd c) (snd c') = true)) as H.
  { intros rels numeric corr t check keep_always m m' fs fs' Hn Hcn Hr. destruct (H _ _ _ _ _ _ _ _ _ _ Hn Hcn Hr) as (H1 & H2 & H3 & H4). split; [exact H1|]. split; [exact H2|]. split.
    - intros c c' Hc Hc' Hb Hk Hx. specialize (H3 c c' Hc Hc' Hb Hk). apply high_spec in Hx. congruence.
    - intros c Hc Hd. destruct (H4 c Hc Hd) as (c' & Hb & Hx). exists c'. split; [exact Hb | apply high_spec; exact Hx]. }
  intros rels numeric corr t check keep_always m m' fs fs' Hn Hcn Hr ka checked.
  destruct (ran_inv _ _ _ _ _ _ _ _ _ _ Hn Hcn Hr) as (Hi & Hnc & Em). fold ka in Em. fold checked in Hi, Hnc.
  pose proof (dropped_iff _ _ _ _ _ _ _ _ _ _ Hn Hcn Hr) as Hd.
  assert (forall c, In c (compared numeric check m) <-> In c m /\ In (fst c) checked /\ numeric (snd c) = true) as Hcomp.
  { intros c. unfold compared. rewrite filter_In. fold checked. rewrite (proj2 (select_perm_names m Hn checked Hnc Hi) c). tauto. }
  assert (forall c c', In c m -> In c' m -> fst c = fst c' -> c = c') as Huniq.
  { clear -Hn. induction m as [|x m IH]; intros c c' Hc Hc' E; [destruct Hc|]. inversion Hn; subst. destruct Hc as [->|Hc], Hc' as [->|Hc']; auto.
    - exfalso. apply H1. rewrite E. apply in_map. exact Hc'.
    - exfalso. apply H1. rewrite <- E. apply in_map. exact Hc. }
  split; [eexists; exact Em|]. split; [|split].
  - intros c Hc Hor. rewrite Em. apply filter_In. split; [exact Hc|]. destruct (mem_str (fst c) (dropped corr t (compared numeric check m))) eqn:E; [|apply orb_true_r].
    apply mem_str_In in E. apply Hd in E as (c0 & c' & E & (x & y & z & Eb) & _).
    assert (In c0 (compared numeric check m)) as Hc0 by (rewrite Eb; apply in_or_app; right; right; apply in_or_app; right; left; reflexivity).
    apply Hcomp in Hc0 as (Hc0 & H1 & H2). rewrite (Huniq c0 c Hc0 Hc E) in H1, H2. destruct Hor as [Hk|[Hk|Hk]]; [|contradiction|congruence].
    rewrite (proj2 (mem_str_In _ _) Hk). reflexivity.
  - intros c c' Hc Hc' Hb Hk. destruct (high corr t (snd c) (snd c')) eqn:E; [|reflexivity]. exfalso.
    rewrite Em in Hc. apply filter_In in Hc as [_ Hc]. rewrite (proj2 (mem_str_nIn _ _) Hk) in Hc. cbn [orb] in Hc. apply negb_true_iff in Hc. apply mem_str_nIn in Hc. apply Hc. apply Hd. eauto.
  - intros c Hc Hnot. assert (In (fst c) (dropped corr t (compared numeric check m))) as Hdr.
    { destruct (mem_str (fst c) (dropped corr t (compared numeric check m))) eqn:E; [apply mem_str_In; exact E|]. exfalso. apply Hnot. rewrite Em. apply filter_In. split; [exact Hc|]. rewrite E. apply orb_true_r. }
    apply Hd in Hdr as (c0 & c' & E & Hb & Hh). assert (In c0 m) as Hc0.
    { destruct Hb as (x & y & z & Eb). assert (In c0 (compared numeric check m)) as H by (rewrite Eb; apply in_or_app; right; right; apply in_or_app; right; left; reflexivity). apply Hcomp in H. apply H. }
    rewrite (Huniq c0 c Hc0 Hc E) in Hb, Hh. eauto.
Qed.

(** a correlation with a chain: 1 ~ 2 ~ 3 but not 1 ~ 3 *)
Definition chain_corr (a b : list val) : option Q :=
  match a, b with
  | [VNum x], [VNum y] => Some (if (Z.abs (x - y) <=? 1)%Z then 1%Q else 0%Q)
  | _, _ => None
  end.
Definition chain : fmatrix := [("x", [VNum 1]); ("y", [VNum 2]); ("z", [VNum 3])].
Example C36_nonvacuous : exists m', NoDup (map fst chain) /\ remove_highly_correlated [] (fun _ => true) chain_corr (9 # 10) None (Some ["y"]) chain [] = Ok (m', []) /\
  map fst m' = ["x"; "y"].
Proof. eexists. split; [repeat constructor; cbn; intuition discriminate|]. split; vm_compute; reflexivity. Qed.

(** The third column is removed because of the second, which is removed too: nothing that remains is correlated with it. *)
Theorem C36_representative_refuted : exists m', remove_highly_correlated [] (fun _ => true) chain_corr (9 # 10) None None chain [] = Ok (m', []) /\
  In ("z", [VNum 3]) chain /\ ~ In ("z", [VNum 3]) m' /\
  forall c, In c m' -> ~ correlated chain_corr (9 # 10) [VNum 3] (snd c).
Proof.
  eexists. split; [vm_compute; reflexivity|]. split; [cbn; auto|]. split.
  - cbn. intuition discriminate.
  - cbn. intros c [<-|[]] Hx. apply high_spec in Hx. discriminate Hx.
Qed.

(** ** C37 *)
Lemma fnaming_len rels : forall f, List.length (fnames rels f) = fnout f.
Proof.
  assert (forall n name gen gens, List.length gens = n ->
    List.length (if Nat.eqb n 1 then [name] else if String.eqb name gen then gens else map (index_suffix name) (seq 0 (List.length gens))) = n) as Hm.
  { intros n name gen gens Hl. destruct (Nat.eqb_spec n 1) as [->|_]; [reflexivity|]. destruct (String.eqb name gen); [exact Hl|]. rewrite map_length, seq_length. exact Hl. }
  unfold fnames. fix IH 1. intros [e v nm|r b nm|p bs path uniq wh prev nm|p bs nm|p bs g nm|b n nm]; cbn [fnaming snd fnout]; try reflexivity; apply Hm; rewrite map_length; [apply IH | apply seq_length ..].
Qed.

Lemma slice_name rels f i : fname rels (FSlice f i None) = nth i (fnames rels f) ""%string.
Proof. reflexivity. Qed.
Lemma slice_names rels f i : fnames rels (FSlice f i None) = [nth i (fnames rels f) ""%string].
Proof. reflexivity. Qed.

Lemma single_names rels f : fnout f = 1 -> fnames rels f = [fname rels f].
Proof.
  unfold fnames, fname. intros H. destruct f as [e v nm|r b nm|p bs path uniq wh prev nm|p bs nm|p bs g nm|b n nm]; cbn [fnaming fst snd fnout] in *; try reflexivity; rewrite H; reflexivity.
Qed.

Lemma map_nth_seq {A} (l : list A) d : map (fun i => nth i l d) (seq 0 (List.length l)) = l.
Proof.
  induction l as [|a l IH]; [reflexivity|]. cbn [List.length seq map nth]. f_equal. rewrite <- seq_shift, map_map. exact IH.
Qed.

Definition all_kept rels (names : list string) (f : feat) : Prop := forall n, In n (fnames rels f) -> In n names.

(** what one given feature becomes *)
Definition sel_block rels (names : list string) (f : feat) : list feat :=
  if (1 <? fnout f)%nat then
    let slices := filter (fun s => mem_str (fname rels s) names) (map (fun i => FSlice f i None) (seq 0 (fnout f))) in
    if (List.length slices =? fnout f)%nat then [f] else slices
  else if mem_str (fname rels f) names then [f] else [].

Lemma slices_names rels names f :
  flat_map (fnames rels) (filter (fun s => mem_str (fname rels s) names) (map (fun i => FSlice f i None) (seq 0 (fnout f)))) =
  filter (fun n => mem_str n names) (fnames rels f).
Proof.
  rewrite <- (map_nth_seq (fnames rels f) ""%string). rewrite (fnaming_len rels f). induction (seq 0 (fnout f)) as [|i l IH]; [reflexivity|].
  cbn [map filter]. rewrite slice_name. destruct (mem_str (nth i (fnames rels f) "") names); [|exact IH]. cbn [flat_map]. rewrite IH, slice_names. reflexivity.
Qed.

Lemma filter_length_all {A} (p : A -> bool) l : List.length (filter p l) = List.length l -> filter p l = l.
Proof.
  induction l as [|a l IH]; intros H; [reflexivity|]. cbn [filter] in *. destruct (p a); cbn [List.length] in H; [f_equal; apply IH; lia|].
  assert (List.length (filter p l) <= List.length l) by (clear; induction l; cbn; [lia|]; destruct (p a); cbn; lia). lia.
Qed.

Lemma sel_block_spec rels names f : 0 < fnout f ->
  (all_kept rels names f -> sel_block rels names f = [f]) /\
  (~ all_kept rels names f -> forall g, In g (sel_block rels names f) -> exists i, i < fnout f /\ g = FSlice f i None) /\
  flat_map (fnames rels) (sel_block rels names f) = filter (fun n => mem_str n names) (fnames rels f).
Proof.
  intros H0. unfold sel_block. destruct (1 <? fnout f)%nat eqn:E.
  - cbv zeta. set (sl := filter _ (map _ (seq 0 (fnout f)))). pose proof (slices_names rels names f) as Hs. fold sl in Hs.
    assert (List.length sl = List.length (filter (fun n => mem_str n names) (fnames rels f))) as Hl.
    { rewrite <- Hs. assert (Forall (fun s => List.length (fnames rels s) = 1) sl) as HF.
      { apply Forall_forall. intros s Hin. unfold sl in Hin. apply filter_In in Hin as [Hin _]. apply in_map_iff in Hin as (i & <- & _). reflexivity. }
      clear -HF. induction HF as [|s l H HF IH]; [reflexivity|]. cbn [flat_map List.length]. rewrite app_length, H, <- IH. reflexivity. }
    assert (List.length sl = fnout f <-> all_kept rels names f) as Hiff.
    { rewrite Hl. split; intros H.
      - rewrite <- (fnaming_len rels f) in H. apply filter_length_all in H. intros n Hn. rewrite <- H in Hn. apply filter_In in Hn as [_ Hn]. apply mem_str_In. exact Hn.
      - rewrite <- (fnaming_len rels f). f_equal. clear -H. unfold all_kept in H. induction (fnames rels f) as [|n l IH]; [reflexivity|]. cbn [filter]. rewrite (proj2 (mem_str_In _ _) (H n (or_introl eq_refl))). f_equal. apply IH. intros; apply H; right; assumption. }
    destruct (Nat.eqb_spec (List.length sl) (fnout f)) as [El|El].
    + split; [auto|]. split; [tauto|]. cbn [flat_map]. rewrite app_nil_r. symmetry. apply filter_length_all. rewrite <- Hl, El. symmetry. apply fnaming_len.
    + split; [tauto|]. split; [|exact Hs]. intros _ g Hg. unfold sl in Hg. apply filter_In in Hg as [Hg _]. apply in_map_iff in Hg as (i & <- & Hi). apply in_seq in Hi. exists i. split; [lia | reflexivity].
  - assert (fnout f = 1) as E1 by (apply Nat.ltb_ge in E; lia). pose proof (single_names rels f E1) as Hn. unfold all_kept. rewrite Hn. cbn [filter].
    destruct (mem_str (fname rels f) names) eqn:Em.
    + split; [auto|]. split; [|cbn [flat_map]; rewrite Hn; reflexivity]. intros H. exfalso. apply H. intros n [<-|[]]. apply mem_str_In. exact Em.
    + split; [|split; [|reflexivity]].
      * intros H. apply mem_str_nIn in Em. exfalso. apply Em. apply H. left; reflexivity.
      * intros _ g [].
Qed.

(** A given feature whose columns are all kept is returned; of the others only slices are returned; and the columns
    of the returned features are, in order, the given features' columns that are in the returned matrix. *)
Theorem C37_features_match_matrix : forall rels keep m fs, (forall f, In f fs -> 0 < fnout f) ->
  let m' := fst (apply_selection rels keep m fs) in
  let fs' := snd (apply_selection rels keep m fs) in
  (forall f, In f fs -> all_kept rels (map fst m') f -> In f fs') /\
  (forall g, In g fs' -> exists f, In f fs /\
     ((g = f /\ all_kept rels (map fst m') f) \/ (~ all_kept rels (map fst m') f /\ exists i, i < fnout f /\ g = FSlice f i None))) /\
  flat_map (fnames rels) fs' = filter (fun n => mem_str n (map fst m')) (flat_map (fnames rels) fs).
Proof.
  intros rels keep m fs H0 m' fs'. unfold fs', apply_selection. cbn [snd]. fold m'. change (fst (apply_selection rels keep m fs)) with (select keep m) in m'.
  change (select_features rels (map fst (select keep m)) fs) with (flat_map (sel_block rels (map fst m')) fs).
  assert (forall f, {all_kept rels (map fst m') f} + {~ all_kept rels (map fst m') f}) as Hdec.
  { intros f. unfold all_kept. destruct (forallb (fun n => mem_str n (map fst m')) (fnames rels f)) eqn:E.
    - left. intros n Hn. rewrite forallb_forall in E. apply mem_str_In. apply E. exact Hn.
    - right. intros H. assert (forallb (fun n => mem_str n (map fst m')) (fnames rels f) = true); [|congruence]. apply forallb_forall. intros n Hn. apply mem_str_In. apply H. exact Hn. }
  split; [|split].
  - intros f Hf Hk. apply in_flat_map. exists f. split; [exact Hf|]. rewrite (proj1 (sel_block_spec rels (map fst m') f (H0 f Hf)) Hk). left; reflexivity.
  - intros g Hg. apply in_flat_map in Hg as (f & Hf & Hg). exists f. split; [exact Hf|]. destruct (sel_block_spec rels (map fst m') f (H0 f Hf)) as (Ha & Hb & _).
    destruct (Hdec f) as [Hk|Hk]; [left | right].
    + rewrite (Ha Hk) in Hg. destruct Hg as [<-|[]]. auto.
    + split; [exact Hk|]. apply Hb; assumption.
  - clear fs' Hdec. induction fs as [|f fs IH]; [reflexivity|]. cbn [flat_map]. rewrite flat_map_app, filter_app, IH by (intros; apply H0; right; assumption).
    f_equal. apply (proj2 (proj2 (sel_block_spec rels (map fst m') f (H0 f (or_introl eq_refl))))).
Qed.

(** a primitive with two outputs *)
Definition p_pair : prim := mkPrim "Pair" 2 false false VNull false (fun _ => "PAIR") (fun _ _ _ _ _ => "") (fun _ _ => []) (fun _ _ => []).
Definition f_pair : feat := FTrans p_pair [FIdent "e" "v" None] None.
Example C37_nonvacuous :
  fnames [] f_pair = ["PAIR[0]"; "PAIR[1]"] /\
  snd (apply_selection [] ["PAIR[0]"; "v"] [("PAIR[0]", [VNum 1]); ("PAIR[1]", [VNull]); ("v", [VNum 2])] [f_pair; FIdent "e" "v" None]) =
    [FSlice f_pair 0 None; FIdent "e" "v" None] /\
  snd (apply_selection [] ["PAIR[0]"; "PAIR[1]"] [("PAIR[0]", [VNum 1]); ("PAIR[1]", [VNull]); ("v", [VNum 2])] [f_pair; FIdent "e" "v" None]) = [f_pair].
Proof. repeat split; reflexivity. Qed.

(** The older function drops a feature with several columns although all of them are kept. *)
Theorem C37_low_information_refuted :
  let m := [("PAIR[0]", [VNum 1; VNum 2]); ("PAIR[1]", [VNum 3; VNum 4])] in
  remove_low_information [] m [f_pair] = (m, []) /\ all_kept [] (map fst m) f_pair.
Proof. split; [reflexivity|]. intros n Hn. exact Hn. Qed.

Print Assumptions C34_partial.
Print Assumptions C35_single_value_exact.
Print Assumptions C36_partial.
Print Assumptions C37_features_match_matrix.
