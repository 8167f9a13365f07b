From Coq Require Import Sorting.Permutation Sorting.Sorted.
From Verif Require Import Base BaseFacts M_Schema M_Table M_LastTime L_LastTime M_Entities S_Entities S_Calls.
From Verif Require Import P_Equality L_Entities.
Local Open Scope string_scope.
Local Open Scope list_scope.

Lemma nodup_vals_spec l : nodup_vals l = true <-> NoDup l.
Proof.
  induction l as [|v l IH]; cbn [nodup_vals]; [split; [constructor | reflexivity]|]. rewrite andb_true_iff, negb_true_iff, IH. split.
  - intros [H1 H2]. constructor; [|exact H2]. intros Hin. apply mem_val_In in Hin. congruence.
  - intros H. inversion H as [|? ? Hn Hd]; subst. split; [|exact Hd]. destruct (mem_val v l) eqn:E; [|reflexivity]. apply mem_val_In in E. contradiction.
Qed.
Lemma nodup_str_spec l : nodup_str l = true <-> NoDup l.
Proof.
  induction l as [|v l IH]; cbn [nodup_str]; [split; [constructor | reflexivity]|]. rewrite andb_true_iff, negb_true_iff, IH. split.
  - intros [H1 H2]. constructor; [|exact H2]. intros Hin. apply mem_str_In in Hin. congruence.
  - intros H. inversion H as [|? ? Hn Hd]; subst. split; [|exact Hd]. destruct (mem_str v l) eqn:E; [|reflexivity]. apply mem_str_In in E. contradiction.
Qed.
Lemma t_dtype_In t c : (exists d, t_dtype t c = Ok d) <-> In c (t_names t).
Proof.
  unfold t_dtype, t_names. split.
  - intros (d & H). destruct (dget String.eqb c (t_cols t)) as [x|] eqn:E; [|discriminate]. apply (dget_In _ String.eqb_spec) in E. apply (in_map fst) in E. exact E.
  - intros H. destruct (dget String.eqb c (t_cols t)) as [x|] eqn:E; [eauto|]. apply (dget_None _ String.eqb_spec) in E. contradiction.
Qed.

Lemma row_leb_spec t i a b : row_leb t i a b = true <->
  ((cell t a <> cell t b /\ val_leb (cell t a) (cell t b) = true) \/ (cell t a = cell t b /\ val_leb (cell i a) (cell i b) = true)).
Proof. unfold row_leb. destruct (val_eqb_spec (cell t a) (cell t b)); intuition congruence. Qed.
Lemma row_leb_total t i a b : row_leb t i a b = true \/ row_leb t i b a = true.
Proof.
  rewrite !row_leb_spec. destruct (val_eqb_spec (cell t a) (cell t b)) as [E|E].
  - destruct (val_leb_total (cell i a) (cell i b)); intuition congruence.
  - destruct (val_leb_total (cell t a) (cell t b)); intuition congruence.
Qed.
Lemma row_leb_trans t i a b c : row_leb t i a b = true -> row_leb t i b c = true -> row_leb t i a c = true.
Proof.
  rewrite !row_leb_spec. intros [[H1 H2]|[H1 H2]] [[H3 H4]|[H3 H4]].
  - left. split; [|eapply val_leb_trans; eassumption]. intros E. rewrite <- E in H4. apply H1. apply val_leb_antisym; assumption.
  - left. rewrite <- H3. auto.
  - left. rewrite H1. auto.
  - right. split; [congruence|]. eapply val_leb_trans; eassumption.
Qed.
Lemma isort_rows_sorted t i l : in_order t i (isort (row_leb t i) l).
Proof.
  unfold in_order. assert (StronglySorted (fun x y => row_leb t i x y = true) (isort (row_leb t i) l)) as H.
  { apply isort_sorted; [intros; apply row_leb_total | intros a b c; apply row_leb_trans]. }
  induction H as [|a l' H IH Hf]; constructor; [exact IH|]. eapply Forall_impl; [|exact Hf]. intros b Hb. apply row_leb_spec. exact Hb.
Qed.

Lemma column_perm c l l' : Permutation l l' -> Permutation (map (cell c) l) (map (cell c) l').
Proof. apply Permutation_map. Qed.

Section Ops.
  Variables to_numeric to_datetime : list val -> res (dtype * list val).
  Variable obj_kind : val -> res (option tkind).
  Variable infer : table -> string -> vtype.
  Variable touched : list relationship -> list string -> list string.
  Variable last_times : eset -> string -> list (val * val).

  Lemma convert_only_Ok id ty k e s' u : convert_variable_type to_numeric to_datetime id ty false (k, e) = (s', Ok u) -> exists vs, s' = (k, with_vars vs e) /\ (exists v, get_var id (n_vars e) = Ok v).
  Proof.
    unfold convert_variable_type, eget, sret, sbind, slift, emod. cbn. intros H. destruct (get_var id (n_vars e)) as [v|]; [|discriminate]. injection H as <- _. eauto.
  Qed.

  Lemma set_index_Ok id u k e k' e' x : set_index to_numeric to_datetime id u (k, e) = ((k', e'), Ok x) ->
    k' = k /\ In id (t_names (n_tab e)) /\ (u = true -> NoDup (t_column (n_tab e) id)) /\ exists vs, e' = with_index id (with_vars vs e).
  Proof.
    unfold set_index. intros H. unfold sbind at 1 in H. unfold eget at 1 in H. cbn [fst snd] in H.
    apply sbind_Ok in H as (d & p & E & H). apply slift_Ok in E as [E ->].
    apply sbind_Ok in H as (y & p & E2 & H). apply sguard_Ok in E2 as [E2 ->].
    apply sbind_Ok in H as (z & p & E3 & H). apply convert_only_Ok in E3 as (vs & -> & _). unfold emod in H. cbn in H. injection H as <- <-.
    split; [reflexivity|]. split; [apply t_dtype_In; eauto|]. split; [intros ->; apply nodup_vals_spec; exact E2|]. exists vs. reflexivity.
  Qed.

  Definition sorted_table (srt : bool) (ti i : string) (t : table) : table :=
    if srt then t else mkTab (t_cols t) (isort (row_leb ti i) (t_rows t)).

  Lemma set_time_index_Ok id srt k e k' e' x : set_time_index to_numeric to_datetime obj_kind id srt (k, e) = ((k', e'), Ok x) ->
    exists kd, column_kind obj_kind e id = Ok (Some kd) /\ (k = None \/ k = Some kd) /\ k' = Some kd /\
    exists vs, e' = with_time (Some id) (with_vars vs (with_tab (sorted_table srt id (n_index e) (n_tab e)) e)).
  Proof.
    unfold set_time_index. intros H. unfold sbind at 1 in H. unfold eget at 1 in H. cbn [fst snd] in H.
    apply sbind_Ok in H as (ok & p & E & H). apply slift_Ok in E as [E ->].
    apply sbind_Ok in H as (kd & p & E2 & H). unfold known_kind in E2. destruct ok as [kd0|]; [|discriminate]. unfold sret in E2. injection E2 as <- ->.
    apply sbind_Ok in H as (y & p & E3 & H).
    assert ((k = None \/ k = Some kd) /\ p = (Some kd, e)) as [Hk ->].
    { unfold claim_kind in E3. cbn in E3. destruct k as [k0|]; [|injection E3 as <- _; auto]. destruct kd, k0; cbn in E3; try discriminate; injection E3 as <- _; auto. }
    apply sbind_Ok in H as (d & p & E4 & H). apply slift_Ok in E4 as [E4 ->]. cbv zeta in H.
    apply sbind_Ok in H as (z & p & E5 & H).
    assert (p = (Some kd, with_tab (sorted_table srt id (n_index e) (n_tab e)) e)) as ->.
    { unfold sorted_table. destruct srt; [unfold sret in E5; injection E5 as <- _; destruct e; reflexivity|]. unfold emod in E5. cbn in E5. injection E5 as <- _. reflexivity. }
    apply sbind_Ok in H as (w & p & E6 & H). apply convert_only_Ok in E6 as (vs & -> & _). unfold emod in H. cbn in H. injection H as <- <-.
    exists kd. repeat split; auto. exists vs. reflexivity.
  Qed.

  Lemma secondary_state sec : forall done k e s' r, secondary_go obj_kind done sec (k, e) = (s', r) -> s' = (k, e).
  Proof.
    induction sec as [|[ti cs] sec IH]; intros done k e s' r H; cbn [secondary_go] in H; [unfold sret in H; congruence|].
    unfold sbind at 1 in H. unfold eget at 1 in H. cbn [fst snd] in H.
    apply sbind_any in H as [(ok & p & E & H)|(x & E & _)]; [|apply slift_state in E; exact E]. apply slift_state in E as ->.
    apply sbind_any in H as [(kd & p & E & H)|(x & E & _)]; [|unfold known_kind, sret, sfail in E; destruct ok; congruence].
    assert (p = (k, e)) as -> by (unfold known_kind, sret, sfail in E; destruct ok; congruence).
    apply sbind_any in H as [(u & p & E2 & H)|(x & E2 & _)].
    - assert (p = (k, e)) as -> by (cbn in E2; destruct k; congruence). eapply IH; exact H.
    - cbn in E2. destruct k; congruence.
  Qed.
  Lemma set_secondary_any sec k e s' r : set_secondary_time_index obj_kind sec (k, e) = (s', r) -> exists sec', s' = (k, with_sec sec' e).
  Proof.
    unfold set_secondary_time_index. intros H. apply sbind_any in H as [(sec' & p & E & H)|(x & E & _)].
    - apply secondary_state in E as ->. unfold emod in H. cbn in H. injection H as <- _. eauto.
    - apply secondary_state in E as ->. exists (n_sec e). destruct e; reflexivity.
  Qed.

  (** the three steps shared by creation and update *)
  Definition init (i : string) (time : option string) (sec : list (string * list string)) (srt : bool) : EST unit :=
    set_index to_numeric to_datetime i true ;;;
    (match time with Some ti => set_time_index to_numeric to_datetime obj_kind ti srt | None => sret tt end) ;;;
    set_secondary_time_index obj_kind sec.

  Lemma column_kind_of e e' ti kd : n_tab e' = n_tab e \/ (t_cols (n_tab e') = t_cols (n_tab e) /\ (t_rows (n_tab e) = [] -> t_rows (n_tab e') = [])) ->
    column_kind obj_kind e ti = Ok (Some kd) -> column_of_kind e' ti kd.
  Proof.
    intros Ht H d Hr Hd. assert (t_rows (n_tab e) <> [] /\ t_dtype (n_tab e) ti = Ok d) as [Hr' Hd'].
    { destruct Ht as [Ht|[Ht1 Ht2]]; [rewrite <- Ht; auto|]. split; [auto|]. unfold t_dtype in *. rewrite <- Ht1. exact Hd. }
    unfold column_kind in H. destruct (t_rows (n_tab e)) as [|r l]; [contradiction|]. rewrite Hd' in H. cbn in H. split.
    - intros ->. cbn in H. congruence.
    - intros [-> | ->]; cbn in H; congruence.
  Qed.

  Lemma sorted_table_cols srt ti i t : t_cols (sorted_table srt ti i t) = t_cols t.
  Proof. destruct srt; reflexivity. Qed.
  Lemma sorted_table_perm srt ti i t : Permutation (t_rows t) (t_rows (sorted_table srt ti i t)).
  Proof. destruct srt; cbn; [reflexivity | symmetry; apply isort_perm]. Qed.

  Lemma init_Ok i time sec srt k e k' e' x : init i time sec srt (k, e) = ((k', e'), Ok x) ->
    indexed e' /\ n_index e' = i /\ n_id e' = n_id e /\ n_lti e' = n_lti e /\ n_created e' = n_created e /\
    n_time e' = match time with Some ti => Some ti | None => n_time e end /\
    n_tab e' = match time with Some ti => sorted_table srt ti i (n_tab e) | None => n_tab e end /\
    (forall k0, k = Some k0 -> k' = Some k0) /\ (time = None -> k' = k) /\
    (forall ti, time = Some ti -> exists kd, k' = Some kd /\ column_of_kind e' ti kd).
  Proof.
    unfold init. intros H. apply sbind_Ok in H as (y & [k1 e1] & E & H). apply set_index_Ok in E as (-> & Hi & Hnd & vs & ->). specialize (Hnd eq_refl).
    apply sbind_Ok in H as (z & [k2 e2] & E & H). apply set_secondary_any in H as (sec' & H). injection H as -> ->.
    destruct time as [ti|].
    - apply set_time_index_Ok in E as (kd & Ck & Hk & -> & vs' & ->). cbn [with_index with_vars with_tab with_time with_sec n_index n_tab n_id n_lti n_created n_time].
      cbn [with_index with_vars n_index n_tab] in Ck.
      split; [split; cbn [with_index with_vars with_tab with_time with_sec n_index n_tab]|].
      + unfold t_names. rewrite sorted_table_cols. exact Hi.
      + unfold t_column. eapply Permutation_NoDup; [apply column_perm; apply sorted_table_perm | exact Hnd].
      + do 6 (split; [reflexivity|]). split; [intros k0 Hk0; destruct Hk; congruence|]. split; [discriminate|]. intros ti' Hti. injection Hti as <-. exists kd. split; [reflexivity|].
        eapply column_kind_of; [|exact Ck]. right. cbn. rewrite sorted_table_cols. split; [reflexivity|]. intros Hr.
        pose proof (sorted_table_perm srt ti i (n_tab e)) as P. rewrite Hr in P. apply Permutation_nil in P. exact P.
    - unfold sret in E. injection E as -> <-. cbn. split; [split; cbn; assumption|]. do 6 (split; [reflexivity|]). split; [auto|]. split; [auto|]. discriminate.
  Qed.

  (** ** the time type, once set, stays *)
  Definition kset (k : tkind) (p : option tkind * ent) : Prop := fst p = Some k.
  Lemma emod_kset k f : keeps (kset k) (emod f).
  Proof. intros [k0 e] s' r H E. unfold emod in E. cbn in E. injection E as <- _. exact H. Qed.
  Lemma eget_kset k : keeps (kset k) eget.
  Proof. intros s s' r H E. unfold eget in E. congruence. Qed.
  Lemma convert_kset k id ty d : keeps (kset k) (convert_variable_type to_numeric to_datetime id ty d).
  Proof.
    unfold convert_variable_type. apply keeps_bind; [apply eget_kset|]. intros e. apply keeps_bind.
    - destruct d; [|apply keeps_ret]. apply keeps_bind; [apply keeps_lift|]. intros t. apply emod_kset.
    - intros _. apply keeps_bind; [apply keeps_lift|]. intros v. apply emod_kset.
  Qed.
  Lemma set_index_kset k id u : keeps (kset k) (set_index to_numeric to_datetime id u).
  Proof.
    unfold set_index. apply keeps_bind; [apply eget_kset|]. intros e. apply keeps_bind; [apply keeps_lift|]. intros d. apply keeps_bind; [apply keeps_guard|]. intros _.
    apply keeps_bind; [apply convert_kset|]. intros _. apply emod_kset.
  Qed.
  Lemma set_time_kset k id srt : keeps (kset k) (set_time_index to_numeric to_datetime obj_kind id srt).
  Proof.
    unfold set_time_index. apply keeps_bind; [apply eget_kset|]. intros e. apply keeps_bind; [apply keeps_lift|]. intros ok.
    apply keeps_bind; [destruct ok; [apply keeps_ret | apply keeps_fail]|]. intros kd.
    apply keeps_bind; [intros [k0 e0] s' r H E; unfold claim_kind in E; cbn in E, H; unfold kset in *; cbn in H; subst k0; injection E as <- _; reflexivity|]. intros _.
    apply keeps_bind; [apply keeps_lift|]. intros d. cbv zeta. apply keeps_bind; [destruct srt; [apply keeps_ret | apply emod_kset]|]. intros _.
    apply keeps_bind; [apply convert_kset|]. intros _. apply emod_kset.
  Qed.
  Lemma set_sec_kset k sec : keeps (kset k) (set_secondary_time_index obj_kind sec).
  Proof. intros [k0 e] s' r H E. apply set_secondary_any in E as (x & ->). exact H. Qed.
  Lemma init_kset k i time sec srt : keeps (kset k) (init i time sec srt).
  Proof.
    unfold init. apply keeps_bind; [apply set_index_kset|]. intros _. apply keeps_bind; [destruct time; [apply set_time_kset | apply keeps_ret]|]. intros _. apply set_sec_kset.
  Qed.

  (** ** creation *)
  Notation new_entity := (new_entity to_numeric to_datetime obj_kind infer).
  Lemma new_entity_any id t index given mk time sec srt k k' x : new_entity id t index given mk time sec srt k = (k', x) ->
    (forall k0, k = Some k0 -> k' = Some k0).
  Proof.
    intros H k0 ->. unfold M_Entities.new_entity in H.
    apply sbind_any in H as [(u & s1 & E & H)|(e & E & _)]; [|apply sguard_state in E; congruence]. apply sguard_state in E as ->.
    apply sbind_any in H as [(u1 & s1 & E & H)|(e & E & _)]; [|apply sguard_state in E; congruence]. apply sguard_state in E as ->.
    apply sbind_any in H as [(c & s1 & E & H)|(e & E & _)]; [|apply slift_state in E; congruence]. apply slift_state in E as ->. destruct c as [[created i] t1].
    apply sbind_any in H as [(vt & s1 & E & H)|(e & E & _)]; [|apply slift_state in E; congruence]. apply slift_state in E as ->.
    apply sbind_any in H as [(t2 & s1 & E & H)|(e & E & _)]; [|apply slift_state in E; congruence]. apply slift_state in E as ->.
    cbv zeta in H. fold (init i time sec srt) in H. destruct (init i time sec srt _) as [[k1 e1] r1] eqn:Ei. apply (init_kset k0) in Ei; [|reflexivity].
    unfold kset in Ei. cbn in Ei. destruct r1; congruence.
  Qed.
  Lemma new_entity_Ok id t index given mk time sec srt k k' e : new_entity id t index given mk time sec srt k = (k', Ok e) ->
    exists created i t1 vt t2, create_index index mk t = Ok (created, i, t1) /\ create_variables to_numeric to_datetime infer t1 given i = Ok vt /\
      t_select (snd vt) (map v_id (fst vt)) = Ok t2 /\ NoDup (t_names t) /\ (forall ti, time = Some ti -> In ti (t_names t)) /\
      init i time sec srt (k, mkEnt id t2 (fst vt) i None [] None created) = ((k', e), Ok tt).
  Proof.
    intros H. unfold M_Entities.new_entity in H.
    apply sbind_Ok in H as (u & s1 & E & H). apply sguard_Ok in E as [E0 ->]. apply sbind_Ok in H as (u1 & s1 & E & H). apply sguard_Ok in E as [E1 ->].
    apply sbind_Ok in H as (c & s1 & E & H). apply slift_Ok in E as [E2 ->]. destruct c as [[created i] t1].
    apply sbind_Ok in H as (vt & s1 & E & H). apply slift_Ok in E as [E3 ->]. apply sbind_Ok in H as (t2 & s1 & E & H). apply slift_Ok in E as [E4 ->].
    cbv zeta in H. fold (init i time sec srt) in H. destruct (init i time sec srt _) as [[k1 e1] r1] eqn:Ei. destruct r1 as [[]|]; [|discriminate]. injection H as <- <-.
    exists created, i, t1, vt, t2. repeat split; auto; [apply nodup_str_spec; exact E0 | intros ti ->; apply mem_str_In; exact E1].
  Qed.
End Ops.
