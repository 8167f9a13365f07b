(** C64: entity_from_dataframe keeps the rows and columns of the data frame. *)
From Coq Require Import Sorting.Permutation Sorting.Sorted.
From Verif Require Import Base BaseFacts M_Schema M_Table M_LastTime L_LastTime M_Entities S_Entities S_Calls.
From Verif Require Import P_Equality L_Entities L_Tables P_Relate P_Meta P_Tables L_Normalize P_Normalize P_Normalize2.
From Verif Require L_Frame.
Local Open Scope string_scope.
Local Open Scope list_scope.

Section C64.
  Variables to_numeric to_datetime : list val -> res (dtype * list val).
  Variable obj_kind : val -> res (option tkind).
  Variable infer : table -> string -> vtype.
  Notation entity_from_dataframe := (entity_from_dataframe to_numeric to_datetime obj_kind infer).

  Lemma create_variables_types t given i vt : create_variables to_numeric to_datetime infer t given i = Ok vt -> forall c, c <> i -> In c (map fst given) -> tyof (fst vt) c = dget String.eqb c given.
  Proof.
    intros E2 c Hc Hg. unfold create_variables in E2. destruct (convert_all _ _ _ _) as [t'|]; [|discriminate]. cbn in E2.
    destruct (filter _ _) as [|iv l] eqn:Ef in E2; [discriminate|]. injection E2 as <-. cbn [fst].
    assert (v_id iv = i) as Hiv by (assert (In iv (iv :: l)) as Hx by (left; reflexivity); rewrite <- Ef in Hx; apply filter_In in Hx as [_ Hx]; apply String.eqb_eq in Hx; exact Hx).
    transitivity (tyof (filter (fun v => negb (String.eqb (v_id v) i)) (map (fun ct => mkVar (fst ct) (snd ct) [] None) (all_types infer t given i))) c).
    { unfold tyof. cbn [find]. rewrite Hiv, (proj2 (String.eqb_neq i c)) by congruence. reflexivity. }
    rewrite tyof_filter by exact Hc. rewrite tyof_types. unfold all_types. rewrite dget_app.
    set (g := if mem_str i (map fst given) then given else given ++ [(i, TIndex)]).
    assert (In c (map fst g)) as Hcg by (unfold g; destruct (mem_str i (map fst given)); [exact Hg | rewrite map_app; apply in_or_app; left; exact Hg]).
    destruct (dget String.eqb c (map _ _)) as [ty|] eqn:Ed.
    - exfalso. apply (dget_In _ String.eqb_spec) in Ed. apply in_map_iff in Ed as (c' & Heq & Hf). injection Heq as -> _. apply filter_In in Hf as [_ Hf]. apply negb_true_iff, mem_str_nIn in Hf. contradiction.
    - unfold g. destruct (mem_str i (map fst given)); [reflexivity|]. rewrite dget_app. destruct (dget String.eqb c given) eqn:Ed2; [reflexivity|]. apply (dget_None _ String.eqb_spec) in Ed2. contradiction.
  Qed.

  Lemma t_set_names t c d vs : In c (t_names t) -> forall x, In x (t_names (t_set t c d vs)) <-> In x (t_names t).
  Proof. intros Hc x. unfold t_names, t_set. cbn [t_cols]. rewrite dset_names. unfold t_names in Hc. intuition congruence. Qed.
  Lemma convert_one_names t ct t' : convert_one to_numeric to_datetime t ct = Ok t' -> forall x, In x (t_names t') <-> In x (t_names t).
  Proof.
    destruct ct as [c ty]. unfold convert_one. destruct (t_dtype t c) as [d|] eqn:Ed; [|discriminate]. cbn [bind]. assert (In c (t_names t)) as Hc by (apply t_dtype_In; eauto).
    assert (forall t', convert_variable_data to_numeric to_datetime t c ty = Ok t' -> forall x, In x (t_names t') <-> In x (t_names t)) as Hcv.
    { intros t0. unfold convert_variable_data. rewrite Ed. cbn [bind]. destruct (t_rows t); [intros H; injection H as <-; reflexivity|].
      destruct (vtype_eqb ty TNumeric); [destruct (to_numeric _) as [dv|]; [|discriminate]; cbn [bind]; intros H; injection H as <-; apply t_set_names; exact Hc|].
      destruct (is_datetime_type ty); [destruct (to_datetime _) as [dv|]; [|discriminate]; cbn [bind]; intros H; injection H as <-; apply t_set_names; exact Hc|].
      destruct (_ || _); [intros H; injection H as <-; reflexivity | discriminate]. }
    destruct (_ && _); [apply Hcv|]. destruct (_ && _); [apply Hcv | intros H; injection H as <-; reflexivity].
  Qed.
  Lemma convert_all_names tys : forall t t', convert_all to_numeric to_datetime t tys = Ok t' -> forall x, In x (t_names t') <-> In x (t_names t).
  Proof.
    unfold convert_all. induction tys as [|ct tys IH]; intros t t' H x; cbn [foldM] in H; [injection H as <-; reflexivity|].
    destruct (convert_one _ _ t ct) as [t1|] eqn:E; [|discriminate]. cbn [bind] in H. rewrite (IH _ _ H), (convert_one_names _ _ _ E). reflexivity.
  Qed.

  (** what is created: the index, the columns, the types *)
  Theorem C64_created id t index given make_index time sec srt s s' :
    entity_from_dataframe id t index given make_index time sec srt s = (s', Ok tt) ->
    exists e i, (forall id', dget String.eqb id' (s_ents s') = if String.eqb id' id then Some e else dget String.eqb id' (s_ents s)) /\ s_rels s' = s_rels s /\
      (* the index: the given column, or the first one *)
      n_index e = i /\ match index with Some j => i = j | None => exists cs, t_names t = i :: cs end /\
      (* an index is made only when asked for, or when there is no such column; the column must not exist *)
      (make_index = true -> index = Some i /\ ~ In i (t_names t)) /\ n_created e = (if mem_str i (t_names t) then None else Some i) /\
      NoDup (t_column (n_tab e) i) /\
      (* the columns *)
      NoDup (t_names t) /\ (forall c, In c (t_names (n_tab e)) <-> In c (t_names t) \/ c = i) /\
      (* the time indexes *)
      n_time e = time /\ (forall ti, time = Some ti -> In ti (t_names t) /\ (index <> None -> ti <> i)) /\
      (* the types: the given ones, apart from the index and the time index *)
      (time <> Some i -> vtype_of e i = Some TIndex) /\ (forall c, c <> i -> time <> Some c -> In c (map fst given) -> vtype_of e c = dget String.eqb c given).
  Proof.
    intros H. unfold M_Entities.entity_from_dataframe in H.
    apply sbind_Ok in H as (u & s1 & E & H). apply sguard_Ok in E as [Eg ->]. apply sbind_Ok in H as (u1 & s1 & E & H). apply sguard_Ok in E as [_ ->].
    apply sbind_Ok in H as (e & s1 & E & H). destruct (new_entity _ _ _ _ _ _ _ _ _ _ _ _ _) as [k x] eqn:En in E. injection E as <- ->.
    unfold sbind, smod, reset_meta in H. injection H as <-. apply new_entity_Ok in En as (cr & i & t1 & vt & t2 & E1 & E2 & E3 & Hnd & Hti & Hin).
    pose proof Hin as Hin'. apply init_Ok in Hin' as ([A1 A2] & Bi & Bid & _ & Bc & Bt & Btab & _). apply init_types in Hin as (A & B & C). cbn [n_vars n_time n_tab n_created] in B, Bt, Btab, Bc.
    exists e, i. cbn [s_ents s_rels with_kind with_ents with_meta].
    split; [intros id'; destruct (String.eqb_spec id' id) as [->|Hd]; [apply (dget_dset_same _ String.eqb_spec) | rewrite (dget_dset_other _ String.eqb_spec) by congruence; reflexivity]|].
    split; [reflexivity|]. split; [exact Bi|].
    assert (match index with Some j => i = j | None => exists cs, t_names t = i :: cs end /\ (make_index = true -> index = Some i /\ ~ In i (t_names t)) /\ cr = (if mem_str i (t_names t) then None else Some i) /\
      (forall c, In c (t_names t1) <-> In c (t_names t) \/ c = i)) as (I1 & I2 & I3 & I4).
    { unfold create_index in E1. destruct index as [j|].
      - destruct make_index; cbn [andb] in E1.
        + destruct (mem_str j (t_names t)) eqn:Em; [discriminate|]. injection E1 as <- <- <-. rewrite Em. apply mem_str_nIn in Em. split; [reflexivity|]. split; [auto|]. split; [reflexivity|]. intros c. cbn. intuition congruence.
        + destruct (mem_str j (t_names t)) eqn:Em; injection E1 as <- <- <-; rewrite Em; (split; [reflexivity|]; split; [discriminate|]; split; [reflexivity|]; intros c; cbn).
          * apply mem_str_In in Em. intuition congruence.
          * intuition congruence.
      - destruct make_index; [discriminate|]. destruct (t_names t) as [|c0 cs] eqn:Ec; [discriminate|]. injection E1 as <- <- <-. rewrite Ec.
        split; [eauto|]. split; [discriminate|]. split; [cbn; rewrite String.eqb_refl; reflexivity|]. intros c. cbn. intuition congruence. }
    split; [exact I1|]. split; [exact I2|]. split; [congruence|]. split; [rewrite <- Bi; exact A2|]. split; [exact Hnd|].
    pose proof (create_variables_types _ _ _ _ E2) as Hty. apply create_variables_Ok in E2 as [Ecv Evars]. apply t_select_Ok in E3 as (S1 & _ & S3 & _).
    split.
    { intros c. assert (t_names (n_tab e) = t_names t2) as -> by (unfold t_names; rewrite Btab; destruct time; [rewrite sorted_table_cols; reflexivity | reflexivity]).
      rewrite S1. split; intros Hc; [apply I4; rewrite <- (convert_all_names _ _ _ Ecv); apply S3; exact Hc | apply Evars, I4; exact Hc]. }
    assert (index <> None -> time <> Some i) as Hne.
    { intros Hi ->. destruct index as [j|]; [subst j; rewrite String.eqb_refl in Eg; discriminate | congruence]. }
    split; [rewrite Bt; destruct time; reflexivity|]. split; [intros ti ->; split; [auto | intros Hi He; apply (Hne Hi); congruence]|].
    split; [exact C|]. intros c Hc Ht Hg. unfold vtype_of. fold (tyof (n_vars e) c). rewrite B by assumption. apply Hty; assumption.
  Qed.

  (** conversions of columns keep the number of values *)
  Definition keeps_length (conv : list val -> res (dtype * list val)) : Prop := forall vs d vs', conv vs = Ok (d, vs') -> List.length vs' = List.length vs.
  Lemma t_set_rows t c0 d vs c : List.length vs = List.length (t_rows t) -> c <> c0 -> Forall2 (fun r q => cell c q = cell c r) (t_rows t) (t_rows (t_set t c0 d vs)).
  Proof.
    unfold t_set. cbn [t_rows]. intros Hl Hc. revert vs Hl. induction (t_rows t) as [|r l IH]; intros [|v vs] Hl; try discriminate; cbn [combine map]; constructor.
    - cbn [fst snd]. apply L_Frame.cell_dset_other. congruence.
    - apply IH. cbn in Hl. injection Hl as Hl. exact Hl.
  Qed.
  Lemma convert_all_len tys : keeps_length to_numeric -> keeps_length to_datetime -> forall t t', convert_all to_numeric to_datetime t tys = Ok t' -> List.length (t_rows t') = List.length (t_rows t).
  Proof.
    intros Hn Hd. unfold convert_all. induction tys as [|[c0 ty] tys IH]; intros t t' H; cbn [foldM] in H; [injection H as <-; reflexivity|].
    destruct (convert_one _ _ t (c0, ty)) as [t1|] eqn:E; [|discriminate]. cbn [bind] in H. rewrite (IH _ _ H). clear - Hn Hd E.
    assert (forall t1, convert_variable_data to_numeric to_datetime t c0 ty = Ok t1 -> List.length (t_rows t1) = List.length (t_rows t)) as Hcv.
    { intros t0. unfold convert_variable_data. destruct (t_dtype t c0); [|discriminate]. cbn [bind]. destruct (t_rows t) as [|r0 l0] eqn:Er; [intros H0; injection H0 as <-; rewrite Er; reflexivity|]. rewrite <- Er.
      assert (List.length (t_column t c0) = List.length (t_rows t)) as Hlen by (unfold t_column; apply map_length).
      destruct (vtype_eqb ty TNumeric); [destruct (to_numeric _) as [[dd vs]|] eqn:Ev; [|discriminate]; cbn [bind fst snd]; intros H0; injection H0 as <-; unfold t_set; cbn [t_rows]; rewrite map_length, combine_length, (Hn _ _ _ Ev), Hlen; apply Nat.min_id|].
      destruct (is_datetime_type ty); [destruct (to_datetime _) as [[dd vs]|] eqn:Ev; [|discriminate]; cbn [bind fst snd]; intros H0; injection H0 as <-; unfold t_set; cbn [t_rows]; rewrite map_length, combine_length, (Hd _ _ _ Ev), Hlen; apply Nat.min_id|].
      destruct (_ || _); [intros H0; injection H0 as <-; reflexivity | discriminate]. }
    unfold convert_one in E. destruct (t_dtype t c0) as [d|]; [|discriminate]. cbn [bind] in E. destruct (_ && _); [apply Hcv; exact E|]. destruct (_ && _); [apply Hcv; exact E | injection E as <-; reflexivity].
  Qed.
  Lemma Forall2_same c (l : list row) : Forall2 (fun r q => cell c q = cell c r) l l.
  Proof. induction l; constructor; auto. Qed.
  Lemma convert_one_col t ct t' c : keeps_length to_numeric -> keeps_length to_datetime -> convert_one to_numeric to_datetime t ct = Ok t' ->
    (forall d, fst ct = c -> t_dtype t c = Ok d -> compat (snd ct) d) -> t_dtype t' c = t_dtype t c /\ Forall2 (fun r q => cell c q = cell c r) (t_rows t) (t_rows t').
  Proof.
    intros Hn Hd. destruct ct as [c0 ty]. cbn [fst snd]. unfold convert_one. destruct (t_dtype t c0) as [d|] eqn:Ed; [|discriminate]. cbn [bind]. intros H Hc.
    destruct (String.eqb_spec c0 c) as [->|Hne].
    - destruct (Hc d eq_refl Ed) as [C1 C2]. destruct (is_numeric_type ty) eqn:E1; cbn [andb] in H.
      + rewrite (C1 eq_refl) in H. cbn [negb] in H. assert (is_datetime_type ty = false) as E2 by (destruct ty; cbn in *; congruence). rewrite E2 in H. cbn [andb] in H. injection H as <-. split; [reflexivity | apply Forall2_same].
      + destruct (is_datetime_type ty) eqn:E2; cbn [andb] in H; [rewrite (C2 eq_refl) in H; cbn in H|]; injection H as <-; (split; [reflexivity | apply Forall2_same]).
    - assert (forall t', convert_variable_data to_numeric to_datetime t c0 ty = Ok t' -> t_dtype t' c = t_dtype t c /\ Forall2 (fun r q => cell c q = cell c r) (t_rows t) (t_rows t')) as Hcv.
      { intros t0. unfold convert_variable_data. rewrite Ed. cbn [bind].
        assert (forall d vs, t_dtype (t_set t c0 d vs) c = t_dtype t c) as Hdt by (intros d0 vs; unfold t_dtype, t_set; cbn [t_cols]; rewrite (dget_dset_other _ String.eqb_spec) by congruence; reflexivity).
        destruct (t_rows t) eqn:Er; [intros H0; injection H0 as <-; rewrite Er; split; [reflexivity | constructor]|]. rewrite <- Er.
        assert (List.length (t_column t c0) = List.length (t_rows t)) as Hlen by (unfold t_column; apply map_length).
        destruct (vtype_eqb ty TNumeric); [destruct (to_numeric _) as [[dd vs]|] eqn:Ev; [|discriminate]; cbn [bind fst snd]; intros H0; injection H0 as <-; split; [apply Hdt | apply t_set_rows; [rewrite <- Hlen; eapply Hn; exact Ev | congruence]]|].
        destruct (is_datetime_type ty); [destruct (to_datetime _) as [[dd vs]|] eqn:Ev; [|discriminate]; cbn [bind fst snd]; intros H0; injection H0 as <-; split; [apply Hdt | apply t_set_rows; [rewrite <- Hlen; eapply Hd; exact Ev | congruence]]|].
        destruct (_ || _); [intros H0; injection H0 as <-; split; [reflexivity | apply Forall2_same] | discriminate]. }
      destruct (_ && _); [apply Hcv; exact H|]. destruct (_ && _); [apply Hcv; exact H | injection H as <-; split; [reflexivity | apply Forall2_same]].
  Qed.
  Lemma Forall2_cells_trans c (a b d : list row) : Forall2 (fun r q => cell c q = cell c r) a b -> Forall2 (fun r q => cell c q = cell c r) b d -> Forall2 (fun r q => cell c q = cell c r) a d.
  Proof. intros H. revert d. induction H as [|r q a b Hr _ IH]; intros d H2; inversion H2; subst; constructor; [congruence | apply IH; assumption]. Qed.
  Lemma convert_all_col c : keeps_length to_numeric -> keeps_length to_datetime -> forall tys t t', convert_all to_numeric to_datetime t tys = Ok t' ->
    (forall ty d, In (c, ty) tys -> t_dtype t c = Ok d -> compat ty d) -> t_dtype t' c = t_dtype t c /\ Forall2 (fun r q => cell c q = cell c r) (t_rows t) (t_rows t').
  Proof.
    intros Hn Hd. unfold convert_all. induction tys as [|ct tys IH]; intros t t' H Hc; cbn [foldM] in H; [injection H as <-; split; [reflexivity | apply Forall2_same]|].
    destruct (convert_one _ _ t ct) as [t1|] eqn:E; [|discriminate]. cbn [bind] in H.
    destruct (convert_one_col _ _ _ c Hn Hd E) as [A B]; [intros d <- Hx; apply Hc; [left; destruct ct; reflexivity | exact Hx]|].
    destruct (IH _ _ H) as [A' B']; [intros ty d Hin Hx; apply Hc; [right; exact Hin | congruence]|]. split; [congruence | eapply Forall2_cells_trans; eassumption].
  Qed.

  (** what is kept: the rows, one for one, with the values of every column whose type needs no conversion; a made index counts them *)
  Theorem C64_rows_partial id t index given make_index time sec srt s s' :
    keeps_length to_numeric -> keeps_length to_datetime ->
    entity_from_dataframe id t index given make_index time sec srt s = (s', Ok tt) ->
    exists e rs, dget String.eqb id (s_ents s') = Some e /\ Permutation rs (t_rows (n_tab e)) /\ (srt = true \/ time = None -> rs = t_rows (n_tab e)) /\
      List.length rs = List.length (t_rows t) /\
      (forall c d, t_dtype t c = Ok d -> (forall ty, In (c, ty) given -> compat ty d) -> (~ In c (map fst given) -> forall t', compat (infer t' c) d) ->
         t_dtype (n_tab e) c = Ok d /\ Forall2 (fun r q => cell c q = cell c r) (t_rows t) rs) /\
      (~ In (n_index e) (t_names t) -> (forall ty, In (n_index e, ty) given -> compat ty DInt) -> map (cell (n_index e)) rs = map (fun k => VNum (Z.of_nat k)) (seq 0 (List.length (t_rows t)))).
  Proof.
    intros Hn Hd H. unfold M_Entities.entity_from_dataframe in H.
    apply sbind_Ok in H as (u & s1 & E & H). apply sguard_Ok in E as [Eg ->]. apply sbind_Ok in H as (u1 & s1 & E & H). apply sguard_Ok in E as [_ ->].
    apply sbind_Ok in H as (e & s1 & E & H). destruct (new_entity _ _ _ _ _ _ _ _ _ _ _ _ _) as [k x] eqn:En in E. injection E as <- ->.
    unfold sbind, smod, reset_meta in H. injection H as <-. apply new_entity_Ok in En as (cr & i & t1 & vt & t2 & E1 & E2 & E3 & Hnd & Hti & Hin).
    apply init_Ok in Hin as (_ & Bi & _ & _ & _ & _ & Btab & _). cbn [n_tab] in Btab.
    apply create_variables_Ok in E2 as [Ecv Evars]. apply t_select_Ok in E3 as (S1 & S2 & S3 & D & S4 & S5).
    exists e, (t_rows t2). cbn [s_ents with_kind with_ents with_meta]. split; [apply (dget_dset_same _ String.eqb_spec)|].
    split; [rewrite Btab; destruct time; [apply sorted_table_perm | reflexivity]|].
    split; [intros [-> | ->]; rewrite Btab; [destruct time|]; reflexivity|].
    assert (forall c, In c (t_names t1) -> (forall ty d, In (c, ty) (all_types infer t1 given i) -> t_dtype t1 c = Ok d -> compat ty d) ->
      t_dtype (n_tab e) c = t_dtype t1 c /\ Forall2 (fun r q => cell c q = cell c r) (t_rows t1) (t_rows t2)) as Hcol.
    { intros c Hc Hcc. destruct (convert_all_col c Hn Hd _ _ _ Ecv Hcc) as [A B]. pose proof (Evars c Hc) as Hv. split.
      - rewrite <- A. rewrite (S5 c Hv). unfold t_dtype. assert (t_cols (n_tab e) = t_cols t2) as -> by (rewrite Btab; destruct time; [apply sorted_table_cols | reflexivity]).
        rewrite S4. clear -Hv. induction (map v_id (fst vt)) as [|a l IH]; [destruct Hv|]. unfold dget. cbn [map find fst]. destruct (String.eqb_spec c a) as [->|Hne]; [reflexivity|]. apply IH. destruct Hv; [congruence | assumption].
      - eapply Forall2_cells_trans; [exact B|]. rewrite S2. clear -Hv. induction (t_rows (snd vt)) as [|r l IH]; cbn [map]; constructor; [|exact IH]. apply cell_select. exact Hv. }
    assert (List.length (t_rows t2) = List.length (t_rows t1)) as Hlen.
    { rewrite S2, map_length. eapply convert_all_len; eassumption. }
    assert (forall c ty, In (c, ty) (all_types infer t1 given i) -> In (c, ty) given \/ (~ In c (map fst given) /\ c <> i /\ ty = infer t1 c) \/ (c = i /\ ty = TIndex)) as Hall.
    { intros c ty Hin. unfold all_types in Hin. apply in_app_or in Hin as [Hin|Hin].
      - apply in_map_iff in Hin as (c' & Heq & Hf). injection Heq as <- <-. apply filter_In in Hf as [_ Hf]. apply negb_true_iff, mem_str_nIn in Hf. right. left.
        split; [|split; [|reflexivity]].
        + intros Hx. apply Hf. destruct (mem_str i (map fst given)); [exact Hx | rewrite map_app; apply in_or_app; left; exact Hx].
        + intros ->. apply Hf. destruct (mem_str i (map fst given)) eqn:Em; [apply mem_str_In; exact Em | rewrite map_app; apply in_or_app; right; left; reflexivity].
      - destruct (mem_str i (map fst given)); [left; exact Hin|]. apply in_app_or in Hin as [Hin|[Hin|[]]]; [left; exact Hin|]. injection Hin as <- <-. auto. }
    assert ((In i (t_names t) /\ t1 = t) \/ (~ In i (t_names t) /\ t1 = mkTab ((i, DInt) :: t_cols t) (map (fun kr => (i, VNum (Z.of_nat (fst kr))) :: snd kr) (combine (seq 0 (List.length (t_rows t))) (t_rows t))))) as Hcase.
    { unfold create_index in E1. destruct index as [j|].
      - destruct (make_index && mem_str j (t_names t)); [discriminate|]. destruct (mem_str j (t_names t)) eqn:Em; injection E1 as <- <- <-; [apply mem_str_In in Em; auto | apply mem_str_nIn in Em; auto].
      - destruct make_index; [discriminate|]. destruct (t_names t) as [|c0 cs] eqn:Ec; [discriminate|]. injection E1 as <- <- <-. left. split; [left; reflexivity | reflexivity]. }
    assert (List.length (t_rows t1) = List.length (t_rows t)) as Hlen1.
    { destruct Hcase as [[_ ->]|[_ ->]]; [reflexivity|]. cbn [t_rows]. rewrite map_length, combine_length, seq_length. apply Nat.min_id. }
    split; [congruence|]. split.
    - intros c d Hdt Hg Hi. assert (In c (t_names t)) as Hct by (apply t_dtype_In; eauto).
      assert (t_dtype t1 c = Ok d /\ Forall2 (fun r q => cell c q = cell c r) (t_rows t) (t_rows t1)) as [D1 D2].
      { destruct Hcase as [[_ ->]|[Hni ->]]; [split; [exact Hdt | apply Forall2_same]|]. split.
        - unfold t_dtype, dget in *. cbn [t_cols find fst]. rewrite (proj2 (String.eqb_neq c i)) by congruence. exact Hdt.
        - cbn [t_rows]. generalize 0%nat. assert (c <> i) as Hci by congruence. clear -Hci. induction (t_rows t) as [|r l IH]; intros k; cbn [List.length seq combine map]; constructor; [|apply IH].
          cbn [fst snd]. unfold cell, dget. cbn [find fst]. rewrite (proj2 (String.eqb_neq c i)) by congruence. reflexivity. }
      destruct (Hcol c) as [C1 C2]; [apply t_dtype_In; eauto | | split; [congruence | eapply Forall2_cells_trans; eassumption]].
      intros ty d' Hin Hd'. assert (d' = d) as -> by congruence. destruct (Hall c ty Hin) as [Hx|[(Hx & _ & ->)|[-> ->]]]; [apply Hg; exact Hx | apply Hi; exact Hx | split; discriminate].
    - rewrite Bi. intros Hni Hg. destruct Hcase as [[Hx _]|[_ Ht1]]; [contradiction|].
      assert (t_dtype t1 i = Ok DInt) as Hdi by (rewrite Ht1; unfold t_dtype, dget; cbn [t_cols find fst]; rewrite String.eqb_refl; reflexivity).
      destruct (Hcol i) as [_ C2]; [apply t_dtype_In; eauto | |].
      { intros ty d Hin Hd'. rewrite Hdi in Hd'. injection Hd' as <-. destruct (Hall i ty Hin) as [Hx|[(_ & Hx & _)|[_ ->]]]; [apply Hg; exact Hx | congruence | split; discriminate]. }
      assert (map (cell i) (t_rows t2) = map (cell i) (t_rows t1)) as -> by (clear -C2; induction C2 as [|r q a b Hr _ IH]; [reflexivity|]; cbn [map]; congruence).
      rewrite Ht1. cbn [t_rows]. rewrite map_map. cbn [fst snd]. generalize 0%nat. clear. induction (t_rows t) as [|r l IH]; intros k; [reflexivity|]. cbn [List.length seq combine map fst snd]. rewrite IH. f_equal. unfold cell, dget. cbn [find fst]. rewrite String.eqb_refl. reflexivity.
  Qed.
End C64.

(** a frame with a made index, sorted by time *)
Definition log_frame : table := mkTab [("t", DDate); ("x", DInt)] [[("t", VNum 5); ("x", VNum 1)]; [("t", VNum 3); ("x", VNum 2)]].
Notation create1 := (entity_from_dataframe nr dt okd infc).
Definition start : eset := after [].
Example C64_nonvacuous : exists s', create1 "log" log_frame (Some "id") [("x", TOrdinal)] true (Some "t") [] false start = (s', Ok tt) /\ keeps_length nr /\ keeps_length dt /\
  option_map (fun e => (t_rows (n_tab e), n_created e, map (fun v => (v_id v, v_type v)) (n_vars e))) (dget String.eqb "log" (s_ents s')) =
    Some ([[("id", VNum 1); ("t", VNum 3); ("x", VNum 2)]; [("id", VNum 0); ("t", VNum 5); ("x", VNum 1)]], Some "id", [("id", TIndex); ("t", TDatetimeTimeIndex); ("x", TOrdinal)]).
Proof. eexists. split; [vm_compute; reflexivity|]. split; [intros vs d vs' H; unfold nr in H; congruence|]. split; [intros vs d vs' H; unfold dt in H; congruence|]. vm_compute. reflexivity. Qed.

(** When no index is given, the first column is taken even if it is the time index: the check that they differ is passed,
    and the index is then no variable of type Index. *)
Theorem C64_distinct_refuted : exists t s s' e, create1 "log" t None [] false (Some "t") [] false s = (s', Ok tt) /\ dget String.eqb "log" (s_ents s') = Some e /\
  n_time e = Some (n_index e) /\ vtype_of e (n_index e) = Some TDatetimeTimeIndex.
Proof. exists log_frame, start. eexists. eexists. split; [vm_compute; reflexivity|]. split; [vm_compute; reflexivity|]. split; vm_compute; reflexivity. Qed.
Print Assumptions C64_created.
Print Assumptions C64_rows_partial.
Print Assumptions C64_distinct_refuted.
