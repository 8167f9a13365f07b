(** Direct features keep a frame meaningful. *)
From Verif Require Import Base BaseFacts M_Schema S_Schema M_Trie M_Table M_Query S_Query L_Query S_View L_View
  M_Feature M_FeatureSet M_Calc S_Calc S_Group S_Sem S_Approx S_Value L_Frame L_FeatureSet L_Group P_Select L_Value1 L_Value2.

Lemma nth_repeat' {A} (a d : A) n j : j < n -> nth j (repeat a n) d = a.
Proof. revert j. induction n as [|n IH]; intros [|j] H; cbn; try lia; [reflexivity | apply IH; lia]. Qed.

Lemma NoDup_map_inj {A B} (f : A -> B) l : (forall a b, In a l -> In b l -> f a = f b -> a = b) -> NoDup l -> NoDup (map f l).
Proof.
  induction l as [|a l IH]; intros Hi Hn; [constructor|]. inversion Hn as [|x y Hx Hy]; subst. cbn [map]. constructor.
  - intros H. apply in_map_iff in H as (b & E & Hb). apply Hx. rewrite <- (Hi b a); auto; [right; exact Hb | left; reflexivity].
  - apply IH; [|exact Hy]. intros b c Hb Hc. apply Hi; right; assumption.
Qed.

Section Value3.
  Variables (es : entityset) (T : Z) (tw : option window) (incl : bool) (given : feat -> option (row -> list val)) (fs : list feat).
  Notation rels := (es_rels es).
  Notation fname := (fname rels).
  Notation fnames := (fnames rels).
  Notation R := (rows_at es T tw incl).
  Notation sem := (sem_with es T tw incl given).
  Notation owner := (owner es T tw incl).
  Notation calculated := (calculated fs).
  Notation means := (means es T tw incl given fs).
  Notation sees := (sees es T tw incl given fs).
  Notation sees_row := (sees_row es T tw incl given fs).
  Notation lvl_ok := (lvl_ok es T tw incl).
  Notation done := (done es T tw incl given).

  Hypothesis Hes : good_es es.
  Hypothesis Hip : index_present es.
  Hypothesis Hw : win_time tw.
  Hypothesis Hcn : clear_names es fs.
  Hypothesis Hov : forall f g, given f = Some g -> is_aggregation f.
  Hypothesis Hwt : forall f, needed fs f -> wt rels f.
  Hypothesis Hpf : plain_features rels fs.
  Hypothesis Hovl : forall f g r, needed fs f -> given f = Some g -> List.length (g r) = fnout f.

  Lemma semw_length f : needed fs f -> forall r, List.length (sem f r) = fnout f.
  Proof.
    remember (fsize f) as n eqn:En. revert f En. induction n as [n IH] using lt_wf_ind. intros f -> Hf r.
    pose proof (Hwt f Hf) as Hwf.
    destruct (given f) as [h|] eqn:Eg; [destruct f; cbn [sem_with]; rewrite Eg; apply (Hovl _ _ r Hf Eg)|].
    destruct f as [e v nm|rel b nm|p bs path u wh prev nm|p bs nm|p bs g nm|b k nm]; cbn [sem_with]; rewrite Eg; cbn [fnout].
    - reflexivity.
    - destruct (row_with _ _ _) as [pr|]; [|apply repeat_length]. rewrite map_length. apply (IH (fsize b)); [cbn; lia | reflexivity|].
      apply (needed_dep fs (FDirect rel b nm)); [exact Hf | left; reflexivity].
    - match goal with |- context [previous ?t ?a ?b ?c] => destruct (previous t a b c) as [|r0 l] end; [apply repeat_length|].
      rewrite map_length. apply (pf_outputs rels fs Hpf (FAgg p bs path u wh prev nm)); [split; [exact Hf | exact (fun H => H)] | apply map_length].
    - rewrite map_length. apply (pf_outputs rels fs Hpf (FTrans p bs nm)); [split; [exact Hf | exact (fun H => H)] | apply map_length].
    - destruct (is_null _); [apply repeat_length|]. rewrite map_length. apply (pf_outputs rels fs Hpf (FGroup p bs g nm)); [split; [exact Hf | exact (fun H => H)] | apply map_length].
    - reflexivity.
  Qed.

  Lemma dep_cell eid L cs x r b j n : lvl_ok eid L -> sees_row eid L cs x r -> needed fs b -> fentity b = eid ->
    nth_error (fnames b) j = Some n -> In n cs -> cell n x = nth j (sem b r) VNull.
  Proof.
    intros HL Hs Hb He Hj Hc.
    assert (is_slice b \/ ~ is_slice b) as [Hsl|Hsl] by (destruct b; cbn; auto).
    - rewrite (single_names _ b) in Hj by (destruct b; cbn in *; tauto). destruct j as [|j]; [|destruct j; discriminate]. injection Hj as <-.
      rewrite (base_cell es T tw incl given fs Hes Hcn Hov Hwt eid L cs x r b HL Hs Hb He); [destruct (sem b r); reflexivity | destruct b; cbn in *; tauto | exact Hc].
    - apply (sr_feat es T tw incl given fs Hes Hcn Hov eid L cs x r b j n HL Hs (conj Hb Hsl) He Hj Hc).
  Qed.

  Lemma dep_names_NoDup b : needed fs b -> NoDup (fnames b).
  Proof.
    intros Hb. assert (is_slice b \/ ~ is_slice b) as [Hsl|Hsl] by (destruct b; cbn; auto).
    - rewrite (single_names _ b) by (destruct b; cbn in *; tauto). constructor; [intros [] | constructor].
    - apply (names_NoDup es fs Hcn b). split; assumption.
  Qed.

  (** ** direct features *)
  Lemma direct_base r b nm : calculated (FDirect r b nm) -> In r rels /\ needed fs b /\ fentity b = r_pe r.
  Proof.
    intros Hf. pose proof (Hwt _ (proj1 Hf)) as Hw'. inversion Hw' as [|r' b' nm' Hr Hb He| | | |]; subst. split; [exact Hr|]. split; [|exact He].
    apply (needed_dep fs (FDirect r b nm)); [apply Hf | left; reflexivity].
  Qed.

  Lemma direct_sem r b nm x j : calculated (FDirect r b nm) -> j < fnout b ->
    nth j (sem (FDirect r b nm) x) VNull =
    match row_with (r_pv r) (cell (r_cv r) x) (R (r_pe r)) with
    | Some m => or_default (fdefault b) (nth j (sem b m) VNull)
    | None => fdefault b
    end.
  Proof.
    intros Hf Hj. cbn [sem_with]. rewrite (given_none given Hov (FDirect r b nm)) by (intros []). destruct (row_with _ _ _) as [m|].
    - destruct (direct_base _ _ _ Hf) as (_ & Hb & _). rewrite (nth_map_null _ _ _ VNull); [reflexivity | rewrite (semw_length b Hb); exact Hj].
    - apply nth_repeat'. exact Hj.
  Qed.

  (** the column map of a merge *)
  Section ColMap.
    Variables (eid : string) (r : relationship) (cs : list string) (g : list feat).
    Hypothesis Hg : forall f, In f g -> calculated f /\ fentity f = eid /\ exists b nm, f = FDirect r b nm.
    Hypothesis Hng : NoDup g.
    Definition pairs_of (f : feat) : list (string * string) :=
      match f with FDirect _ b _ => combine (fnames f) (fnames b) | _ => [] end.
    Definition kept : list (string * string) := filter (fun nb => negb (mem_str (fst nb) cs)) (flat_map pairs_of g).

    Lemma pairs_snd f : In f g -> map snd (pairs_of f) = match f with FDirect _ b _ => fnames b | _ => [] end /\ map fst (pairs_of f) = fnames f.
    Proof.
      intros Hf. destruct (Hg f Hf) as (_ & _ & b & nm & ->). cbn [pairs_of].
      assert (List.length (fnames (FDirect r b nm)) = List.length (fnames b)) as E by (rewrite !fnaming_len; reflexivity).
      revert E. generalize (fnames (FDirect r b nm)). generalize (fnames b). clear. induction l as [|x l IH]; intros [|y l'] E; cbn in *; try discriminate; [auto|].
      destruct (IH l') as [E1 E2]; [lia|]. split; f_equal; assumption.
    Qed.

    Lemma kept_spec n bn : In (n, bn) kept <-> ~ In n cs /\ exists b nm j, In (FDirect r b nm) g /\ nth_error (fnames (FDirect r b nm)) j = Some n /\ nth_error (fnames b) j = Some bn.
    Proof.
      unfold kept. rewrite filter_In, in_flat_map. cbn [fst]. split.
      - intros [(f & Hf & Hin) Hn]. split; [intros Hc; apply mem_str_In in Hc; rewrite Hc in Hn; discriminate|].
        destruct (Hg f Hf) as (_ & _ & b & nm & ->). cbn [pairs_of] in Hin. apply combine_nth_error in Hin as (j & H1 & H2). eauto 8.
      - intros [Hn (b & nm & j & Hf & H1 & H2)]. split.
        + exists (FDirect r b nm). split; [exact Hf|]. cbn [pairs_of]. eapply combine_In_nth; eassumption.
        + destruct (mem_str n cs) eqn:E; [apply mem_str_In in E; contradiction | reflexivity].
    Qed.

    Lemma pairs_NoDup : NoDup (map snd (flat_map pairs_of g)).
    Proof.
      assert (forall gs, List.incl gs g -> NoDup gs -> NoDup (map snd (flat_map pairs_of gs))) as H; [|apply H; [apply incl_refl | exact Hng]].
      induction gs as [|f gs IH]; intros Hi Hn; cbn [flat_map map]; [constructor|]. inversion Hn as [|x l Hx Hl]; subst.
      assert (In f g) as Hf by (apply Hi; left; reflexivity). rewrite map_app. destruct (pairs_snd f Hf) as [E _].
      destruct (Hg f Hf) as (C1 & _ & b & nm & ->). destruct (direct_base _ _ _ C1) as (_ & Hb & _).
      assert (forall l1 l2 : list string, NoDup l1 -> NoDup l2 -> (forall x, In x l1 -> ~ In x l2) -> NoDup (l1 ++ l2)) as Happ.
      { clear. induction l1 as [|x l1 IH]; intros l2 H1 H2 H; cbn; [exact H2|]. inversion H1; subst. constructor.
        - rewrite in_app_iff. intros [Hx|Hx]; [contradiction | exact (H x (or_introl eq_refl) Hx)].
        - apply IH; auto. intros y Hy. apply H. right; exact Hy. }
      apply Happ.
      - rewrite E. apply dep_names_NoDup. exact Hb.
      - apply IH; [intros y Hy; apply Hi; right; exact Hy | exact Hl].
      - rewrite E. intros bn H1 H2. apply in_map_iff in H2 as ([n' bn'] & Ebn & H2). cbn in Ebn. subst bn'. apply in_flat_map in H2 as (f' & Hf' & H2).
        destruct (Hg f' (Hi f' (or_intror Hf'))) as (C2 & _ & b' & nm' & ->). cbn [pairs_of] in H2. apply in_combine_r in H2.
        apply Hx. rewrite (pf_direct rels fs Hpf r b nm b' nm' bn C1 C2 H1 H2). exact Hf'.
    Qed.

    Lemma In_dset (k v : string) (m : list (string * string)) k' v' : NoDup (map fst m) -> (In (k', v') (dset String.eqb k v m) <-> (k' = k /\ v' = v) \/ (k' <> k /\ In (k', v') m)).
    Proof.
      intros Hn. assert (NoDup (map fst (dset String.eqb k v m))) as Hn' by (apply (dset_NoDup _ String.eqb_spec); exact Hn).
      assert (forall (m : list (string * string)) k' v', NoDup (map fst m) -> (In (k', v') m <-> dget String.eqb k' m = Some v')) as E.
      { intros m0 a b H. split; [apply (dget_NoDup_In _ String.eqb_spec); exact H | apply (dget_In _ String.eqb_spec)]. }
      rewrite (E _ _ _ Hn'), (E _ _ _ Hn). destruct (String.eqb_spec k' k) as [->|Hk].
      - rewrite (dget_dset_same _ String.eqb_spec). split; [intros [= ->]; auto | intros [[_ ->]|[H _]]; [reflexivity | congruence]].
      - rewrite (dget_dset_other _ String.eqb_spec) by exact Hk. tauto.
    Qed.

    Lemma fold_dset (P : list (string * string)) : forall m, NoDup (map snd P) -> NoDup (map fst m) ->
      let m' := fold_left (fun m nb => dset String.eqb (snd nb) (fst nb) m) P m in
      NoDup (map fst m') /\ forall bn n, In (bn, n) m' <-> In (n, bn) P \/ (In (bn, n) m /\ ~ In bn (map snd P)).
    Proof.
      induction P as [|[n0 bn0] P IH]; intros m HP Hm; cbn [fold_left map fst snd] in *.
      - split; [exact Hm|]. cbn. tauto.
      - inversion HP as [|x l Hx Hl]; subst. destruct (IH (dset String.eqb bn0 n0 m) Hl) as [I1 I2]; [apply (dset_NoDup _ String.eqb_spec); exact Hm|]. cbv zeta in *.
        split; [exact I1|]. intros bn n. rewrite I2, (In_dset _ _ _ _ _ Hm). cbn [In]. split.
        + intros [H|[[[-> ->]|[H1 H2]] H3]]; [auto | auto|]. right. split; [exact H2|]. intros [H|H]; [congruence | contradiction].
        + intros [[H|H]|[H1 H2]]; [injection H as <- <-; right; split; [auto | exact Hx] | auto|].
          right. split; [right; split; [intros ->; apply H2; auto | exact H1] | intros H; apply H2; auto].
    Qed.

    Lemma col_map_eq child : cols child = cs -> direct_col_map es child r g = fold_left (fun m nb => dset String.eqb (snd nb) (fst nb) m) kept [(r_pv r, r_cv r)].
    Proof.
      intros Ec. unfold direct_col_map, kept. rewrite Ec. generalize [(r_pv r, r_cv r)]. clear Ec. clear Hg Hng. induction g as [|f gs IH]; intros m; cbn [fold_left flat_map]; [reflexivity|].
      rewrite IH. clear IH. rewrite filter_app, fold_left_app. f_equal.
      destruct f as [|rel b nm| | | |]; try reflexivity. cbn [pairs_of]. generalize (combine (fnames (FDirect rel b nm)) (fnames b)). intros l. revert m.
      induction l as [|nb l IH]; intros m; cbn [fold_left filter]; [reflexivity|]. destruct (mem_str (fst nb) cs); cbn [negb fold_left]; apply IH.
    Qed.

    Lemma direct_map child : cols child = cs ->
      NoDup (map fst (direct_col_map es child r g)) /\
      forall bn n, In (bn, n) (direct_col_map es child r g) <-> In (n, bn) kept \/ (bn = r_pv r /\ n = r_cv r /\ ~ In bn (map snd kept)).
    Proof.
      intros Ec. rewrite (col_map_eq child Ec). destruct (fold_dset kept [(r_pv r, r_cv r)]) as [H1 H2].
      - unfold kept. pose proof pairs_NoDup as H. revert H. generalize (flat_map pairs_of g). clear. induction l as [|x l IH]; intros H; cbn [filter]; [exact H|].
        cbn [map] in H. inversion H as [|y l' Hy Hl]; subst. destruct (negb _); [|apply IH; exact Hl]. cbn [map]. constructor; [|apply IH; exact Hl].
        intros Hin. apply Hy. apply in_map_iff in Hin as (z & Ez & Hz). apply filter_In in Hz as [Hz _]. apply in_map_iff. eauto.
      - constructor; [intros [] | constructor].
      - split; [exact H1|]. intros bn n. rewrite H2. cbn [In]. split; [intros [H|[[H0|[]] H]]; [auto | injection H0 as <- <-; auto] | intros [H|(-> & -> & H)]; auto].
    Qed.
  End ColMap.

  Lemma fills_spec eid r g : (forall f, In f g -> calculated f /\ fentity f = eid /\ exists b nm, f = FDirect r b nm) -> NoDup g ->
    NoDup (map fst (direct_fills es g)) /\
    forall n v, dget String.eqb n (direct_fills es g) = Some v -> exists f, In f g /\ In n (fnames f) /\ v = fdefault f.
  Proof.
    intros Hg Hng. split.
    - induction g as [|f g IH]; [constructor|]. inversion Hng as [|x l Hx Hl]; subst. unfold direct_fills in *. cbn [flat_map]. rewrite map_app.
      assert (forall l1 l2 : list string, NoDup l1 -> NoDup l2 -> (forall x, In x l1 -> ~ In x l2) -> NoDup (l1 ++ l2)) as Happ.
      { clear. induction l1 as [|x l1 IH]; intros l2 H1 H2 H; cbn; [exact H2|]. inversion H1; subst. constructor.
        - rewrite in_app_iff. intros [Hx|Hx]; [contradiction | exact (H x (or_introl eq_refl) Hx)].
        - apply IH; auto. intros y Hy. apply H. right; exact Hy. }
      destruct (Hg f (or_introl eq_refl)) as (Cf & Ef & _).
      apply Happ.
      + destruct (is_null (fdefault f)); [constructor|]. rewrite map_map. cbn [fst]. rewrite map_id. apply (names_NoDup es fs Hcn f Cf).
      + apply IH; [|exact Hl]. intros f' Hf'. apply Hg. right; exact Hf'.
      + intros n H1 H2. destruct (is_null (fdefault f)); [destruct H1|]. rewrite map_map in H1. cbn [fst] in H1. rewrite map_id in H1.
        apply in_map_iff in H2 as ([n' v] & En & H2). cbn in En. subst n'. apply in_flat_map in H2 as (f' & Hf' & H2).
        destruct (is_null (fdefault f')); [destruct H2|]. apply in_map_iff in H2 as (n'' & En & H2). injection En as -> _.
        destruct (Hg f' (or_intror Hf')) as (Cf' & Ef' & _). apply In_nth_error in H1 as (j & Hj). apply In_nth_error in H2 as (j' & Hj').
        destruct (cn_columns es fs Hcn f f' j j' n Cf Cf') as [<- _]; try congruence.
    - intros n v H. apply (dget_In _ String.eqb_spec) in H. unfold direct_fills in H. apply in_flat_map in H as (f & Hf & H).
      destruct (is_null (fdefault f)); [destruct H|]. apply in_map_iff in H as (n' & E & H). injection E as -> <-. eauto.
  Qed.

  Lemma direct_sees eid L rs g r : lvl_ok eid L -> NoDup g ->
    (forall f, In f g -> calculated f /\ fentity f = eid /\ exists b nm, f = FDirect r b nm) ->
    forall (look : list edge -> res df) d d' q, sees eid L d rs ->
    (forall p, look [(true, r)] = Ok p -> sees (r_pe r) [] p (filter q (R (r_pe r)))) ->
    (forall x m, In x rs -> In m (R (r_pe r)) -> cell (r_pv r) m = cell (r_cv r) x -> q m = true) ->
    calc_direct es look g d = Ok d' ->
    sees eid L d' rs /\ List.incl (cols d) (cols d') /\ forall f, In f g -> done d' rs f.
  Proof.
    intros HL Hng Hg look d d' q Hs Hlook Hq H. unfold calc_direct in H.
    assert (exists parent, look [(true, r)] = Ok parent /\ List.incl (map fst (direct_col_map es d r g)) (cols parent) /\ In (r_cv r) (cols d) /\ g <> [] /\
      d' = (let new := map (fun bn => (snd bn, fst bn)) (filter (fun bn => negb (String.eqb (snd bn) (r_cv r))) (direct_col_map es d r g)) in
       fillna (direct_fills es g) (mkDf (cols d ++ map fst new)
               (left_merge (rows d) (cell (r_cv r)) (map (fun pr => (cell (r_pv r) pr, pr)) (rows parent)) new)))) as (parent & Hp & Hmc & Hcv & Hgne & Ed').
    { destruct g as [|f0 g0]; [discriminate|]. destruct (Hg f0 (or_introl eq_refl)) as (_ & _ & b & nm & ->).
      apply bind_Ok in H as (parent & Hp & H). cbv zeta in H. apply bind_Ok in H as (us & Hus & H). apply bind_Ok in H as (u & Hu & H). apply bind_Ok in H as (u' & Hu' & H).
      injection H as <-. exists parent. split; [exact Hp|]. split; [eapply mapM_check_Ok; exact Hus|]. split; [eapply check_col_Ok; exact Hu'|]. split; [discriminate | reflexivity]. }
    clear H. specialize (Hlook parent Hp).
    destruct (direct_map eid r (cols d) g Hg Hng d eq_refl) as [Hm1 Hm2]. set (m := direct_col_map es d r g) in *.
    cbv zeta in Ed'. set (new := map (fun bn => (snd bn, fst bn)) (filter (fun bn => negb (String.eqb (snd bn) (r_cv r))) m)) in *.
    assert (In r rels /\ r_ce r = eid) as [Hr Hre].
    { destruct g as [|f0 g0]; [congruence|]. destruct (Hg f0 (or_introl eq_refl)) as (C & E & b & nm & ->). split; [apply (direct_base _ _ _ C) | exact E]. }
    destruct (child_get es Hes r Hr) as (ec & Hec). destruct (parent_get es Hes r Hr) as (ep & Hep).
    destruct (child_link es Hes r ec Hr Hec) as [Hcvc _]. rewrite Hre in Hec.

    assert (forall n bn, In (n, bn) new <-> In (n, bn) (kept (cols d) g)) as Hnew.
    { intros n bn. unfold new. rewrite in_map_iff. split.
      - intros ([bn' n'] & E & Hin). cbn in E. injection E as -> ->. apply filter_In in Hin as [Hin Hne]. apply Hm2 in Hin as [Hin|(-> & -> & _)]; [exact Hin|].
        cbn [snd] in Hne. rewrite String.eqb_refl in Hne. discriminate.
      - intros Hin. exists (bn, n). split; [reflexivity|]. apply filter_In. split; [apply Hm2; auto|]. cbn [snd].
        destruct (String.eqb_spec n (r_cv r)) as [->|]; [|reflexivity]. exfalso.
        apply (kept_spec eid r (cols d) g Hg) in Hin as (Hn & _). contradiction. }
    assert (forall n bn, In (n, bn) new <-> ~ In n (cols d) /\ exists b nm j, In (FDirect r b nm) g /\ nth_error (fnames (FDirect r b nm)) j = Some n /\ nth_error (fnames b) j = Some bn) as Hnew'.
    { intros n bn. rewrite Hnew. apply (kept_spec eid r (cols d) g Hg). }
    assert (NoDup (map fst new)) as Hnn.
    { assert (NoDup m) as Hmm by (eapply NoDup_map_inv; exact Hm1). unfold new. rewrite map_map. cbn [fst].
      apply NoDup_map_inj; [|apply NoDup_filter; exact Hmm].
      assert (forall bn n, In (bn, n) (filter (fun bn => negb (String.eqb (snd bn) (r_cv r))) m) -> In (n, bn) new) as Hin.
      { intros bn n Hin. unfold new. apply in_map_iff. exists (bn, n). auto. }
      intros [bn n] [bn' n'] H1 H2 E. cbn in E. subst n'. apply Hin, Hnew' in H1, H2. destruct H1 as (_ & b & nm & j & Hf & Hj & Hb). destruct H2 as (_ & b' & nm' & j' & Hf' & Hj' & Hb').
      destruct (Hg _ Hf) as (C & E & _). destruct (Hg _ Hf') as (C' & E' & _). destruct (cn_columns es fs Hcn _ _ j j' n C C') as [Ef Ej]; [congruence | exact Hj | exact Hj' |].
      injection Ef as <- <-. subst j'. congruence. }
    (* the parent's rows *)
    assert (lvl_ok (r_pe r) []) as HLp by constructor.
    pose proof (sees_index es T tw incl given fs Hes Hcn Hov (r_pe r) ep [] parent _ HLp Hep Hlook) as Fi. rewrite <- (parent_index es Hes r ep Hr Hep) in Fi.
    assert (NoDup (map (cell (r_pv r)) (R (r_pe r)))) as HndR. { rewrite (parent_index' es Hes r Hr). apply R_NoDup; assumption. }
    assert (NoDup (map fst (map (fun pr => (cell (r_pv r) pr, pr)) (rows parent)))) as Hndp.
    { rewrite map_map. change (NoDup (map (cell (r_pv r)) (rows parent))). rewrite (Forall2_map_eq _ _ _ _ Fi). apply NoDup_map_filter. exact HndR. }
    rewrite (left_merge_unique _ _ _ _ Hndp) in Ed'.
    assert (forall x, In x (rows d) -> True) as _ by auto.
    destruct (fills_spec eid r g Hg Hng) as [Hfn Hfs].
    assert (forall c, In c (cols d') <-> In c (cols d) \/ In c (map fst new)) as Hcd'. { intros c. rewrite Ed'. unfold fillna. cbn [cols]. apply in_app_iff. }
    assert (List.incl (cols d) (cols d')) as Hincl by (intros c Hc; apply Hcd'; auto).
    (* the value found in the parent *)
    assert (forall x xr n bn b nm j, In xr rs -> sees_row eid L (cols d) x xr -> In (FDirect r b nm) g -> nth_error (fnames (FDirect r b nm)) j = Some n -> nth_error (fnames b) j = Some bn -> ~ In n (cols d) ->
      or_default (fdefault b) (cell n (merge_row (cell (r_cv r)) (map (fun pr => (cell (r_pv r) pr, pr)) (rows parent)) new x)) = nth j (sem (FDirect r b nm) xr) VNull) as Hval.
    { intros x xr n bn b nm j Hxr Hx Hf Hj Hb Hnc. assert (In (n, bn) new) as Hin by (apply Hnew'; eauto 8).
      rewrite (merge_row_new _ _ _ _ n bn Hnn Hin). destruct (Hg _ Hf) as (C & E & _). destruct (direct_base _ _ _ C) as (_ & Hnb & Hbe).
      rewrite (direct_sem r b nm xr j C) by (apply nth_error_len in Hb; rewrite fnaming_len in Hb; exact Hb).
      assert (cell (r_cv r) x = cell (r_cv r) xr) as Ecv by (eapply sr_raw; [exact Hes | exact Hcn | exact Hov | exact HL | exact Hec | exact Hx | exact Hcv | exact Hcvc]).
      rewrite Ecv.
      rewrite <- (row_with_part (r_pv r) (cell (r_cv r) xr) (R (r_pe r)) q HndR (fun m0 Hm0 E0 => Hq xr m0 Hxr Hm0 E0)).
      destruct Hlook as [_ Hlook].
      assert (In bn (cols parent)) as Hbc. { apply Hmc. apply in_map_iff. exists (bn, n). split; [reflexivity|]. apply Hm2. left. apply Hnew. exact Hin. }
      clear -Hes Hcn Hov Hovl Hwt Hlook Fi Hnb Hbe Hb Hbc HLp. revert Hlook Fi. generalize (filter q (R (r_pe r))). unfold row_with. induction (rows parent) as [|pr prs IH]; intros ms H1 H2; inversion H1 as [|a b0 l l' Hab Hl]; subst; cbn [find map].
      - reflexivity.
      - cbn [fst]. inversion H2 as [|a1 b1 l1 l1' E1 Hl1]; subst. rewrite E1. destruct (val_eqb (cell (r_pv r) b0) (cell (r_cv r) xr)).
        + cbn [snd]. f_equal. eapply dep_cell; [exact HLp | exact Hab | exact Hnb | exact Hbe | exact Hb | exact Hbc].
        + apply IH; assumption. }
    split; [|split; [exact Hincl|]].
    - split; [apply Hincl, Hs|]. rewrite Ed'. unfold fillna. cbn [rows cols]. rewrite map_map. apply Forall2_map_l. destruct Hs as [_ Hs].
      eapply Forall2_impl; [|exact Hs]. intros x xr _ Hxr Hx. set (cs' := cols d ++ map fst new) in *.
      assert (forall c, In c cs' <-> In c (cols d) \/ In c (map fst new)) as Hcs' by (intros c; apply in_app_iff).
      set (x1 := merge_row _ _ new x) in *.
      assert (forall c, ~ In c (map fst new) -> cell c x1 = cell c x) as Hold by (intros c Hc; apply merge_row_other; exact Hc).
      split; [exact (proj1 Hx)|]. split.
      + intros c Hc. rewrite (fillna_cell (direct_fills es g) cs' x1 c Hfn).
        destruct (in_dec string_dec c (cols d)) as [Hcd|Hcd].
        * assert (~ In c (map fst new)) as Hcn'. { intros Hin. apply in_map_iff in Hin as ([n bn] & <- & Hin). apply Hnew' in Hin as [Hin _]. contradiction. }
          rewrite (Hold c Hcn'). assert (means eid L c xr (cell c x)) as Hm0 by (apply Hx; exact Hcd).
          destruct (dget String.eqb c (direct_fills es g)) as [v|] eqn:Ev; [|exact Hm0]. destruct (Hfs c v Ev) as (f & Hf & Hcf & ->).
          destruct (mem_str c cs' && is_null (cell c x)) eqn:En; [|exact Hm0]. apply andb_true_iff in En as [_ En].
          apply In_nth_error in Hcf as (j & Hj). destruct (Hg f Hf) as (C & E & b & nm & ->).
          pose proof (mn_feat es T tw incl given fs eid L c xr _ j C E Hj) as Hmf. rewrite (means_fun es T tw incl given fs Hes Hcn Hov eid L c xr _ _ HL (proj1 Hx) Hm0 Hmf) in En.
          assert (nth j (sem (FDirect r b nm) xr) VNull = fdefault (FDirect r b nm)) as <-; [|exact Hmf].
          revert En. rewrite (direct_sem r b nm xr j C) by (apply nth_error_len in Hj; rewrite fnaming_len in Hj; exact Hj). cbn [fdefault]. destruct (row_with _ _ _); [|reflexivity].
          unfold or_default. destruct (is_null (nth j (sem b _) VNull)) eqn:E2; [reflexivity | congruence].
        * apply Hcs' in Hc as Hc2. destruct Hc2 as [Hc2|Hin]; [contradiction|]. apply in_map_iff in Hin as ([n bn] & En & Hin). cbn in En. subst n.
          apply Hnew' in Hin as (_ & b & nm & j & Hf & Hj & Hb). destruct (Hg _ Hf) as (C & E & _).
          pose proof (Hval x xr c bn b nm j Hxr Hx Hf Hj Hb Hcd) as Hv. fold x1 in Hv.
          assert (match dget String.eqb c (direct_fills es g) with Some v => if mem_str c cs' && is_null (cell c x1) then v else cell c x1 | None => cell c x1 end
            = or_default (fdefault b) (cell c x1)) as ->.
          { rewrite (proj2 (mem_str_In c cs') Hc). cbn [andb]. unfold or_default.
            destruct (is_null (fdefault b)) eqn:Ed.
            - assert (dget String.eqb c (direct_fills es g) = None \/ exists v, dget String.eqb c (direct_fills es g) = Some v) as [Ev|(v & Ev)] by (destruct (dget _ _ _); eauto).
              + rewrite Ev. destruct (is_null (cell c x1)) eqn:E1; [|reflexivity]. destruct (cell c x1), (fdefault b); try discriminate; reflexivity.
              + rewrite Ev. destruct (Hfs c v Ev) as (f' & Hf' & Hcf' & ->). destruct (Hg f' Hf') as (C' & E' & _). apply In_nth_error in Hcf' as (j' & Hj').
                destruct (cn_columns es fs Hcn _ _ j j' c C C') as [<- _]; [congruence | exact Hj | exact Hj' |]. reflexivity.
            - assert (dget String.eqb c (direct_fills es g) = Some (fdefault b)) as ->; [|reflexivity].
              apply (dget_NoDup_In _ String.eqb_spec); [exact Hfn|]. unfold direct_fills. apply in_flat_map. exists (FDirect r b nm). split; [exact Hf|]. cbn [fdefault]. rewrite Ed.
              apply in_map_iff. exists c. split; [reflexivity | eapply nth_error_In; exact Hj]. }
          rewrite Hv. apply mn_feat; assumption.
      + intros c Hc. rewrite (fillna_cell (direct_fills es g) cs' x1 c Hfn). destruct (mem_str c cs') eqn:Em; [apply mem_str_In in Em; contradiction|]. cbn [andb].
        assert (cell c x1 = VNull) as ->; [|destruct (dget _ _ _); reflexivity].
        rewrite Hold by (intros Hin; apply Hc, Hcs'; auto). apply Hx. intros Hin. apply Hc, Hcs'; auto.
    - intros f Hf. left. intros c Hc. apply Hcd'. destruct (in_dec string_dec c (cols d)) as [Hcd|Hcd]; [auto|]. right.
      apply In_nth_error in Hc as (j & Hj). destruct (Hg f Hf) as (C & E & b & nm & ->).
      destruct (nth_error_ex (fnames b) j) as (bn & Hbn). { apply nth_error_len in Hj. rewrite fnaming_len in *. exact Hj. }
      apply in_map_iff. exists (c, bn). split; [reflexivity|]. apply Hnew'. eauto 8.
  Qed.
End Value3.

(** where nothing a feature reads is given, its meaning is the usual one *)
Lemma sem_with_reads es T tw incl given : forall f, (forall d, reaches f d -> given d = None) ->
  forall r, sem_with es T tw incl given f r = S_Sem.sem es T tw incl f r.
Proof.
  intros f. remember (fsize f) as n eqn:En. revert f En. induction n as [n IH] using lt_wf_ind. intros f En Hn r. subst n.
  assert (given f = None) as Ef by (apply Hn, reaches_refl).
  assert (forall d, In d (fdeps f) -> forall r', sem_with es T tw incl given d r' = S_Sem.sem es T tw incl d r') as Hd.
  { intros d Hd. apply (IH (fsize d) (fsize_dep f d Hd) d eq_refl). intros d' Hd'. apply Hn. eapply reaches_trans; [|exact Hd'].
    eapply reaches_dep; [exact Hd | apply reaches_refl]. }
  assert (forall b, In b (fbases f) -> forall r', sem_with es T tw incl given b r' = S_Sem.sem es T tw incl b r') as Hb.
  { intros b Hb. apply Hd. unfold fdeps. apply in_app_iff. left. exact Hb. }
  assert (forall bs rs, (forall b, In b bs -> In b (fbases f)) ->
    map (fun b => map (fun r' => hd VNull (sem_with es T tw incl given b r')) rs) bs = map (fun b => map (fun r' => hd VNull (S_Sem.sem es T tw incl b r')) rs) bs) as Hm.
  { intros bs rs Hin. apply map_ext_in. intros b Hbin. apply map_ext. intros r'. rewrite (Hb b (Hin b Hbin)). reflexivity. }
  destruct f as [e v nm|rel b nm|p bs path u wh prev nm|p bs nm|p bs g nm|b k nm]; cbn [sem_with S_Sem.sem]; rewrite Ef; cbn [fbases] in *.
  - reflexivity.
  - destruct (row_with _ _ _) as [m|]; [|reflexivity]. rewrite (Hb b (or_introl eq_refl)). reflexivity.
  - cbv zeta. match goal with |- match previous _ _ _ ?k1 with _ => _ end = match previous _ _ _ ?k2 with _ => _ end => assert (k1 = k2) as Ek end.
    { destruct wh as [w|]; [|reflexivity]. apply filter_ext. intros c. rewrite (Hd w); [reflexivity|]. unfold fdeps. apply in_app_iff. right. left. reflexivity. }
    rewrite Ek. destruct (previous _ _ _ _) as [|r0 rs]; [reflexivity|]. rewrite (Hm bs (r0 :: rs) (fun b Hbin => Hbin)). reflexivity.
  - cbv zeta. rewrite (Hm bs _ (fun b Hbin => Hbin)). reflexivity.
  - cbv zeta. rewrite (Hb g) by (apply in_app_iff; right; left; reflexivity). destruct (is_null _); [reflexivity|].
    rewrite (filter_ext (fun r' => val_eqb (hd VNull (sem_with es T tw incl given g r')) (hd VNull (S_Sem.sem es T tw incl g r)))
      (fun r' => val_eqb (hd VNull (S_Sem.sem es T tw incl g r')) (hd VNull (S_Sem.sem es T tw incl g r)))).
    + rewrite (Hm bs _ (fun b Hbin => in_or_app _ _ _ (or_introl Hbin))). reflexivity.
    + intros r'. rewrite (Hb g) by (apply in_app_iff; right; left; reflexivity). reflexivity.
  - rewrite (Hb b (or_introl eq_refl)). reflexivity.
Qed.

Lemma sem_with_none es T tw incl f r : sem_with es T tw incl (fun _ => None) f r = S_Sem.sem es T tw incl f r.
Proof. apply sem_with_reads. reflexivity. Qed.

Lemma sem_length es T tw incl fs : (forall f, needed fs f -> wt (es_rels es) f) -> plain_features (es_rels es) fs ->
  forall f, needed fs f -> forall r, List.length (S_Sem.sem es T tw incl f r) = fnout f.
Proof.
  intros Hwt Hpf f Hf r. rewrite <- sem_with_none. apply (semw_length es T tw incl (fun _ => None) fs Hwt Hpf); [discriminate | exact Hf].
Qed.
