(** Lemmas for C12: the frames calculated beforehand hold the values at the rounded time. *)
From Verif Require Import Base BaseFacts M_Schema S_Schema M_Trie M_Table M_Query S_Query L_Query S_View L_View
  M_Feature M_FeatureSet M_Calc S_Calc S_Group S_Plan S_Sem S_Value S_Approx L_Trie L_Frame L_FeatureSet L_Plan L_Group P_Select L_Schema
  L_Value1 L_Value2 L_Value3 L_Value4 L_Value5 L_Value6 L_Value7 P_Serialize P_Value X_Demo M_CFM S_CFM L_CFM P_CFM P_EndToEnd
  M_Time L_Time M_Approx L_Gather.

(** the cell of one of several lists of columns *)
Lemma combine_app {A B} (ns : list A) : forall (vs : list B) ns' vs', List.length ns = List.length vs -> combine (ns ++ ns') (vs ++ vs') = combine ns vs ++ combine ns' vs'.
Proof. induction ns as [|a ns IH]; intros [|b vs] ns' vs' E; try discriminate E; [reflexivity|]. cbn [app combine]. f_equal. apply IH. now injection E. Qed.

Lemma combine_cell (names : feat -> list string) (vals : feat -> list val) f k n : forall gs,
  (forall g, In g gs -> List.length (names g) = List.length (vals g)) ->
  (forall g j, In g gs -> nth_error (names g) j = Some n -> g = f /\ j = k) ->
  In f gs -> nth_error (names f) k = Some n ->
  cell n (combine (flat_map names gs) (flat_map vals gs)) = nth k (vals f) VNull.
Proof.
  intros gs Hlen Hu Hf Hk.
  assert (forall l1 l2 : row, ~ In n (map fst l1) -> dget String.eqb n (l1 ++ l2) = dget String.eqb n l2) as Happ.
  { induction l1 as [|[a b] l1 IH]; intros l2 Hno; [reflexivity|]. cbn [app dget]. cbn [map fst] in Hno. destruct (String.eqb_spec n a) as [<-|Hne]; [exfalso; apply Hno; left; reflexivity|]. apply IH. intros Hx. apply Hno; right; exact Hx. }
  assert (forall l1 l2 : row, forall w, dget String.eqb n l1 = Some w -> dget String.eqb n (l1 ++ l2) = Some w) as Happ2.
  { induction l1 as [|[a b] l1 IH]; intros l2 w Hg; [discriminate|]. cbn [app dget] in *. destruct (String.eqb n a); [exact Hg | apply IH; exact Hg]. }
  assert (dget String.eqb n (combine (names f) (vals f)) = Some (nth k (vals f) VNull)) as Hself.
  { pose proof (Hlen f Hf) as Hl. assert (forall j, nth_error (names f) j = Some n -> j = k) as Hu' by (intros j Hj; exact (proj2 (Hu f j Hf Hj))).
    revert Hk Hl Hu'. generalize (names f) as ns, (vals f) as vs. clear. intros ns vs. revert k vs.
    induction ns as [|a ns IH]; intros k vs Hk Hl Hu; [destruct k; discriminate|]. destruct vs as [|b vs]; [discriminate|]. cbn [combine dget].
    destruct (String.eqb_spec n a) as [<-|Hne].
    - assert (0 = k) as <- by (apply (Hu 0); reflexivity). reflexivity.
    - destruct k as [|k]; [injection Hk as E; congruence|]. cbn [nth]. apply (IH k vs); [exact Hk | now injection Hl|]. intros j Hj. assert (S j = S k) as Ej by (apply (Hu (S j)); exact Hj). congruence. }
  unfold cell. assert (dget String.eqb n (combine (flat_map names gs) (flat_map vals gs)) = Some (nth k (vals f) VNull)) as ->; [|reflexivity].
  assert (forall g, In g gs -> In g gs) as Hsub by auto. revert Hsub Hf. generalize gs at 2 as all. revert Hlen Hu.
  induction gs as [|g gs IH]; intros Hlen Hu all _ Hf; [destruct Hf|]. cbn [flat_map]. rewrite combine_app by (apply Hlen; left; reflexivity).
  destruct (in_dec string_dec n (names g)) as [Hi|Hi].
  - apply In_nth_error in Hi as (j & Hj). destruct (Hu g j (or_introl eq_refl) Hj) as [-> _]. apply Happ2, Hself.
  - rewrite Happ; [|intros Hx; apply in_map_iff in Hx as ([a b] & E1 & Hx); apply in_combine_l in Hx; cbn [fst] in E1; subst a; contradiction].
    apply (IH) with (all := gs); [intros g' Hg'; apply Hlen; right; exact Hg' | intros g' j Hg'; apply Hu; right; exact Hg' | auto|].
    destruct Hf as [->|Hf]; [exfalso; apply Hi; eapply nth_error_In; exact Hk | exact Hf].
Qed.

(** ** the instances at the end of a path *)
Section Follow.
  Variable es : entityset.

  Fixpoint chain (p : list edge) (pv : string) (v w : val) : Prop :=
    match p with
    | [] => v = w
    | (_, r) :: p' => exists e x, es_get es (r_ce r) = Ok e /\ In x (rows (e_df e)) /\ cell pv x = v /\ chain p' (r_pv r) (cell (r_cv r) x) w
    end.
  Fixpoint last_var (p : list edge) (pv : string) : string := match p with [] => pv | (_, r) :: p' => last_var p' (r_pv r) end.

  Lemma chain_snoc b r e x p : forall pv v w, chain p pv v w -> es_get es (r_ce r) = Ok e -> In x (rows (e_df e)) -> cell (last_var p pv) x = w ->
    chain (p ++ [(b, r)]) pv v (cell (r_cv r) x).
  Proof.
    induction p as [|[b0 r0] p IH]; intros pv v w Hc He Hx Hw; cbn [chain app last_var] in *.
    - subst w. exists e, x. auto.
    - destruct Hc as (e0 & x0 & He0 & Hx0 & Hc0 & Hc). exists e0, x0. repeat split; auto. eapply IH; eassumption.
  Qed.
  Lemma last_var_snoc b r p pv : last_var (p ++ [(b, r)]) pv = r_pv r.
  Proof. revert pv. induction p as [|[b0 r0] p IH]; intros pv; cbn [app last_var]; [reflexivity | apply IH]. Qed.

  Lemma follow_complete p : forall pv cs out c v w, follow es p pv cs = Ok out -> In (c, v) cs -> chain p pv v w -> In (c, w) out.
  Proof.
    induction p as [|[b r] p IH]; intros pv cs out c v w H Hin Hc; cbn [follow chain] in *.
    - injection H as <-. subst w. exact Hin.
    - destruct Hc as (e & x & He & Hx & Hv & Hc). rewrite He in H. cbn [bind] in H. apply bind_Ok in H as (_ & _ & H). apply bind_Ok in H as (_ & _ & H).
      destruct (String.eqb pv (r_cv r)); [discriminate|]. eapply IH; [exact H | | exact Hc].
      apply in_flat_map. exists (c, v). split; [exact Hin|]. apply in_map_iff. exists x. cbn [fst snd]. split; [reflexivity|]. apply filter_In. split; [exact Hx|].
      destruct (val_eqb_spec (cell pv x) v); congruence.
  Qed.
  Lemma follow_from p : forall pv cs out c w, follow es p pv cs = Ok out -> In (c, w) out -> exists v, In (c, v) cs.
  Proof.
    induction p as [|[b r] p IH]; intros pv cs out c w H Hin; cbn [follow] in H.
    - injection H as <-. eauto.
    - apply bind_Ok in H as (e & He & H). apply bind_Ok in H as (_ & _ & H). apply bind_Ok in H as (_ & _ & H).
      destruct (String.eqb pv (r_cv r)); [discriminate|]. destruct (IH _ _ _ _ _ H Hin) as (v & Hv). apply in_flat_map in Hv as ([c0 v0] & H0 & Hv).
      apply in_map_iff in Hv as (x & E & _). injection E as <- _. eauto.
  Qed.
End Follow.

Section Frames.
  Variables (es : entityset) (idvars : string -> list string) (ord : list string -> list string) (tw : option window) (incl : bool) (fs : list feat) (eid : string).
  Variables (sort_ids : list val -> list val) (now : Z).
  Hypothesis Hv : valid_request es idvars ord tw fs eid.
  Hypothesis Hsort : forall l, Permutation (sort_ids l) l.
  Notation rels := (es_rels es).
  Notation Hwt := (request_wt es idvars ord tw fs eid Hv).
  Notation Hcn := (vr_names _ _ _ _ _ _ Hv).
  Notation Hes := (vr_es _ _ _ _ _ _ Hv).
  Notation Hip := (vr_index _ _ _ _ _ _ Hv).
  Notation Hw := (vr_window _ _ _ _ _ _ Hv).

  (** features of another entity that are needed can be requested there *)
  Lemma request_below afs aeid : (forall f, In f afs -> needed fs f /\ ~ is_slice f /\ fentity f = aeid) -> valid_request es idvars ord tw afs aeid.
  Proof.
    intros Ha. pose proof Hwt as W. destruct Hv as [H1 H2 H3 H4 H5 H6 H7 H8].
    assert (forall f, needed afs f -> needed fs f) as Hn by (intros f (f0 & Hf & Hr); destruct (Ha f0 Hf) as ((f1 & Hf1 & Hr1) & _); exists f1; split; [exact Hf1 | eapply reaches_trans; eassumption]).
    assert (forall f, calculated afs f -> calculated fs f) as Hc by (intros f [Hf Hs]; split; auto).
    constructor; try assumption; [intros f Hf; destruct (Ha f Hf) as (N & S & E); split; [apply W; exact N | auto] | |].
    - destruct H7 as [A1 A2 A3 A4 A5 A6]. constructor; [intros f g Hf Hg; apply A1; auto | intros f g i j n Hf Hg; apply A2; auto | intros f e n Hf; apply A3; auto | intros; apply A4; auto | intros b n nm Hb; apply (A5 b n nm); auto |].
      intros e c Hl. destruct (A6 e c Hl) as [B1 B2]. split; [exact B1|]. intros f Hf Ef Hl'. destruct (B2 f (Hc f Hf) Ef Hl') as [C1 C2]. split; [exact C1 | intros g Hg; apply C2; auto].
    - destruct H8 as [A1 A2 A3 A4 A5 A6 A7 A8 A9 A10]. constructor.
      + intros f g Hf Hg. apply A1; auto.
      + intros f Hf. apply A2; auto.
      + intros f g a b Hf Hg. apply A3; auto.
      + intros f d n Hf. apply A4; auto.
      + intros p bs path u wh prev nm Hf. apply (A5 p bs path u wh prev nm); auto.
      + intros p bs path u w prev nm Hf. apply (A6 p bs path u w prev nm); auto.
      + intros r b nm b' nm' n Hf Hg. apply A7; auto.
      + intros f Hf. apply A8; auto.
      + intros p bs nm Hf. apply (A9 p bs nm); auto.
      + intros p bs g nm Hf. apply (A10 p bs g nm); auto.
  Qed.

  Lemma value_of_length T f i : needed fs f -> List.length (value_of es T tw incl f i) = fnout f.
  Proof.
    intros Hf. unfold value_of. destruct (row_with _ _ _); [|apply repeat_length]. apply (sem_length es T tw incl fs Hwt (vr_plain _ _ _ _ _ _ Hv) f Hf).
  Qed.

  Lemma mapM_lookup l afs : mapM (fun n => match dget String.eqb n (features_by_name rels fs) with Some f => Ok f | None => Err KeyError end) l = Ok afs ->
    Forall2 (fun n f => needed fs f /\ funique rels f = n) l afs.
  Proof.
    revert afs. induction l as [|n l IH]; intros afs H; cbn [mapM] in H; [injection H as <-; constructor|].
    apply bind_Ok in H as (f & Hf & H). apply bind_Ok in H as (fs' & H & E). injection E as <-. constructor; [|apply IH; exact H].
    destruct (dget String.eqb n (features_by_name rels fs)) as [g|] eqn:Eg; [|discriminate]. injection Hf as <-. apply by_name_sound. exact Eg.
  Qed.

  Lemma leads_reaches f p a : leads f p a -> reaches f a.
  Proof. induction 1 as [r b nm _|r b nm p a _ IH]; (eapply reaches_dep; [left; reflexivity|]); [constructor | exact IH]. Qed.
  Lemma approximable_needed p a : approximable fs p a -> needed fs a.
  Proof. intros (_ & f & Hf & Hl & _). exists f. split; [exact Hf | eapply leads_reaches; exact Hl]. Qed.

  (** the entity at the end of a path *)
  Fixpoint path_end (e : string) (p : list edge) : string := match p with [] => e | ed :: p' => path_end (edst ed) p' end.
  Lemma path_end_snoc e p ed : path_end e (p ++ [ed]) = edst ed.
  Proof. revert e. induction p as [|x p IH]; intros e; cbn [app path_end]; [reflexivity | apply IH]. Qed.
  Lemma leads_entity f p a e : leads f p a -> wt rels f -> path_end e p = fentity a.
  Proof.
    intros H. revert e. induction H as [r b nm _|r b nm p a _ IH]; intros e W; inversion W as [|? ? ? Hr Wb Eb | | | | ]; subst; cbn [path_end edst fst snd]; [congruence | apply IH; exact Wb].
  Qed.
  Lemma leads_forward f p a : leads f p a -> forallb fst p = true.
  Proof. induction 1 as [r b nm _|r b nm p a _ IH]; cbn [forallb fst]; [reflexivity | exact IH]. Qed.

  Section At.
    Variables (F : Z) (given : feat -> option (row -> list val)).
    Hypothesis Hgiven : forall p a, approximable fs p a -> given a = Some (fun r => value_of es F tw incl a (cell (index_of es (fentity a)) r)).
    Hypothesis Hdef : forall p a, approximable fs p a -> single_column a \/ fdefault a = VNull.

    Lemma approximate_node_frame p names bs rs d : NoDup names -> (forall n, In n names <-> exists a, approximable fs p a /\ n = funique rels a) ->
      (forall c, In c bs -> c_time c = Some F) ->
      (forall r, In r rs -> exists c, In c bs /\ chain es p (index_of es eid) (c_id c) (cell (index_of es (path_end eid p)) r)) ->
      (forall r, In r rs -> cell (index_of es (path_end eid p)) r <> VNull) -> rs <> [] ->
      approximate_node es idvars ord incl sort_ids now tw fs bs p names = Ok d ->
      given_frame es given fs (path_end eid p) rs d.
    Proof.
      intros Hnd Hnames Htime Hcov Hnn Hne H. unfold approximate_node in H. apply bind_Ok in H as (e0 & He0 & H). apply bind_Ok in H as (linked & Hl & H). cbv zeta in H.
      apply bind_Ok in H as (afs & Ha & H). apply bind_Ok in H as (e & He & H). apply mapM_lookup in Ha.
      assert (e_index e0 = index_of es eid) as Ei0.
      { destruct fs as [|f0 fs'] eqn:Ef; [discriminate|]. rewrite <- Ef in *. assert (fentity f0 = eid) as E0 by (apply (vr_features _ _ _ _ _ _ Hv f0); rewrite Ef; left; reflexivity). rewrite E0 in He0. symmetry. apply index_of_eq. exact He0. }
      rewrite Ei0 in Hl.
      set (keep := filter (fun iv => negb (is_null (fst iv))) (dedup_by label_eqb [] (map (fun cv => (snd cv, c_time (fst cv))) linked))) in *.
      (* the features are the approximated ones of this path *)
      assert (forall f, In f afs -> approximable fs p f) as Happ.
      { intros f Hf. destruct (Forall2_In_r _ _ _ _ Ha Hf) as (n & Hn & Hnf & En). apply (Permutation_in _ (vr_order _ _ _ _ _ _ Hv names)) in Hn.
        apply Hnames in Hn as (a & Haa & En2). assert (f = a) as ->; [|exact Haa]. apply (cn_unique _ _ Hcn); [exact Hnf | eapply approximable_needed; exact Haa | congruence]. }
      assert (forall f, In f afs -> fentity f = path_end eid p) as Hent.
      { intros f Hf. destruct (Happ f Hf) as (_ & f0 & Hf0 & Hl0 & _). symmetry. eapply leads_entity; [exact Hl0 | apply (vr_features _ _ _ _ _ _ Hv f0 Hf0)]. }
      assert (forall f, In f afs -> calculated fs f) as Hcalc.
      { intros f Hf. split; [eapply approximable_needed, Happ, Hf|]. destruct (Happ f Hf) as (Hag & _). destruct f; try contradiction. intros []. }
      assert (valid_request es idvars ord tw afs (path_end eid p)) as Hva.
      { apply request_below. intros f Hf. destruct (Hcalc f Hf) as [H1 H2]. auto. }
      assert (e_index e = index_of es (path_end eid p)) as Ei.
      { destruct afs as [|f0 afs']; [discriminate|]. rewrite (Hent f0 (or_introl eq_refl)) in He. symmetry. apply index_of_eq. exact He. }
      assert (forall c w, In (c, w) linked -> c_time c = Some F) as Hlt.
      { intros c w Hc. destruct (follow_from _ _ _ _ _ _ _ Hl Hc) as (v & Hvv). apply in_map_iff in Hvv as (c' & E & Hc'). injection E as -> _. apply Htime. exact Hc'. }
      assert (forall iv, In iv keep -> snd iv = Some F) as Hkt.
      { intros iv Hiv. apply filter_In in Hiv as [Hiv _]. apply (dedup_In _ label_eqb_spec) in Hiv as [Hiv _]. apply in_map_iff in Hiv as ([c w] & <- & Hc). cbn [fst snd]. eapply Hlt; exact Hc. }
      assert (forall r, In r rs -> In (cell (index_of es (path_end eid p)) r, Some F) keep) as Hin.
      { intros r Hr. destruct (Hcov r Hr) as (c & Hc & Hch). apply filter_In. split.
        - apply (dedup_In _ label_eqb_spec). split; [|intros []]. apply in_map_iff. exists (c, cell (index_of es (path_end eid p)) r). cbn [fst snd]. split; [rewrite (Htime c Hc); reflexivity|].
          eapply follow_complete; [exact Hl | | exact Hch]. apply in_map_iff. exists c. auto.
        - cbn [fst]. specialize (Hnn r Hr). destruct (cell _ r); [congruence | reflexivity | reflexivity | reflexivity]. }
      destruct keep as [|k0 keep'] eqn:Ek; [exfalso; destruct rs as [|r rs']; [congruence | destruct (Hin r (or_introl eq_refl))]|]. rewrite <- Ek in *.
      assert (keep <> []) as Hkne by (rewrite Ek; discriminate).
      assert (NoDup keep) as Hknd by (unfold keep; apply NoDup_filter, (dedup_NoDup _ label_eqb_spec)).
      set (cut := map (fun iv => mkCutoff (fst iv) (snd iv) (snd iv) []) keep) in *.
      apply bind_Ok in H as (fm & Hfm & E). injection E as <-.
      assert (map (fun c => (c_id c, c_time c)) cut = keep) as Ecut by (unfold cut; rewrite map_map; cbn [c_id c_time]; rewrite <- (map_id keep) at 2; apply map_ext; intros [a b]; reflexivity).
      assert (no_silent_default afs) as Hnsd by (intros f Hf; eapply Hdef, Happ, Hf).
      assert (Forall2 (answers [] (flat_map (fnames rels) afs) (meanings es tw incl afs)) cut fm) as Hans.
      { refine (C10_matrix_answers_requests (calculator_with es idvars ord incl afs (TNode [] [])) _ _ _ _ _ _ _ Sequential false _ cut fm _ Hsort I _ _ _ Hfm).
        - exact (C07_pointwise_partial es idvars ord tw incl afs (path_end eid p) Hva Hnsd).
        - intros n a E. discriminate E.
        - intros num den E. injection E as _ <-. reflexivity.
        - rewrite Ecut. exact Hknd. }
      assert (map fst fm = keep) as Elab.
      { rewrite <- Ecut. clear -Hans. induction Hans as [|c m cs ms [Hh _] _ IH]; cbn [map]; [reflexivity|]. rewrite Hh, IH. reflexivity. }
      assert (forall f k n, In f afs -> nth_error (fnames rels f) k = Some n -> n <> e_index e) as Hnidx.
      { intros f k n Hf Hk ->. assert (is_ident f) as Hid.
        { apply (cn_variables _ _ Hcn f e (e_index e) (Hcalc f Hf)); [rewrite (Hent f Hf); destruct afs as [|f0 afs']; [destruct Hf|]; rewrite (Hent f0 (or_introl eq_refl)) in He; exact He | eapply nth_error_In; exact Hk |].
          destruct afs as [|f0 afs']; [destruct Hf|]. exact (proj1 (proj2 (proj1 (ent_good es Hes _ _ He)))). }
        destruct (Happ f Hf) as (Hag & _). destruct f; contradiction. }
      assert (forall g f i j n, In g afs -> In f afs -> nth_error (fnames rels g) i = Some n -> nth_error (fnames rels f) j = Some n -> g = f /\ i = j) as Huniq.
      { intros g f i j n Hg Hf Hi Hj. apply (cn_columns _ _ Hcn g f i j n (Hcalc g Hg) (Hcalc f Hf)); [rewrite (Hent g Hg), (Hent f Hf); reflexivity | exact Hi | exact Hj]. }
      assert (map (cell (e_index e)) (rows (frame_of (e_index e) (flat_map (fnames rels) afs) fm)) = map fst keep) as Eids.
      { unfold frame_of. cbn [rows]. rewrite map_map, <- Elab, map_map. apply map_ext. intros m. unfold cell. cbn [dget]. rewrite String.eqb_refl. reflexivity. }
      assert (NoDup (map fst keep)) as Hkid.
      { clear -Hknd Hkt. induction Hknd as [|[i t] l Hn Hnd IH]; cbn [map fst]; constructor; [|apply IH; intros iv Hiv; apply Hkt; right; exact Hiv].
        intros Hi. apply Hn. apply in_map_iff in Hi as ([i' t'] & E & Hi). cbn [fst] in E. subst i'.
        pose proof (Hkt (i, t) (or_introl eq_refl)) as E1. pose proof (Hkt (i, t') (or_intror Hi)) as E2. cbn [snd] in *. congruence. }
      unfold given_frame. rewrite <- Ei. rewrite Eids. split; [exact Hkid|]. split.
      - unfold frame_of. cbn [cols].
        assert (NoDup afs) as Hafn.
        { assert (NoDup (map (funique rels) afs)) as Hu; [|apply NoDup_map_inv in Hu; exact Hu].
          replace (map (funique rels) afs) with (ord names); [apply (Permutation_NoDup (Permutation_sym (vr_order _ _ _ _ _ _ Hv names))); exact Hnd|].
          clear -Ha. induction Ha as [|n f l l' [_ E] _ IH]; cbn [map]; [reflexivity | rewrite E, IH; reflexivity]. }
        clear -Hafn Huniq. induction Hafn as [|f l Hnf Hnl IH]; cbn [flat_map]; [constructor|]. apply NoDup_app'.
        + apply NoDup_nth_error. intros i j Hi Hij. destruct (nth_error (fnames rels f) i) as [n|] eqn:E1; [|apply nth_error_None in E1; lia].
          apply (Huniq f f i j n (or_introl eq_refl) (or_introl eq_refl) E1). congruence.
        + apply IH. intros g f0 i j n Hg Hf0. apply Huniq; right; assumption.
        + intros n Hn1 Hn2. apply in_flat_map in Hn2 as (g & Hg & Hn2). apply In_nth_error in Hn1 as (i & Hi). apply In_nth_error in Hn2 as (j & Hj).
          destruct (Huniq g f j i n (or_intror Hg) (or_introl eq_refl) Hj Hi) as [-> _]. contradiction.
      - unfold frame_of. cbn [cols rows]. intros c Hc. apply in_flat_map in Hc as (f & Hf & Hc). apply In_nth_error in Hc as (k & Hk).
        exists f, (fun r => value_of es F tw incl f (cell (index_of es (fentity f)) r)), k. split; [apply Hcalc; exact Hf|]. split; [apply Hent; exact Hf|]. split; [eapply Hgiven, Happ, Hf|]. split; [exact Hk|].
        intros r Hr. specialize (Hin r Hr). rewrite (Hent f Hf), <- Ei. rewrite <- Ei in Hin. set (v := cell (e_index e) r) in *.
        destruct (row_with (e_index e) v (map (fun m : mrow => (e_index e, fst (fst m)) :: snd m) fm)) as [x|] eqn:Ex.
        + apply row_with_In in Ex as [Hx Ex]. apply in_map_iff in Hx as (m & <- & Hm). unfold cell in Ex at 1. cbn [dget] in Ex. rewrite String.eqb_refl in Ex.
          destruct (Forall2_In_r _ _ _ _ Hans Hm) as (cc & Hcc & Hlab & Hcells).
          assert (c_id cc = v) as Ecid by (rewrite <- Ex, Hlab; reflexivity).
          assert (c_time cc = Some F) as Ect by (unfold cut in Hcc; apply in_map_iff in Hcc as (iv & <- & Hiv); cbn [c_time]; apply Hkt; exact Hiv).
          unfold cell at 1. cbn [dget]. destruct (String.eqb_spec c (e_index e)) as [->|Hce]; [exfalso; apply (Hnidx f k _ Hf Hk); reflexivity|].
          change (cell c (snd m) = nth k (value_of es F tw incl f v) VNull). rewrite (Hcells c), Ect. cbn [mem_str existsb]. rewrite Ecid. unfold meanings.
          apply (combine_cell (fnames rels) (fun f0 => value_of es F tw incl f0 v)).
          * intros g Hg. rewrite (value_of_length F g v (proj1 (Hcalc g Hg))). apply fnaming_len.
          * intros g j Hg Hj. apply (Huniq g f j k c Hg Hf Hj Hk).
          * exact Hf.
          * exact Hk.
        + exfalso. apply row_with_None in Ex. apply Ex. unfold frame_of in Eids. cbn [rows] in Eids. rewrite Eids. apply in_map_iff. exists (v, Some F). auto.
    Qed.
  End At.
End Frames.
