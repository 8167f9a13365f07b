(** Calculating the features of a node keeps its frame meaningful. *)
From Verif Require Import Base BaseFacts M_Schema S_Schema M_Trie M_Table M_Query S_Query L_Query S_View L_View
  M_Feature M_FeatureSet M_Calc S_Calc S_Group S_Sem S_Approx S_Value L_Frame L_FeatureSet L_Group P_Select L_Schema L_Value1 L_Value2 L_Value3 L_Value4.

Lemma NoDup_app_parts {A} (l1 l2 : list A) : NoDup (l1 ++ l2) -> NoDup l1 /\ NoDup l2.
Proof.
  induction l1 as [|a l1 IH]; cbn; intros H; [split; [constructor | exact H]|]. inversion H as [|x l Hx Hl]; subst. destruct (IH Hl) as [H1 H2].
  split; [|exact H2]. constructor; [|exact H1]. intros Ha. apply Hx, in_app_iff. auto.
Qed.

Section Value5.
  Variables (es : entityset) (T : Z) (tw : option window) (incl : bool) (given : feat -> option (row -> list val)) (fs : list feat).
  Notation rels := (es_rels es).
  Notation fname := (fname rels).
  Notation fnames := (fnames rels).
  Notation funique := (funique rels).
  Notation R := (rows_at es T tw incl).
  Notation sem := (sem_with es T tw incl given).
  Notation owner := (owner es T tw incl).
  Notation calculated := (calculated fs).
  Notation sees := (sees es T tw incl given fs).
  Notation sees_row := (sees_row es T tw incl given fs).
  Notation lvl_ok := (lvl_ok es T tw incl).
  Notation done := (done es T tw incl given).

  Hypothesis Hes : good_es es.
  Hypothesis Hip : index_present es.
  Hypothesis Hw : win_time tw.
  Hypothesis Hcn : clear_names es fs.
  Hypothesis Hov : forall f g, given f = Some g -> is_aggregation f.
  Hypothesis Hwt : forall f, needed fs f -> wt rels f.
  Hypothesis Hpf : plain_features rels fs.
  Hypothesis Hovl : forall f g r, needed fs f -> given f = Some g -> List.length (g r) = fnout f.

  Lemma map_inj_edges (p q : list relationship) : map (fun r => (false, r)) p = map (fun r => (false, r)) q -> p = q.
  Proof. revert q. induction p as [|r p IH]; intros [|r' q] H; cbn in H; try discriminate; [reflexivity|]. injection H as -> H. f_equal. apply IH; exact H. Qed.

  Lemma chain_entity path : forall a b, backward_chain rels a path b -> path <> [] -> exists e, es_get es b = Ok e.
  Proof.
    induction path as [|r path IH]; intros a b H Hne; [congruence|]. apply chain_cons_inv in H as (_ & Hr & H).
    destruct path as [|r' path]; [apply chain_nil_inv in H; subst b; apply (child_get es Hes r Hr) | eapply IH; [exact H | discriminate]].
  Qed.

  Lemma chain_end path : forall a b c, backward_chain rels a path b -> backward_chain rels a path c -> b = c.
  Proof.
    induction path as [|r path IH]; intros a b c H1 H2.
    - apply chain_nil_inv in H1, H2. congruence.
    - apply chain_cons_inv in H1 as (_ & _ & H1). apply chain_cons_inv in H2 as (_ & _ & H2). eapply IH; eassumption.
  Qed.

  (** [f] has its columns, or it needs none because all its values are the default *)
  Definition there (d : df) (rs : list row) (f : feat) : Prop :=
    List.incl (fnames f) (cols d) \/ (~ single_column f /\ forall r, In r rs -> sem f r = repeat (fdefault f) (fnout f)).

  Lemma done_there d rs f : done d rs f -> there d rs f.
  Proof. intros [H|(H1 & _ & H2)]; [left; exact H | right; split; assumption]. Qed.
  Lemma there_mono d d' rs rs' f : List.incl (cols d) (cols d') -> List.incl rs' rs -> there d rs f -> there d' rs' f.
  Proof.
    intros Hc Hr [H|[H1 H2]]; [left; intros c Hx; apply Hc, H, Hx | right; split; [exact H1|]]. intros r Hx. apply H2, Hr, Hx.
  Qed.

  Variables (by_name : list (string * feat)) (ord : list string -> list string).
  Hypothesis Hby : forall n f, dget String.eqb n by_name = Some f -> needed fs f /\ funique f = n.
  Hypothesis Hord : forall l, Permutation (ord l) l.

  (** what a lookup has to deliver for the features that look elsewhere *)
  Definition look_ok (look : list edge -> res df) (eid : string) (rs : list row) (f : feat) : Prop :=
    match f with
    | FDirect r _ _ =>
      exists q, (forall p, look [(true, r)] = Ok p -> sees (r_pe r) [] p (filter q (R (r_pe r)))) /\
                (forall x m, In x rs -> In m (R (r_pe r)) -> cell (r_pv r) m = cell (r_cv r) x -> q m = true)
    | FAgg _ bs path _ _ _ _ =>
      given f = None /\
      forall ce, (forall b, In b bs -> fentity b = ce) ->
      exists q,
      (forall base, look (map (fun r => (false, r)) path) = Ok base -> exists L', lvl_ok ce L' /\ sees ce L' base (filter q (R ce)) /\
         forall x c, In c (filter q (R ce)) -> sees_row ce L' (cols base) x c -> In (relationship_variable_id path) (cols base) ->
           cell (relationship_variable_id path) x = owner path c) /\
      (forall r c, In r rs -> In c (R ce) -> owner path c = cell (index_of es eid) r -> q c = true)
    | _ => True
    end.

  Lemma group_sees eid e L rs g look d d' : lvl_ok eid L -> es_get es eid = Ok e -> List.incl rs (R eid) -> NoDup (map (cell (index_of es eid)) rs) ->
    NoDup g -> g <> [] ->
    (forall f, In f g -> calculated f /\ fentity f = eid /\ (uses_full f = true -> rs = R eid) /\ look_ok look eid rs f) ->
    (forall f f', In f g -> In f' g -> fclass f = fclass f' /\ fpath f = fpath f' /\ fwhere f = fwhere f' /\ fprev f = fprev f' /\ fgroupby f = fgroupby f' /\
       (fclass f' = "GroupByTransformFeature"%string -> ~ reads f f')) ->
    sees eid L d rs -> calc_group es T look (e_index e) g d = Ok d' ->
    sees eid L d' rs /\ List.incl (cols d) (cols d') /\ forall f, In f g -> there d' rs f.
  Proof.
    intros HL He Hrs Hnd Hng Hne Hg Hgg Hs H.
    cut (sees eid L d' rs /\ List.incl (cols d) (cols d') /\ forall f, In f g -> done d' rs f).
    { intros (H1 & H2 & H3). split; [exact H1|]. split; [exact H2|]. intros f Hf. apply done_there, H3, Hf. }
    assert (forall f, In f g -> calculated f /\ fentity f = eid /\ (uses_full f = true -> rs = R eid)) as Hg3 by (intros f Hf; destruct (Hg f Hf) as (? & ? & ? & _); auto).
    assert (exists f0, In f0 g /\ hd_error g = Some f0) as (f0 & Hf0 & Ehd) by (destruct g as [|f0 g0]; [congruence | exists f0; split; [left; reflexivity | reflexivity]]).
    assert (forall f, In f g -> fclass f = fclass f0) as Hcl by (intros f Hf; apply Hgg; assumption).
    unfold calc_group in H. destruct f0 as [e0 v0 nm0|r0 b0 nm0|p0 bs0 path0 u0 wh0 prev0 nm0|p0 bs0 nm0|p0 bs0 g1 nm0|b0 n0 nm0].
    - assert (calc_identity es g d = Ok d') as H' by (destruct g as [|[] g0]; try discriminate; injection Ehd as <- <- <-; exact H). clear H.
      unfold calc_identity in H'. destruct (forallb _ g) eqn:Ef; [|discriminate]. injection H' as <-. split; [exact Hs|]. split; [apply incl_refl|].
      intros f Hf. left. rewrite forallb_forall in Ef. specialize (Ef f Hf). apply mem_str_In in Ef. specialize (Hcl f Hf). destruct f; try discriminate Hcl.
      intros c Hc. rewrite (single_names _ _) in Hc by reflexivity. destruct Hc as [<-|[]]. exact Ef.
    - assert (calc_direct es look g d = Ok d') as H' by (destruct g as [|[] g0]; try discriminate; exact H). clear H.
      destruct (Hg _ Hf0) as (_ & _ & _ & q & Hl1 & Hl2).
      refine (direct_sees es T tw incl given fs Hes Hip Hw Hcn Hov Hwt Hpf Hovl eid L rs g r0 HL Hng _ look d d' q Hs Hl1 Hl2 H').
      intros f Hf. destruct (Hg f Hf) as (C & E & _). split; [exact C|]. split; [exact E|]. destruct (Hgg f _ Hf Hf0) as (Ec & Ep & _). destruct f; try discriminate Ec. injection Ep as ->. eauto.
    - assert (calc_agg es T look (e_index e) g d = Ok d') as H' by (destruct g as [|[] g0]; try discriminate; exact H). clear H.
      destruct (Hg _ Hf0) as (C0 & E0 & _ & Hl). destruct (agg_base es fs Hwt _ _ _ _ _ _ _ C0) as (ce & Hbne & Hpne & Hch & Hb & Hwh).
      destruct (proj2 Hl ce) as (q & Hl1 & Hl2); [intros b Hb'; apply (Hb b Hb')|].
      assert (exists ec, es_get es ce = Ok ec) as (ec & Hec).
      { apply (chain_entity path0 _ ce Hch Hpne). }
      rewrite (index_of_eq es eid e He) in Hl2.
      refine (agg_sees es T tw incl given fs Hes Hip Hw Hcn Hov Hwt Hpf eid e L rs g path0 wh0 prev0 ce ec HL He Hec Hrs Hng _ _ look d d' q Hs Hl1 Hl2 H').
      2:{ intros f Hf. destruct (Hg f Hf) as (_ & _ & _ & Hlf). destruct (Hgg f _ Hf Hf0) as (Ec & _). destruct f; try discriminate Ec. apply Hlf. }
      intros f Hf. destruct (Hg f Hf) as (C & E & _). split; [exact C|]. split; [exact E|]. destruct (Hgg f _ Hf Hf0) as (Ec & Ep & Ew & Epr & _). destruct f as [| |p bs path u wh prev nm| | |]; try discriminate Ec.
      cbn [fpath fwhere fprev] in *. apply map_inj_edges in Ep. subst path wh prev. exists p, bs, u, nm. split; [reflexivity|].
      destruct (agg_base es fs Hwt _ _ _ _ _ _ _ C) as (ce' & _ & _ & Hch' & Hb' & _). assert (ce' = ce) as <- by (eapply chain_end; eassumption). intros b Hbin. apply (Hb' b Hbin).
    - assert (calc_transform es T g d = Ok d') as H' by (destruct g as [|[] g0]; try discriminate; exact H). clear H.
      exact (transform_sees es T tw incl given fs Hes Hip Hw Hcn Hov Hwt Hpf eid L rs g HL Hrs Hg3 d d' Hs H').
    - assert (calc_groupby es T g d = Ok d') as H' by (destruct g as [|[] g0]; try discriminate; exact H). clear H.
      refine (groupby_sees es T tw incl given fs Hes Hip Hw Hcn Hov Hwt Hpf eid L rs g HL Hrs Hnd Hng Hg3 _ d d' Hs H').
      intros f f' Hf Hf'. destruct (Hgg f f' Hf Hf') as (_ & _ & _ & _ & E & Hr). split; [exact E | apply Hr]. apply Hcl. exact Hf'.
    - exfalso. destruct (Hg _ Hf0) as ((_ & Hsl) & _). apply Hsl. exact I.
  Qed.

  Lemma calc_features_sees eid e L rs names look d d' : lvl_ok eid L -> es_get es eid = Ok e -> List.incl rs (R eid) -> NoDup (map (cell (index_of es eid)) rs) ->
    NoDup names ->
    (forall n, In n names -> exists f, calculated f /\ fentity f = eid /\ n = funique f /\ (uses_full f = true -> rs = R eid) /\ look_ok look eid rs f) ->
    sees eid L d rs -> calc_features es by_name ord T look (e_index e) names d = Ok d' ->
    sees eid L d' rs /\ List.incl (cols d) (cols d') /\ forall f, calculated f -> In (funique f) names -> there d' rs f.
  Proof.
    intros HL He Hrs Hnd Hnn Hnames Hs H. unfold calc_features in H. apply bind_Ok in H as (groups & Hgr & H).
    assert (exists feats, lookup_names by_name (ord names) = Ok feats) as (feats & Hfe).
    { unfold group_features in Hgr. apply bind_Ok in Hgr as (feats & Hf & _). exists feats. exact Hf. }
    assert (forall f, In f feats <-> calculated f /\ In (funique f) names) as Hfeats.
    { unfold lookup_names in Hfe. intros f. split.
      - intros Hf. destruct (mapM_In_Ok' _ _ _ _ Hfe Hf) as (n & Hn & Hin). destruct (dget String.eqb n by_name) as [f1|] eqn:Ed; [|discriminate]. injection Hn as ->.
        destruct (Hby n f Ed) as [Nf <-]. apply (Permutation_in _ (Hord names)) in Hin. split; [|exact Hin].
        destruct (Hnames _ Hin) as (f2 & C2 & _ & E2 & _). rewrite (cn_unique es fs Hcn f f2 Nf (proj1 C2) E2). exact C2.
      - intros [C Hin]. apply (Permutation_in _ (Permutation_sym (Hord names))) in Hin. destruct (mapM_In_Ok _ _ _ _ Hfe Hin) as (f1 & Hf1 & Hin1).
        destruct (dget String.eqb (funique f) by_name) as [f2|] eqn:Ed; [|discriminate]. injection Hf1 as ->. destruct (Hby _ f1 Ed) as [N1 E1].
        rewrite <- (cn_unique es fs Hcn f1 f N1 (proj1 C) E1). exact Hin1. }
    assert (NoDup feats) as Hndf.
    { apply (NoDup_map_inv funique). assert (map funique feats = ord names) as ->.
      { unfold lookup_names in Hfe. apply mapM_Ok_Forall2 in Hfe. clear -Hfe Hby. induction Hfe as [|n f ns l H _ IH]; [reflexivity|]. cbn [map]. rewrite IH. f_equal.
        destruct (dget String.eqb n by_name) as [f1|] eqn:Ed; [|discriminate]. injection H as ->. apply (Hby n f Ed). }
      eapply Permutation_NoDup; [apply Permutation_sym, Hord | exact Hnn]. }
    assert (distinct_names rels feats) as Hdn.
    { intros f g (f0 & Hf0 & Rf) (g0 & Hg0 & Rg) E. apply (cn_unique es fs Hcn); [| |exact E].
      - apply Hfeats in Hf0 as [[(f1 & Hf1 & R1) _] _]. exists f1. split; [exact Hf1 | eapply reaches_trans; eassumption].
      - apply Hfeats in Hg0 as [[(f1 & Hf1 & R1) _] _]. exists f1. split; [exact Hf1 | eapply reaches_trans; eassumption]. }
    destruct (group_features_spec rels by_name (ord names) feats Hfe) as (groups' & depths & Hgr' & Hdep & Hperm & Hne & Hkey & _).
    rewrite Hgr in Hgr'. injection Hgr' as <-.
    destruct (group_features_good rels by_name (ord names) feats Hfe Hdn) as (groups' & Hgr' & _ & _ & _ & Hsame).
    rewrite Hgr in Hgr'. injection Hgr' as <-.
    assert (forall g, In g groups -> NoDup g /\ g <> [] /\
      (forall f, In f g -> calculated f /\ fentity f = eid /\ (uses_full f = true -> rs = R eid) /\ look_ok look eid rs f) /\
      (forall f f', In f g -> In f' g -> fclass f = fclass f' /\ fpath f = fpath f' /\ fwhere f = fwhere f' /\ fprev f = fprev f' /\ fgroupby f = fgroupby f' /\
       (fclass f' = "GroupByTransformFeature"%string -> ~ reads f f'))) as Hgood.
    { intros g Hg. assert (forall f, In f g -> In f feats) as Hin. { intros f Hf. apply (Permutation_in _ Hperm). apply in_concat. eauto. }
      assert (forall f, In f g -> calculated f /\ fentity f = eid /\ (uses_full f = true -> rs = R eid) /\ look_ok look eid rs f) as Hall.
      { intros f Hf. destruct (proj1 (Hfeats f) (Hin f Hf)) as [C Hn]. destruct (Hnames _ Hn) as (f1 & C1 & E1 & Ef & Hr).
        rewrite (cn_unique es fs Hcn f f1 (proj1 C) (proj1 C1) Ef). auto. }
      split; [|split; [apply Hne; exact Hg|split; [exact Hall|]]].
      - assert (NoDup (List.concat groups)) as Hc by (eapply Permutation_NoDup; [apply Permutation_sym; exact Hperm | exact Hndf]).
        clear -Hc Hg. induction groups as [|g0 gs IH]; [destruct Hg|]. cbn [List.concat] in Hc. destruct Hg as [->|Hg].
        + apply (proj1 (NoDup_app_parts _ _ Hc)).
        + apply IH; [exact Hg | apply (proj2 (NoDup_app_parts _ _ Hc))].
      - intros f f' Hf Hf'. destruct (Hsame g f f' Hg Hf Hf') as (Ec & Ep & _ & Ewh & Egb & Ewin). destruct (Hall f Hf) as (C & E & _). destruct (Hall f' Hf') as (C' & E' & _).
        split; [exact Ec|]. split; [apply (pf_paths rels fs Hpf f f' C C'); [congruence | exact Ec | exact Ep]|].
        assert (forall w w', option_map funique w = option_map funique w' -> (forall x, w = Some x -> needed fs x) -> (forall x, w' = Some x -> needed fs x) -> w = w') as Hopt.
        { intros [w|] [w'|] Eq N N'; cbn in Eq; try discriminate; [|reflexivity]. injection Eq as Eq. f_equal. apply (cn_unique es fs Hcn); auto. }
        split; [|split; [|split]].
        + apply Hopt; [exact Ewh | |]; intros x Hx; [apply (needed_dep fs f) | apply (needed_dep fs f')]; [apply C | |apply C'|]; unfold fdeps; apply in_app_iff; right; rewrite Hx; left; reflexivity.
        + pose proof (Ewin (pf_windows rels fs Hpf f C) (pf_windows rels fs Hpf f' C')) as Esw. unfold same_window in Esw.
          destruct (fprev f) as [a|] eqn:Ea, (fprev f') as [b|] eqn:Eb; try contradiction; [|reflexivity]. f_equal. exact (pf_same_window rels fs Hpf f f' a b C C' Ea Eb Esw).
        + apply Hopt; [exact Egb | |]; intros x Hx; [apply (needed_dep fs f) | apply (needed_dep fs f')]; [apply C | |apply C'|]; unfold fdeps; apply in_app_iff; left;
            [destruct f; try discriminate Hx | destruct f'; try discriminate Hx]; injection Hx as ->; cbn [fbases]; apply in_app_iff; right; left; reflexivity.
        + intros Hcls Hr. pose proof (depths_reads rels feats depths f f' Hdn Hdep (Hin f Hf) Hr) as Hlt.
          assert (fpath f' = []) as Hp' by (destruct f'; try discriminate Hcls; reflexivity). specialize (Hlt (or_intror Hp')).
          pose proof (Hkey g f f' Hg Hf Hf') as Ek. unfold key_of in Ek. injection Ek as Ek _. lia. }
    (* one group after the other *)
    assert (forall f, calculated f -> In (funique f) names -> exists g, In g groups /\ In f g) as Hcover.
    { intros f C Hin. assert (In f (List.concat groups)) as Hf by (apply (Permutation_in _ (Permutation_sym Hperm)), Hfeats; auto). apply in_concat in Hf as (g & Hg & Hf). eauto. }
    cut (sees eid L d' rs /\ List.incl (cols d) (cols d') /\ forall g f, In g groups -> In f g -> there d' rs f).
    { intros (H1 & H2 & H3). split; [exact H1|]. split; [exact H2|]. intros f C Hin. destruct (Hcover f C Hin) as (g & Hg & Hf). eapply H3; eassumption. }
    clear -Hgood H Hs HL He Hrs Hnd Hes Hip Hw Hcn Hov Hwt Hpf Hovl. revert d Hs H. induction groups as [|g groups IH]; intros d Hs H; cbn [foldM] in H.
    - injection H as <-. split; [exact Hs|]. split; [apply incl_refl|]. intros g f [].
    - apply bind_Ok in H as (d1 & Hd1 & H). destruct (Hgood g (or_introl eq_refl)) as (G1 & G2 & G3 & G4).
      destruct (group_sees eid e L rs g look d d1 HL He Hrs Hnd G1 G2 G3 G4 Hs Hd1) as (S1 & I1 & D1).
      destruct (IH (fun g' Hg' => Hgood g' (or_intror Hg')) d1 S1 H) as (S2 & I2 & D2). split; [exact S2|]. split; [eapply incl_tran; eassumption|].
      intros g' f [<-|Hg'] Hf; [|eapply D2; eassumption]. eapply there_mono; [exact I2 | apply incl_refl | apply D1; exact Hf].
  Qed.
End Value5.
