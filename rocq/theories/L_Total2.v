(** Calculating the features of a node does not fail. *)
From Verif Require Import Base BaseFacts M_Schema S_Schema M_Trie M_Table M_Query S_Query L_Query S_View L_View
  M_Feature M_FeatureSet M_Calc S_Calc S_Group S_Plan S_Sem S_Approx S_Value S_Total L_Trie L_Frame L_FeatureSet L_Plan L_Group P_Select L_Schema
  L_Value1 L_Value2 L_Value3 L_Value4 L_Value5 L_Total1.

Section Total2.
  Variables (es : entityset) (idvars : string -> list string) (T : Z) (tw : option window) (incl : bool) (fs : list feat).
  Notation rels := (es_rels es).
  Notation fname := (fname rels).
  Notation fnames := (fnames rels).
  Notation funique := (funique rels).
  Notation calculated := (calculated fs).

  Hypothesis Hes : good_es es.
  Hypothesis Hiv : good_idvars es idvars.
  Hypothesis Hcn : clear_names es fs.
  Hypothesis Hwt : forall f, needed fs f -> wt rels f.
  Hypothesis Hpf : plain_features rels fs.
  Hypothesis Hrn : runnable es T tw incl fs.

  Variables (by_name : list (string * feat)) (ord : list string -> list string).
  Hypothesis Hby : forall n f, dget String.eqb n by_name = Some f -> needed fs f /\ funique f = n.
  Hypothesis Hall : forall f, needed fs f -> dget String.eqb (funique f) by_name = Some f.
  Hypothesis Hord : forall l, Permutation (ord l) l.

  (** the columns of a frame of the entity [eid] with link columns [K], where the features [F] have been calculated *)
  Record has (eid : string) (K : list string) (F : feat -> Prop) (d : df) : Prop := {
    hc_vars : List.incl (idvars eid) (cols d);
    hc_links : List.incl K (cols d);
    hc_feats : forall f, calculated f -> fentity f = eid -> F f -> List.incl (fnames f) (cols d);
    hc_only : forall c, In c (cols d) -> (exists e, es_get es eid = Ok e /\ In c (cols (e_df e))) \/ link_at es eid c \/
      exists f, calculated f /\ fentity f = eid /\ F f /\ In c (fnames f)
  }.

  Lemma has_ext eid K F G d : (forall f, calculated f -> fentity f = eid -> (F f <-> G f)) -> has eid K F d -> has eid K G d.
  Proof.
    intros H [H1 H2 H3 H4]. constructor; [exact H1 | exact H2 | |].
    - intros f C E Hf. apply H3; [exact C | exact E | apply H; assumption].
    - intros c Hc. destruct (H4 c Hc) as [Hx|[Hx|(f & C & E & Hf & Hx)]]; [auto | auto|]. right; right. exists f. repeat (split; [assumption|]). split; [apply H; assumption | exact Hx].
  Qed.

  Lemma has_fresh eid e K F d f n : es_get es eid = Ok e -> has eid K F d -> calculated f -> fentity f = eid -> ~ is_ident f -> ~ F f -> In n (fnames f) -> ~ In n (cols d) \/ (link_at es eid n /\ exists r b, f = FDirect r b None).
  Proof.
    intros He [_ _ _ H] C E Hi HF Hn. destruct (in_dec string_dec n (cols d)) as [Hc|Hc]; [|left; exact Hc]. destruct (H n Hc) as [(e' & He' & Hx)|[Hx|(g & Cg & Eg & Hg & Hx)]].
    - exfalso. apply Hi. apply (cn_variables es fs Hcn f e' n C); [rewrite E; exact He' | exact Hn | exact Hx].
    - right. split; [exact Hx|]. destruct Hx as (r & c & Hl & Er & ->). destruct (proj2 (cn_links es fs Hcn r c Hl) f C) as [(b & -> & _) _]; [congruence | exact Hn | eauto].
    - exfalso. apply In_nth_error in Hn as (i & Hn). apply In_nth_error in Hx as (j & Hx). destruct (cn_columns es fs Hcn f g i j n C Cg) as [-> _]; [congruence | exact Hn | exact Hx | contradiction].
  Qed.

  Lemma has_gains eid K F d d' g : has eid K F d -> gains es d d' g -> (forall f, In f g -> calculated f /\ fentity f = eid) -> has eid K (fun f => F f \/ In f g) d'.
  Proof.
    unfold gains. intros [H1 H2 H3 H4] Hg Hgc. constructor.
    - intros c Hc. apply Hg. auto.
    - intros c Hc. apply Hg. auto.
    - intros f C E [Hf|Hf] c Hc; apply Hg; [left; exact (H3 f C E Hf c Hc) | right; apply in_flat_map; eauto].
    - intros c Hc. apply Hg in Hc as [Hc|Hc].
      + destruct (H4 c Hc) as [Hx|[Hx|(f & C & E & Hf & Hx)]]; [auto | auto|]. right; right. exists f. auto 6.
      + apply in_flat_map in Hc as (f & Hf & Hc). right; right. exists f. destruct (Hgc f Hf). auto 6.
  Qed.

  (** the column of a needed single-output feature *)
  Lemma has_column eid K F d b : has eid K F d -> needed fs b -> fentity b = eid -> fnout b = 1 -> F (unslice b) -> In (fname b) (cols d).
  Proof.
    intros H Nb E En HF. assert (is_slice b \/ ~ is_slice b) as [Hs|Hs] by (destruct b; cbn [is_slice]; auto).
    - destruct b as [| | | | |b0 n nm]; try contradiction. destruct (slice_base es fs Hcn Hwt b0 n nm Nb) as (C & _ & -> & Hn).
      apply (hc_feats _ _ _ _ H b0 C E HF). eapply nth_error_In; exact Hn.
    - assert (unslice b = b) as Eu by (destruct b; try reflexivity; exfalso; apply Hs; exact I). rewrite Eu in HF.
      apply (hc_feats _ _ _ _ H b (conj Nb Hs) E HF). rewrite (single_names rels b En). left; reflexivity.
  Qed.

  (** what lookups have to deliver so that a feature can be calculated *)
  Definition look_total (look : list edge -> res df) (f : feat) : Prop :=
    match f with
    | FDirect r b _ => exists p, look [(true, r)] = Ok p /\ In (r_pv r) (cols p) /\ List.incl (fnames b) (cols p)
    | FAgg _ bs path _ wh prev _ =>
      exists base, look (map (fun r => (false, r)) path) = Ok base /\ In (relationship_variable_id path) (cols base) /\
        (forall b ec ti, In b bs -> es_get es (fentity b) = Ok ec -> e_time ec = Some ti -> In ti (cols base)) /\
        (forall b, In b (fdeps f) -> In (fname b) (cols base)) /\
        (forall w x, wh = Some w -> In x (rows base) -> exists v, cell (fname w) x = VBool v) /\
        (single_column f \/ (prev = None /\ forall x, In x (rows base) -> cell (relationship_variable_id path) x <> VNull))
    | _ => True
    end.

  Lemma group_total eid e K F g look idx d : es_get es eid = Ok e -> has eid K F d -> NoDup g -> g <> [] ->
    (forall f, In f g -> calculated f /\ fentity f = eid /\ look_total look f /\ (is_ident f -> F f) /\ (~ is_ident f -> ~ F f) /\
       (fpath f = [] -> forall b, In b (fdeps f) -> F (unslice b))) ->
    (forall f f', In f g -> In f' g -> fclass f = fclass f' /\ fpath f = fpath f' /\ fwhere f = fwhere f' /\ fprev f = fprev f' /\ fgroupby f = fgroupby f') ->
    exists d', calc_group es T look idx g d = Ok d' /\ has eid K (fun f => F f \/ In f g) d'.
  Proof.
    intros He Hd Hng Hne Hg Hgg.
    cut (exists d', calc_group es T look idx g d = Ok d' /\ gains es d d' g).
    { intros (d' & H1 & H2). exists d'. split; [exact H1|]. eapply has_gains; [exact Hd | exact H2|]. intros f Hf. destruct (Hg f Hf) as (C & E & _). auto. }
    assert (exists f0, In f0 g /\ hd_error g = Some f0) as (f0 & Hf0 & Ehd) by (destruct g as [|f0 g0]; [congruence | exists f0; split; [left; reflexivity | reflexivity]]).
    assert (forall f, In f g -> fclass f = fclass f0) as Hcl by (intros f Hf; apply Hgg; assumption).
    assert (forall f b, In f g -> fpath f = [] -> In b (fbases f) -> fnout b = 1 -> fentity b = eid -> In (fname b) (cols d)) as Hbase.
    { intros f b Hf Hp Hb Hn Eb. destruct (Hg f Hf) as (C & E & _ & _ & _ & HF). assert (In b (fdeps f)) as Hbd by (unfold fdeps; apply in_app_iff; auto).
      apply (has_column eid K F d b Hd); [eapply needed_dep; [apply C | exact Hbd] | exact Eb | exact Hn | apply (HF Hp b Hbd)]. }
    assert (forall f n, In f g -> fclass f0 <> "IdentityFeature"%string -> In n (fnames f) -> ~ In n (cols d) \/ (link_at es eid n /\ exists r b, f = FDirect r b None)) as Hfresh.
    { intros f n Hf Hc Hn. destruct (Hg f Hf) as (C & E & _ & _ & HF & _). rewrite <- (Hcl f Hf) in Hc.
      assert (~ is_ident f) as Hi by (destruct f; cbn [is_ident]; auto; exfalso; apply Hc; reflexivity).
      eapply has_fresh; [exact He | exact Hd | exact C | exact E | exact Hi | apply HF; exact Hi | exact Hn]. }
    destruct f0 as [e0 v0 nm0|r0 b0 nm0|p0 bs0 path0 u0 wh0 prev0 nm0|p0 bs0 nm0|p0 bs0 g1 nm0|b0 n0 nm0].
    - assert (calc_group es T look idx g d = calc_identity es g d) as -> by (destruct g as [|[] g0]; try discriminate; reflexivity).
      assert (forall f, In f g -> is_ident f) as Hid by (intros f Hf; specialize (Hcl f Hf); destruct f; try discriminate Hcl; exact I).
      apply identity_total.
      + intros f Hf. specialize (Hid f Hf). destruct f; try contradiction. eauto.
      + intros f Hf. destruct (Hg f Hf) as (C & E & _ & HF & _). apply (hc_feats _ _ _ _ Hd f C E (HF (Hid f Hf))). rewrite (single_names rels f); [left; reflexivity|].
        specialize (Hid f Hf). destruct f; try contradiction; reflexivity.
    - assert (calc_group es T look idx g d = calc_direct es look g d) as -> by (destruct g as [|[] g0]; try discriminate; reflexivity).
      destruct (Hg _ Hf0) as (C0 & E0 & (pd & Hpd & Hpv & _) & _).
      assert (forall f, In f g -> exists b nm, f = FDirect r0 b nm) as Hdir.
      { intros f Hf. destruct (Hgg f _ Hf Hf0) as (Ec & Ep & _). destruct f; try discriminate Ec. injection Ep as ->. eauto. }
      apply (direct_total es T tw incl fs Hcn Hwt Hpf Hrn eid r0 g look d pd Hne Hng).
      + intros f Hf. destruct (Hg f Hf) as (C & E & _). split; [exact C|]. split; [exact E | apply Hdir; exact Hf].
      + intros f n Hf Hn ->. destruct (Hg f Hf) as (C & E & _). destruct (Hdir f Hf) as (b & nm & ->).
        destruct (es_get_id es eid e He) as [Hid Hin].
        assert (In r0 rels) as Hr0 by (pose proof (Hwt _ (proj1 C)) as W; inversion W; subst; assumption).
        cbn [fentity] in E. apply (cn_variables es fs Hcn _ e (r_cv r0) C); [cbn [fentity]; rewrite E; exact He | exact Hn|].
        destruct (Hiv e Hin) as (Hi1 & _ & _ & Hi4). apply Hi1. apply Hi4; [exact Hr0 | congruence].
      + intros b nm Hf Eb. destruct (Hg _ Hf) as (C & E & _). cbn [fentity] in E.
        assert (fnames (FDirect r0 b nm) = [fname (FDirect r0 b nm)]) as En by (apply (single_names rels); exact (rn_index_names es T tw incl fs Hrn r0 b nm C Eb)).
        destruct (Hfresh _ (fname (FDirect r0 b nm)) Hf) as [Hx|[(r' & c & Hl & Er & Hx) _]]; [discriminate | rewrite En; left; reflexivity | exact Hx|].
        exfalso. apply (rn_index_links es T tw incl fs Hrn r0 b nm r' c C Eb Hl); [congruence | exact Hx].
      + apply (hc_vars _ _ _ _ Hd). destruct (es_get_id es eid e He) as [Hid Hin]. rewrite <- Hid. apply (proj2 (proj2 (proj2 (Hiv e Hin)))).
        * pose proof (Hwt _ (proj1 C0)) as W. inversion W; subst; assumption.
        * rewrite Hid. exact E0.
      + exact Hpd.
      + exact Hpv.
      + intros f b n Hf Hb Hn. destruct (Hg f Hf) as (_ & _ & Hl & _). destruct (Hdir f Hf) as (b' & nm & ->). destruct Hl as (pd' & Hpd' & _ & Hin). rewrite Hpd in Hpd'. injection Hpd' as <-.
        destruct Hb as [<-|[]]. apply Hin. exact Hn.
    - assert (calc_group es T look idx g d = calc_agg es T look idx g d) as -> by (destruct g as [|[] g0]; try discriminate; reflexivity).
      destruct (Hg _ Hf0) as (C0 & E0 & (base & Hbase0 & Hgb & Hti & _ & Hwb & _) & _).
      destruct (agg_base es fs Hwt _ _ _ _ _ _ _ C0) as (ce & Hbne & Hpne & Hch & Hb & _).
      destruct (chain_entity es Hes path0 _ ce Hch Hpne) as (ec & Hec).
      assert (forall f, In f g -> exists p bs u nm, f = FAgg p bs path0 u wh0 prev0 nm /\ forall b, In b bs -> fentity b = ce) as Hag.
      { intros f Hf. destruct (Hg f Hf) as (C & _). destruct (Hgg f _ Hf Hf0) as (Ec & Ep & Ew & Epr & _). destruct f as [| |p bs path u wh prev nm| | |]; try discriminate Ec.
        cbn [fpath fwhere fprev] in *. apply map_inj_edges in Ep. subst path wh prev. exists p, bs, u, nm. split; [reflexivity|].
        destruct (agg_base es fs Hwt _ _ _ _ _ _ _ C) as (ce' & _ & _ & Hch' & Hb' & _). assert (ce' = ce) as <- by (eapply chain_end; eassumption). intros b Hbin. apply (Hb' b Hbin). }
      apply (agg_total es T tw incl fs Hcn Hwt Hpf Hrn eid path0 wh0 prev0 ce ec g look idx d base Hne Hng).
      + intros f Hf. destruct (Hg f Hf) as (C & E & _). split; [exact C|]. split; [exact E | apply Hag; exact Hf].
      + intros f n Hf Hn. destruct (Hfresh f n Hf) as [Hx|[_ (r & b & ->)]]; [discriminate | exact Hn | exact Hx|].
        destruct (Hag _ Hf) as (? & ? & ? & ? & Hx & _). discriminate Hx.
      + exact Hec.
      + exact Hbase0.
      + exact Hgb.
      + intros ti Et. destruct bs0 as [|b0 bs0]; [congruence|]. apply (Hti b0 ec ti (or_introl eq_refl)); [|exact Et]. destruct (Hb b0 (or_introl eq_refl)) as (_ & -> & _). exact Hec.
      + intros f b Hf Hbd. destruct (Hg f Hf) as (_ & _ & Hl & _). destruct (Hag f Hf) as (p & bs & u & nm & -> & _). destruct Hl as (base' & Hb' & _ & _ & Hdep & _). rewrite Hbase0 in Hb'. injection Hb' as <-.
        apply Hdep. exact Hbd.
      + exact Hwb.
      + intros f Hf. destruct (Hg f Hf) as (_ & _ & Hl & _). destruct (Hag f Hf) as (p & bs & u & nm & -> & _). destruct Hl as (base' & Hb' & _ & _ & _ & _ & Hc). rewrite Hbase0 in Hb'. injection Hb' as <-. exact Hc.
    - assert (calc_group es T look idx g d = calc_transform es T g d) as -> by (destruct g as [|[] g0]; try discriminate; reflexivity).
      assert (forall f, In f g -> exists p bs nm, f = FTrans p bs nm) as Htr by (intros f Hf; specialize (Hcl f Hf); destruct f; try discriminate Hcl; eauto).
      apply (transform_total es T tw incl fs Hpf Hrn).
      + intros f Hf. destruct (Hg f Hf) as (C & _). auto.
      + intros f b Hf Hb. destruct (Hg f Hf) as (C & E & _). destruct (Htr f Hf) as (p & bs & nm & Ef). pose proof (Hwt f (proj1 C)) as W.
        assert (fnout b = 1 /\ fentity b = eid) as [Hn Eb].
        { rewrite Ef in W, E, Hb. cbn [fbases] in Hb. inversion W as [| | |p' bs' nm' e' Hbs Hbw Hbe| |]; subst. destruct (Hbe b Hb) as [Eb Hn]. split; [exact Hn|].
          rewrite Eb. cbn [fentity]. destruct bs as [|b1 bs]; [congruence|]. symmetry. apply (Hbe b1). left; reflexivity. }
        apply (Hbase f b Hf); [rewrite Ef; reflexivity | exact Hb | exact Hn | exact Eb].
    - assert (calc_group es T look idx g d = calc_groupby es T g d) as -> by (destruct g as [|[] g0]; try discriminate; reflexivity).
      assert (forall f, In f g -> exists p bs nm, f = FGroup p bs g1 nm) as Htr.
      { intros f Hf. destruct (Hgg f _ Hf Hf0) as (Ec & _ & _ & _ & Egb). destruct f; try discriminate Ec. injection Egb as ->. eauto. }
      apply (groupby_total es T tw incl fs Hpf Hrn g1 g d Hne).
      + intros f Hf. destruct (Hg f Hf) as (C & _). auto.
      + intros f b Hf Hb. destruct (Hg f Hf) as (C & E & _). destruct (Htr f Hf) as (p & bs & nm & Ef). pose proof (Hwt f (proj1 C)) as W.
        assert (fnout b = 1 /\ fentity b = eid) as [Hn Eb].
        { rewrite Ef in W, E, Hb. cbn [fbases] in Hb. cbn [fentity] in E. inversion W as [| | | |p' bs' g' nm' Hbs Hgw Hgn Hbw Hbe|]; subst.
          assert (fentity (FGroup p bs g1 nm) = fentity g1) as Eg by (cbn [fentity]; destruct bs as [|b1 bs]; [congruence|]; apply (Hbe b1); left; reflexivity). cbn [fentity] in Eg.
          apply in_app_iff in Hb as [Hb|[<-|[]]]; [destruct (Hbe b Hb) as [Eb Hn]; split; [exact Hn | congruence] | split; [exact Hgn | symmetry; exact Eg]]. }
        apply (Hbase f b Hf); [rewrite Ef; reflexivity | exact Hb | exact Hn | exact Eb].
    - exfalso. destruct (Hg _ Hf0) as ((_ & Hsl) & _). apply Hsl. exact I.
  Qed.

  Lemma features_total eid e K F names look idx d : es_get es eid = Ok e -> NoDup names -> has eid K F d ->
    (forall n, In n names -> exists f, calculated f /\ fentity f = eid /\ n = funique f /\ look_total look f /\ (is_ident f -> F f) /\ (~ is_ident f -> ~ F f) /\
       (fpath f = [] -> forall b, In b (fdeps f) -> F (unslice b) \/ In (funique (unslice b)) names)) ->
    exists d', calc_features es by_name ord T look idx names d = Ok d' /\ has eid K (fun f => F f \/ In (funique f) names) d'.
  Proof.
    intros He Hnn Hd Hnames. unfold calc_features.
    assert (exists feats, lookup_names by_name (ord names) = Ok feats) as (feats & Hfe).
    { apply mapM_total. intros n Hn. apply (Permutation_in _ (Hord names)) in Hn. destruct (Hnames n Hn) as (f & C & _ & -> & _). rewrite (Hall f (proj1 C)). eauto. }
    assert (forall f, In f feats <-> calculated f /\ In (funique f) names) as Hfeats.
    { unfold lookup_names in Hfe. intros f. split.
      - intros Hf. destruct (mapM_In_Ok' _ _ _ _ Hfe Hf) as (n & Hn & Hin). destruct (dget String.eqb n by_name) as [f1|] eqn:Ed; [|discriminate]. injection Hn as ->.
        destruct (Hby n f Ed) as [Nf <-]. apply (Permutation_in _ (Hord names)) in Hin. split; [|exact Hin].
        destruct (Hnames _ Hin) as (f2 & C2 & _ & E2 & _). rewrite (cn_unique es fs Hcn f f2 Nf (proj1 C2) E2). exact C2.
      - intros [C Hin]. apply (Permutation_in _ (Permutation_sym (Hord names))) in Hin. destruct (mapM_In_Ok _ _ _ _ Hfe Hin) as (f1 & Hf1 & Hin1).
        destruct (dget String.eqb (funique f) by_name) as [f2|] eqn:Ed; [|discriminate]. injection Hf1 as ->. destruct (Hby _ f1 Ed) as [N1 E1].
        rewrite <- (cn_unique es fs Hcn f1 f N1 (proj1 C) E1). exact Hin1. }
    assert (NoDup feats) as Hndf.
    { apply (NoDup_map_inv funique). assert (map funique feats = ord names) as ->.
      { unfold lookup_names in Hfe. apply mapM_Ok_Forall2 in Hfe. clear -Hfe Hby. induction Hfe as [|n f ns l H _ IH]; [reflexivity|]. cbn [map]. rewrite IH. f_equal.
        destruct (dget String.eqb n by_name) as [f1|] eqn:Ed; [|discriminate]. injection H as ->. apply (Hby n f Ed). }
      eapply Permutation_NoDup; [apply Permutation_sym, Hord | exact Hnn]. }
    assert (distinct_names rels feats) as Hdn.
    { intros f g (f0 & Hf0 & Rf) (g0 & Hg0 & Rg) E. apply (cn_unique es fs Hcn); [| |exact E].
      - apply Hfeats in Hf0 as [[(f1 & Hf1 & R1) _] _]. exists f1. split; [exact Hf1 | eapply reaches_trans; eassumption].
      - apply Hfeats in Hg0 as [[(f1 & Hf1 & R1) _] _]. exists f1. split; [exact Hf1 | eapply reaches_trans; eassumption]. }
    destruct (group_features_good rels by_name (ord names) feats Hfe Hdn) as (groups & Hgr & Hperm & Hne & Hearl & Hsame).
    rewrite Hgr. cbn [bind].
    assert (NoDup (List.concat groups)) as Hndc by (eapply Permutation_NoDup; [apply Permutation_sym; exact Hperm | exact Hndf]).
    (* one group after the other *)
    assert (forall rest dn, groups = dn ++ rest -> forall d0, has eid K (fun f => F f \/ In f (List.concat dn)) d0 ->
      exists d', foldM (fun d g => calc_group es T look idx g d) rest d0 = Ok d' /\ has eid K (fun f => F f \/ In f (List.concat groups)) d') as Hfold.
    { induction rest as [|g rest IH]; intros dn Eg d0 H0; cbn [foldM].
      - exists d0. split; [reflexivity|]. rewrite app_nil_r in Eg. subst dn. exact H0.
      - assert (In g groups) as Hg by (rewrite Eg; apply in_app_iff; right; left; reflexivity).
        assert (forall f, In f g -> In f feats) as Hin. { intros f Hf. apply (Permutation_in _ Hperm). apply in_concat. eauto. }
        pose proof Hndc as Hsplit. rewrite Eg, concat_app in Hsplit. cbn [List.concat] in Hsplit.
        destruct (group_total eid e K (fun f => F f \/ In f (List.concat dn)) g look idx d0 He H0) as (d1 & H1 & H2).
        + apply NoDup_app_parts in Hsplit as [_ Hs]. apply NoDup_app_parts in Hs as [Hs _]. exact Hs.
        + apply Hne. exact Hg.
        + intros f Hf. destruct (proj1 (Hfeats f) (Hin f Hf)) as [C Hn]. destruct (Hnames _ Hn) as (f1 & C1 & E1 & Ef & Hl & Hi & Hni & Hdep).
          rewrite <- (cn_unique es fs Hcn f f1 (proj1 C) (proj1 C1) Ef) in *. split; [exact C|]. split; [exact E1|]. split; [exact Hl|]. split; [intros Hx; left; apply Hi; exact Hx|]. split.
          * intros Hx [Hy|Hy]; [exact (Hni Hx Hy)|]. clear -Hsplit Hf Hy. revert Hsplit. induction (List.concat dn) as [|a l IHl]; [destruct Hy|]. cbn [app]. intros Hs. inversion Hs as [|x y Hx Hl']; subst.
            destruct Hy as [->|Hy]; [apply Hx, in_app_iff; right; apply in_app_iff; auto | apply IHl; assumption].
          * intros Hp b Hb. destruct (Hdep Hp b Hb) as [HF|Hn']; [left; exact HF|]. right.
            assert (needed fs b) as Nb by (eapply needed_dep; [apply C | exact Hb]).
            assert (calculated (unslice b)) as Cb.
            { destruct (wt_unslice rels b (Hwt b Nb)) as (_ & Hs & _). split; [|exact Hs]. destruct b; try exact Nb. cbn [unslice]. eapply needed_dep; [exact Nb | left; reflexivity]. }
            assert (earlier groups (unslice b) f) as (l1 & g1 & l2 & g2 & l3 & Eg2 & Hu & Hf2).
            { apply Hearl; [apply Hin; exact Hf | apply Hfeats; auto | |].
              - split; [exact Hp|]. exists b. split; [exact Hb|]. destruct b; try (left; reflexivity). right. cbn [unslice]. eauto.
              - destruct b as [| | | | |b0 n0 nm0]; try (left; exact Hb). right. cbn [unslice]. apply (rn_slices es T tw incl fs Hrn f b0 n0 nm0 C Hp Hb). }
            clear -Eg Eg2 Hu Hf2 Hf Hndc. assert (exists m, dn = l1 ++ g1 :: m) as (m & ->); [|rewrite concat_app; apply in_app_iff; right; cbn [List.concat]; apply in_app_iff; auto].
            rewrite Eg2 in Eg, Hndc. clear Eg2 groups.
            assert (forall l1 dn : list (list feat), l1 ++ g1 :: l2 ++ g2 :: l3 = dn ++ g :: rest -> NoDup (List.concat (l1 ++ g1 :: l2 ++ g2 :: l3)) -> exists m, dn = l1 ++ g1 :: m) as H; [|eapply H; eassumption].
            clear l1 dn Eg Hndc. induction l1 as [|a l1 IH]; intros [|a' dn] Eg Hn; cbn [app] in *.
            -- exfalso. injection Eg as -> _. cbn [List.concat] in Hn. rewrite concat_app in Hn. cbn [List.concat] in Hn.
               clear -Hn Hf Hf2. induction g as [|x g IHg]; [destruct Hf|]. cbn [app] in Hn. inversion Hn as [|y l Hy Hl]; subst. destruct Hf as [->|Hf]; [|apply IHg; assumption].
               apply Hy. rewrite !in_app_iff. tauto.
            -- injection Eg as -> _. exists dn. reflexivity.
            -- exfalso. injection Eg as -> _. cbn [List.concat] in Hn. rewrite concat_app in Hn. cbn [List.concat] in Hn. rewrite concat_app in Hn. cbn [List.concat] in Hn.
               clear -Hn Hf Hf2. induction g as [|x g IHg]; [destruct Hf|]. cbn [app] in Hn. inversion Hn as [|y l Hy Hl]; subst. destruct Hf as [->|Hf]; [|apply IHg; assumption].
               apply Hy. rewrite !in_app_iff. tauto.
            -- injection Eg as -> Eg. destruct (IH dn Eg) as (m & ->); [|exists m; reflexivity]. cbn [List.concat] in Hn. apply NoDup_app_parts in Hn. apply Hn.
        + intros f f' Hf Hf'. destruct (Hsame g f f' Hg Hf Hf') as (Ec & Ep & _ & Ewh & Egb & Ewin).
          destruct (proj1 (Hfeats f) (Hin f Hf)) as [C Hn]. destruct (proj1 (Hfeats f') (Hin f' Hf')) as [C' Hn'].
          destruct (Hnames _ Hn) as (f1 & C1 & E1 & Ef & _). rewrite <- (cn_unique es fs Hcn f f1 (proj1 C) (proj1 C1) Ef) in *.
          destruct (Hnames _ Hn') as (f1' & C1' & E1' & Ef' & _). rewrite <- (cn_unique es fs Hcn f' f1' (proj1 C') (proj1 C1') Ef') in *.
          split; [exact Ec|]. split; [apply (pf_paths rels fs Hpf f f' C C'); [congruence | exact Ec | exact Ep]|].
          assert (forall w w', option_map funique w = option_map funique w' -> (forall x, w = Some x -> needed fs x) -> (forall x, w' = Some x -> needed fs x) -> w = w') as Hopt.
          { intros [w|] [w'|] Eq N N'; cbn in Eq; try discriminate; [|reflexivity]. injection Eq as Eq. f_equal. apply (cn_unique es fs Hcn); auto. }
          split; [|split].
          * apply Hopt; [exact Ewh | |]; intros x Hx; [apply (needed_dep fs f) | apply (needed_dep fs f')]; [apply C | |apply C'|]; unfold fdeps; apply in_app_iff; right; rewrite Hx; left; reflexivity.
          * pose proof (Ewin (pf_windows rels fs Hpf f C) (pf_windows rels fs Hpf f' C')) as Esw. unfold same_window in Esw.
            destruct (fprev f) as [a|] eqn:Ea, (fprev f') as [b|] eqn:Eb; try contradiction; [|reflexivity]. f_equal. exact (pf_same_window rels fs Hpf f f' a b C C' Ea Eb Esw).
          * apply Hopt; [exact Egb | |]; intros x Hx; [apply (needed_dep fs f) | apply (needed_dep fs f')]; [apply C | |apply C'|]; unfold fdeps; apply in_app_iff; left;
              [destruct f; try discriminate Hx | destruct f'; try discriminate Hx]; injection Hx as ->; cbn [fbases]; apply in_app_iff; right; left; reflexivity.
        + rewrite H1. cbn [bind]. apply (IH (dn ++ [g])); [rewrite <- app_assoc; exact Eg|]. eapply has_ext; [|exact H2]. intros f _ _. rewrite concat_app, in_app_iff. cbn [List.concat]. rewrite app_nil_r. tauto. }
    destruct (Hfold groups [] eq_refl d) as (d' & H1 & H2); [eapply has_ext; [|exact Hd]; intros f _ _; cbn; tauto|].
    exists d'. split; [exact H1|]. eapply has_ext; [|exact H2]. intros f C E. cbv beta. assert (In f (List.concat groups) <-> In (funique f) names) as ->; [|reflexivity].
    split; [intros Hf; apply Hfeats; apply (Permutation_in _ Hperm); exact Hf | intros Hn; apply (Permutation_in _ (Permutation_sym Hperm)); apply Hfeats; auto].
  Qed.
End Total2.
