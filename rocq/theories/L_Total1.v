(** Calculating a group of features does not fail when the columns it reads are there. *)
From Verif Require Import Base BaseFacts M_Schema S_Schema M_Trie M_Table M_Query S_Query L_Query S_View L_View
  M_Feature M_FeatureSet M_Calc S_Calc S_Group S_Sem S_Value S_Total L_Frame L_FeatureSet L_Group P_Select L_Schema
  L_Value1 L_Value2 L_Value3 L_Value4.

Lemma mapM_total {A B} (f : A -> res B) l : (forall a, In a l -> exists b, f a = Ok b) -> exists bs, mapM f l = Ok bs.
Proof.
  induction l as [|a l IH]; intros H; [exists []; reflexivity|]. destruct (H a (or_introl eq_refl)) as (b & Hb).
  destruct IH as (bs & Hbs); [intros a' Ha'; apply H; right; exact Ha'|]. exists (b :: bs). cbn [mapM]. rewrite Hb. cbn [bind]. rewrite Hbs. reflexivity.
Qed.

Lemma existsb_false {A} (p : A -> bool) l : (forall a, In a l -> p a = false) -> existsb p l = false.
Proof.
  induction l as [|a l IH]; intros H; [reflexivity|]. cbn [existsb]. rewrite (H a (or_introl eq_refl)). apply IH. intros b Hb. apply H. right; exact Hb.
Qed.

Lemma columns_total d cs : List.incl cs (cols d) -> mapM (column d) cs = Ok (map (fun c => map (cell c) (rows d)) cs).
Proof.
  induction cs as [|c cs IH]; intros H; [reflexivity|]. cbn [mapM map]. unfold column at 1. rewrite check_col_Ok' by (apply H; left; reflexivity). cbn [bind].
  rewrite IH by (intros x Hx; apply H; right; exact Hx). reflexivity.
Qed.

Section Total1.
  Variables (es : entityset) (T : Z) (tw : option window) (incl : bool) (fs : list feat).
  Notation rels := (es_rels es).
  Notation fname := (fname rels).
  Notation fnames := (fnames rels).
  Notation calculated := (calculated fs).

  Hypothesis Hes : good_es es.
  Hypothesis Hcn : clear_names es fs.
  Hypothesis Hwt : forall f, needed fs f -> wt rels f.
  Hypothesis Hpf : plain_features rels fs.
  Hypothesis Hrn : runnable es T tw incl fs.

  (** ** columns gained *)
  Definition gains (d d' : df) (g : list feat) : Prop := forall c, In c (cols d') <-> In c (cols d) \/ In c (flat_map fnames g).

  Lemma identity_total g d : (forall f, In f g -> exists e v nm, f = FIdent e v nm) -> (forall f, In f g -> In (fname f) (cols d)) ->
    exists d', calc_identity es g d = Ok d' /\ gains d d' g.
  Proof.
    intros Hg Hc. exists d. unfold calc_identity. assert (forallb (fun f => mem_str (fname f) (cols d)) g = true) as ->.
    { apply forallb_forall. intros f Hf. apply mem_str_In, Hc, Hf. }
    split; [reflexivity|]. intros c. split; [auto|]. intros [H|H]; [exact H|]. apply in_flat_map in H as (f & Hf & H). destruct (Hg f Hf) as (e & v & nm & E).
    rewrite (single_names rels f) in H by (rewrite E; reflexivity). destruct H as [<-|[]]. apply Hc. exact Hf.
  Qed.

  Lemma assign_cols_total (nvs : list (string * list val)) : forall d, (forall nv, In nv nvs -> List.length (snd nv) = List.length (rows d)) ->
    exists d', foldM (fun d nv => assign_col d (fst nv) (snd nv)) nvs d = Ok d' /\ forall c, In c (cols d') <-> In c (cols d) \/ In c (map fst nvs).
  Proof.
    induction nvs as [|[n v] nvs IH]; intros d H; cbn [foldM].
    - exists d. split; [reflexivity|]. cbn. tauto.
    - unfold assign_col at 1. cbn [fst snd]. pose proof (H (n, v) (or_introl eq_refl)) as E. cbn [snd] in E. rewrite (proj2 (Nat.eqb_eq _ _) E). cbn [bind].
      destruct (IH (mkDf (add_col n (cols d)) (map (fun rv => dset String.eqb n (snd rv) (fst rv)) (combine (rows d) v)))) as (d' & H1 & H2).
      + intros nv Hnv. cbn [rows]. rewrite map_length, combine_length, E, Nat.min_id. apply H. right; exact Hnv.
      + exists d'. split; [exact H1|]. intros c. rewrite H2. cbn [cols map In fst]. rewrite add_col_In. intuition congruence.
  Qed.

  Lemma combine_names (f : feat) (outs : list (list val)) : List.length outs = List.length (fnames f) -> map fst (combine (fnames f) outs) = fnames f.
  Proof.
    generalize (fnames f) as ns. intros ns. revert outs. induction ns as [|n ns IH]; intros [|o outs] E; try discriminate; [reflexivity|]. cbn [combine map fst]. f_equal. apply IH. cbn in E. lia.
  Qed.

  Lemma transform_total g d : (forall f, In f g -> calculated f /\ exists p bs nm, f = FTrans p bs nm) ->
    (forall f b, In f g -> In b (fbases f) -> In (fname b) (cols d)) -> exists d', calc_transform es T g d = Ok d' /\ gains d d' g.
  Proof.
    intros Hg Hb. unfold calc_transform. destruct (rows d) as [|x0 xs] eqn:Er.
    - clear Hb Er. revert d. induction g as [|f g IH]; intros d; cbn [foldM].
      + exists d. split; [reflexivity|]. intros c. cbn. tauto.
      + destruct (Hg f (or_introl eq_refl)) as (_ & p & bs & nm & ->). cbn [bind].
        destruct (assign_scalars_cols (fnames (FTrans p bs nm)) (p_default p) d) as [_ H2]. set (d1 := fold_left _ _ _) in *.
        destruct (IH (fun f' Hf' => Hg f' (or_intror Hf')) d1) as (d' & H3 & H4). exists d'. split; [exact H3|]. unfold gains in H4. intros c. rewrite H4, H2. cbn [flat_map]. rewrite in_app_iff. tauto.
    - clear Er x0 xs.
      assert (exists new, mapM (fun f => match f with FTrans p bs _ => trans_values T p (fnames f) (map fname bs) d | _ => Err TypeError end) g = Ok new /\
        map fst (List.concat new) = flat_map fnames g /\ forall nv, In nv (List.concat new) -> List.length (snd nv) = List.length (rows d)) as (new & H1 & H2 & H3).
      { induction g as [|f g IH]; [exists []; split; [reflexivity|]; split; [reflexivity | intros nv []]|].
        destruct IH as (new & H1 & H2 & H3); [intros f' Hf'; apply Hg; right; exact Hf' | intros f' b Hf' Hb'; apply (Hb f' b); [right; exact Hf' | exact Hb']|].
        destruct (Hg f (or_introl eq_refl)) as (C & p & bs & nm & E). cbn [mapM]. pose proof (pf_outputs rels fs Hpf f C) as Ho. pose proof (rn_lengths es T tw incl fs Hrn f C) as Hl.
        rewrite E in Ho, Hl |- *. cbn iota in Ho, Hl. unfold trans_values at 1.
        rewrite columns_total. 2:{ intros c Hc. apply in_map_iff in Hc as (b & <- & Hbs). apply (Hb f b); [left; reflexivity | rewrite E; exact Hbs]. }
        cbn [bind]. set (outs := p_trans p (calc_time T p) (map (fun c => map (cell c) (rows d)) (map fname bs))).
        assert (List.length outs = List.length (fnames (FTrans p bs nm))) as El. { unfold outs. rewrite Ho by (rewrite !map_length; reflexivity). rewrite fnaming_len. reflexivity. }
        rewrite (proj2 (Nat.eqb_eq _ _) El). cbn [bind]. rewrite H1. cbn [bind]. eexists. split; [reflexivity|]. cbn [List.concat flat_map]. rewrite map_app, H2. split; [f_equal; apply combine_names; exact El|].
        intros nv Hnv. apply in_app_iff in Hnv as [Hnv|Hnv]; [|apply H3; exact Hnv]. destruct nv as [n o]. apply in_combine_r in Hnv. cbn [snd].
        apply (Hl (calc_time T p) (map (fun c => map (cell c) (rows d)) (map fname bs))); [rewrite !map_length; reflexivity | | exact Hnv].
        intros c Hc. apply in_map_iff in Hc as (b & <- & _). apply map_length. }
      rewrite H1. cbn [bind]. destruct (assign_cols_total (List.concat new) d H3) as (d' & H4 & H5). exists d'. split; [exact H4|]. intros c. rewrite H5, H2. reflexivity.
  Qed.

  Lemma groupby_feature_total gb p (f : feat) bs d0 : calculated f -> (exists g nm, f = FGroup p bs g nm) -> List.incl (map fname bs) (cols d0) ->
    forall d, exists d', groupby_feature T gb p (fnames f) (map fname bs) d0 d = Ok d' /\ cols d' = cols d.
  Proof.
    intros C (g & nm & E) Hb d. unfold groupby_feature. generalize (group_keys (cell gb) (rows d0)) as ks. intros ks. revert d. induction ks as [|k ks IH]; intros d; cbn [foldM]; [exists d; auto|].
    pose proof (pf_outputs rels fs Hpf f C) as Ho. pose proof (rn_lengths es T tw incl fs Hrn f C) as Hl. rewrite E in Ho, Hl. cbn iota in Ho, Hl.
    cbv zeta. rewrite columns_total by (cbn [filter_df cols]; exact Hb). cbn [bind]. set (grp := filter_df (fun r => val_eqb (cell gb r) k) d0). set (outs := p_trans p (calc_time T p) (map (fun c => map (cell c) (rows grp)) (map fname bs))).
    assert (List.length outs = List.length (fnames f)) as El. { unfold outs. rewrite Ho by (rewrite !map_length; reflexivity). rewrite fnaming_len, E. reflexivity. }
    rewrite (proj2 (Nat.eqb_eq _ _) El). assert (forallb (fun c => Nat.eqb (List.length c) (List.length (rows grp))) outs = true) as ->.
    { apply forallb_forall. intros o Hin. apply Nat.eqb_eq. apply (Hl (calc_time T p) (map (fun c => map (cell c) (rows grp)) (map fname bs))); [rewrite !map_length; reflexivity | | exact Hin].
      intros c Hc. apply in_map_iff in Hc as (b & <- & _). apply map_length. }
    cbn [andb bind]. match goal with |- exists d', foldM _ ks ?d1 = _ /\ _ => destruct (IH d1) as (d' & H1 & H2) end. exists d'. split; [exact H1 | rewrite H2; reflexivity].
  Qed.

  Lemma groupby_total gf g d : g <> [] -> (forall f, In f g -> calculated f /\ exists p bs nm, f = FGroup p bs gf nm) ->
    (forall f b, In f g -> In b (fbases f) -> In (fname b) (cols d)) -> exists d', calc_groupby es T g d = Ok d' /\ gains d d' g.
  Proof.
    intros Hne Hg Hb. unfold calc_groupby.
    assert (exists d1, foldM (fun d f => match f with
             | FGroup p _ _ _ => Ok (fold_left (fun d n => assign_scalar d n (p_default p)) (fnames f) d)
             | _ => Err TypeError end) g d = Ok d1 /\ gains d d1 g) as (d1 & H1 & H2).
    { clear Hb Hne. revert d. induction g as [|f g IH]; intros d; cbn [foldM].
      + exists d. split; [reflexivity|]. intros c. cbn. tauto.
      + destruct (Hg f (or_introl eq_refl)) as (_ & p & bs & nm & ->). cbn [bind].
        destruct (assign_scalars_cols (fnames (FGroup p bs gf nm)) (p_default p) d) as [_ H2]. set (d1 := fold_left _ _ _) in *.
        destruct (IH (fun f' Hf' => Hg f' (or_intror Hf')) d1) as (d' & H3 & H4). exists d'. split; [exact H3|]. unfold gains in H4. intros c. rewrite H4, H2. cbn [flat_map]. rewrite in_app_iff. tauto. }
    rewrite H1. cbn [bind]. destruct (rows d1) as [|x0 xs]; [exists d1; auto|].
    assert (exists p0 bs0 nm0 g0, g = FGroup p0 bs0 gf nm0 :: g0) as (p0 & bs0 & nm0 & g0 & Eg).
    { destruct g as [|f g0]; [congruence|]. destruct (Hg f (or_introl eq_refl)) as (_ & p0 & bs0 & nm0 & ->). eauto. }
    assert (exists d2, foldM (fun d f => match f with
             | FGroup p bs _ _ => groupby_feature T (fname gf) p (fnames f) (map fname bs) d1 d
             | _ => Err TypeError end) g d1 = Ok d2 /\ cols d2 = cols d1) as (d2 & H3 & H4).
    { assert (forall g', List.incl g' g -> forall dd, exists d2, foldM (fun d f => match f with
             | FGroup p bs _ _ => groupby_feature T (fname gf) p (fnames f) (map fname bs) d1 d
             | _ => Err TypeError end) g' dd = Ok d2 /\ cols d2 = cols dd) as H; [|apply H, incl_refl].
      induction g' as [|f g' IH]; intros Hi dd; cbn [foldM]; [exists dd; auto|]. pose proof (Hi f (or_introl eq_refl)) as Hf. destruct (Hg f Hf) as (C & p & bs & nm & E).
      destruct (groupby_feature_total (fname gf) p f bs d1 C (ex_intro _ gf (ex_intro _ nm E))) with (d := dd) as (d3 & H3 & H4).
      { intros c Hc. apply in_map_iff in Hc as (b & <- & Hbs). apply H2. left. apply (Hb f b Hf). rewrite E. cbn [fbases]. apply in_app_iff. auto. }
      rewrite E in H3 |- *. rewrite H3. cbn [bind]. destruct (IH (fun x Hx => Hi x (or_intror Hx)) d3) as (d4 & H5 & H6). exists d4. split; [exact H5 | congruence]. }
    exists d2. split.
    - rewrite Eg in *. rewrite check_col_Ok'; [cbn [bind]; exact H3|]. apply H2. left. apply (Hb (FGroup p0 bs0 gf nm0) gf); [left; reflexivity | cbn [fbases]; apply in_app_iff; right; left; reflexivity].
    - intros c. rewrite H4. apply H2.
  Qed.

  Lemma direct_total eid r g look d p : g <> [] -> NoDup g -> (forall f, In f g -> calculated f /\ fentity f = eid /\ exists b nm, f = FDirect r b nm) ->
    (forall f n, In f g -> In n (fnames f) -> n <> r_cv r) ->
    (forall b nm, In (FDirect r b nm) g -> fname b = r_pv r -> ~ In (fname (FDirect r b nm)) (cols d)) ->
    In (r_cv r) (cols d) -> look [(true, r)] = Ok p -> In (r_pv r) (cols p) -> (forall f b n, In f g -> In b (fbases f) -> In n (fnames b) -> In n (cols p)) ->
    exists d', calc_direct es look g d = Ok d' /\ gains d d' g.
  Proof.
    intros Hne Hng Hg Hnrc Hfresh Hcv Hlook Hpv Hpb.
    destruct (direct_map es fs Hcn Hwt Hpf eid r (cols d) g Hg Hng d eq_refl) as [Hm1 Hm2].
    set (m := direct_col_map es d r g) in *.
    pose proof (kept_spec es fs eid r (cols d) g Hg) as Hk.
    assert (List.incl (map fst m) (cols p)) as Hmp.
    { intros c Hc. apply in_map_iff in Hc as ([bn n] & <- & Hin). cbn [fst]. apply Hm2 in Hin as [Hin|(-> & _)]; [|exact Hpv].
      apply Hk in Hin as (_ & b & nm & j & Hf & _ & Hj). apply (Hpb _ b bn Hf); [left; reflexivity | eapply nth_error_In; exact Hj]. }
    assert (exists b0 nm0 g0, g = FDirect r b0 nm0 :: g0) as (b0 & nm0 & g0 & Eg).
    { destruct g as [|f0 g0]; [congruence|]. destruct (Hg f0 (or_introl eq_refl)) as (_ & _ & b0 & nm0 & ->). eauto. }
    assert (calc_direct es look g d = (do parent <- look [(true, r)];
      do _ <- mapM (check_col parent) (map fst m);
      do _ <- match index_as_feature es r g with Some f => if mem_str (fname f) (map snd m) then Ok tt else Err KeyError | None => Ok tt end;
      do _ <- check_col d (r_cv r);
      let new := map (fun bn => (snd bn, fst bn)) (filter (fun bn => negb (String.eqb (snd bn) (r_cv r))) m) in
      Ok (fillna (direct_fills es g)
            (mkDf (cols d ++ map fst new)
               (left_merge (rows d) (cell (r_cv r)) (map (fun pr => (cell (r_pv r) pr, pr)) (rows parent)) new))))) as ->.
    { unfold m. rewrite Eg. reflexivity. }
    rewrite Hlook. cbn [bind]. cbv zeta. destruct (check_cols_ok p (map fst m) Hmp) as (us & ->). cbn [bind].
    assert ((match index_as_feature es r g with Some f => if mem_str (fname f) (map snd m) then Ok tt else Err KeyError | None => Ok tt end) = Ok tt) as ->.
    { assert (forall l o, List.incl l g -> match o with Some f => In f g /\ exists b nm, f = FDirect r b nm /\ fname b = r_pv r | None => True end ->
        match fold_left (fun o f => match f with FDirect _ b _ => if String.eqb (fname b) (r_pv r) then Some f else o | _ => o end) l o with
        | Some f => In f g /\ exists b nm, f = FDirect r b nm /\ fname b = r_pv r | None => True end) as Hx.
      { induction l as [|f l IH]; intros o Hi Ho; cbn [fold_left]; [exact Ho|]. apply IH; [intros x Hx; apply Hi; right; exact Hx|].
        pose proof (Hi f (or_introl eq_refl)) as Hf. destruct (Hg f Hf) as (_ & _ & b & nm & ->). destruct (String.eqb_spec (fname b) (r_pv r)); [|exact Ho]. eauto 6. }
      specialize (Hx g None (incl_refl _) I). unfold index_as_feature. destruct (fold_left _ g None) as [f|]; [|reflexivity]. destruct Hx as (Hf & b & nm & E & Eb).
      assert (mem_str (fname f) (map snd m) = true) as ->; [|reflexivity]. apply mem_str_In. destruct (Hg f Hf) as (C & _). rewrite E in C. pose proof (rn_index_names es T tw incl fs Hrn r b nm C Eb) as Hn1.
      apply in_map_iff. exists (fname b, fname f). split; [reflexivity|]. apply Hm2. left. apply Hk.
      assert (fnames f = [fname f]) as En by (apply single_names; rewrite E; exact Hn1). split; [rewrite E; apply Hfresh; [rewrite <- E; exact Hf | exact Eb]|].
      exists b, nm, 0. rewrite <- E, En, (single_names rels b Hn1). auto. }
    cbn [bind]. rewrite check_col_Ok' by exact Hcv. cbn [bind]. eexists. split; [reflexivity|]. unfold gains, fillna. cbn [cols]. intros c. rewrite in_app_iff, map_map. cbn [fst].
    destruct (in_dec string_dec c (cols d)) as [Hcd|Hcd]; [tauto|].
    assert (In c (map (fun bn => snd bn) (filter (fun bn => negb (String.eqb (snd bn) (r_cv r))) m)) <-> In c (flat_map fnames g)) as ->; [|reflexivity].
    rewrite in_map_iff, in_flat_map. split.
    - intros ([bn n] & En & Hin). cbn [snd] in En. subst n. apply filter_In in Hin as [Hin Hnc]. cbn [snd] in Hnc. apply Hm2 in Hin as [Hin|(_ & -> & _)]; [|rewrite String.eqb_refl in Hnc; discriminate].
      apply Hk in Hin as (_ & b & nm & j & Hf & Hj & _). exists (FDirect r b nm). split; [exact Hf | eapply nth_error_In; exact Hj].
    - intros (f & Hf & Hc). pose proof (Hnrc f c Hf Hc) as Hn. destruct (Hg f Hf) as (_ & _ & b & nm & E). apply In_nth_error in Hc as (j & Hj). rewrite E in Hj.
      assert (List.length (fnames (FDirect r b nm)) = List.length (fnames b)) as El by (rewrite !fnaming_len; reflexivity).
      destruct (nth_error_ex (fnames b) j) as (bn & Hb); [rewrite <- El; eapply nth_error_len; exact Hj|].
      exists (bn, c). split; [reflexivity|]. apply filter_In. split; [|cbn [snd]; destruct (String.eqb_spec c (r_cv r)) as [->|]; [contradiction | reflexivity]].
      apply Hm2. left. apply Hk. split; [exact Hcd|]. exists b, nm, j. rewrite <- E. rewrite <- E in Hj. auto.
  Qed.

  Lemma prev_filter_total prev ti gb d : (forall t, ti = Some t -> In t (cols d)) -> In gb (cols d) ->
    exists d', prev_filter T prev ti gb d = Ok d' /\ cols d' = cols d /\ (prev = None -> d' = d).
  Proof.
    intros Ht Hgb. unfold prev_filter. destruct prev as [p|]; [|exists d; auto]. destruct (td_no_obs p) eqn:En.
    - destruct ti as [t|]; [|exists d; auto]. rewrite check_col_Ok' by (apply Ht; reflexivity). cbn [bind]. eexists. split; [reflexivity|]. split; [reflexivity | discriminate].
    - assert (exists n, td_obs p = Ok n) as (n & ->).
      { unfold td_obs, td_no_obs in *. revert En. induction (td_times p) as [|[u v] l IH]; [discriminate|]. cbn [existsb fst dget]. rewrite (String.eqb_sym u). destruct (String.eqb "o"%string u); cbn [orb negb]; eauto. }
      cbn [bind]. rewrite check_col_Ok' by exact Hgb. cbn [bind]. eexists. split; [reflexivity|]. split; [reflexivity | discriminate].
  Qed.

  Lemma where_total w base : In (fname w) (cols base) -> (forall x, In x (rows base) -> exists b, cell (fname w) x = VBool b) ->
    exists d', bool_filter (fname w) base = Ok d' /\ cols d' = cols base /\ List.incl (rows d') (rows base).
  Proof.
    intros Hc Hb. unfold bool_filter. rewrite check_col_Ok' by exact Hc. cbn [bind]. match goal with |- context [forallb ?p ?l] => assert (forallb p l = true) as -> end.
    { apply forallb_forall. intros x Hx. destruct (Hb x Hx) as (b & ->). reflexivity. }
    eexists. split; [reflexivity|]. split; [reflexivity|]. intros x Hx. cbn [filter_df rows] in Hx. apply filter_In in Hx. apply Hx.
  Qed.

  Lemma count_once eid path wh prev ce g : (forall f, In f g -> calculated f /\ fentity f = eid /\ exists p bs u nm, f = FAgg p bs path u wh prev nm /\ forall b, In b bs -> fentity b = ce) ->
    forall l seen, NoDup l -> List.incl l g ->
    (forall v, In v seen -> exists p bs u nm b, In (FAgg p bs path u wh prev nm) g /\ ~ In (FAgg p bs path u wh prev nm) l /\
       can_agg es (FAgg p bs path u wh prev nm) = true /\ p_count p = true /\ hd_error bs = Some b /\ v = fname b) -> count_twice es l seen = false.
  Proof.
    intros Hg l. induction l as [|f l IH]; intros seen Hn Hi Hs; cbn [count_twice]; [reflexivity|]. inversion Hn as [|x l' Hx Hl]; subst.
    pose proof (Hi f (or_introl eq_refl)) as Hf. destruct (Hg f Hf) as (C & E & p & bs & u & nm & Ef & Hb). rewrite Ef. cbn iota.
    assert (forall seen', (forall v, In v seen' -> exists p bs u nm b, In (FAgg p bs path u wh prev nm) g /\ ~ In (FAgg p bs path u wh prev nm) (f :: l) /\
       can_agg es (FAgg p bs path u wh prev nm) = true /\ p_count p = true /\ hd_error bs = Some b /\ v = fname b) -> forall v, In v seen' -> exists p bs u nm b, In (FAgg p bs path u wh prev nm) g /\ ~ In (FAgg p bs path u wh prev nm) l /\
       can_agg es (FAgg p bs path u wh prev nm) = true /\ p_count p = true /\ hd_error bs = Some b /\ v = fname b) as Hweak.
    { intros seen' H v Hv. destruct (H v Hv) as (p1 & bs1 & u1 & nm1 & b1 & H1 & H2 & H3). exists p1, bs1, u1, nm1, b1. split; [exact H1|]. split; [|exact H3]. intros Hin. apply H2. right; exact Hin. }
    assert (List.incl l g) as Hi' by (intros x Hxl; apply Hi; right; exact Hxl).
    destruct (can_agg es (FAgg p bs path u wh prev nm) && p_count p) eqn:Ec; [|apply IH; [exact Hl | exact Hi' | apply Hweak; exact Hs]].
    apply andb_true_iff in Ec as [Ec1 Ec2]. rewrite Ef in C. pose proof Ec1 as Ec1'. rewrite (can_agg_spec es fs Hcn Hwt Hpf _ _ _ _ _ _ _ C) in Ec1'.
    apply andb_true_iff in Ec1' as [Ec1' Eo]. apply andb_true_iff in Ec1' as [Et En]. apply Nat.eqb_eq in En, Eo. apply negb_true_iff in Et.
    destruct bs as [|b [|b' bs']] eqn:Ebs; try discriminate En. cbv zeta. apply orb_false_iff. split.
    - destruct (mem_str (fname b) seen) eqn:Em; [exfalso|reflexivity]. apply mem_str_In in Em. destruct (Hs _ Em) as (p1 & bs1 & u1 & nm1 & b1 & H1 & H2 & H3 & H4 & H5 & H6).
      destruct (Hg _ H1) as (C1 & E1 & p2 & bs2 & u2 & nm2 & E2 & Hb2). injection E2 as <- <- <- <-.
      destruct (agg_base es fs Hwt _ _ _ _ _ _ _ C) as (ce1 & _ & _ & _ & HB & _). destruct (agg_base es fs Hwt _ _ _ _ _ _ _ C1) as (ce2 & _ & _ & _ & HB1 & _).
      assert (In b1 bs1) as Hb1 by (destruct bs1; [discriminate | injection H5 as <-; left; reflexivity]).
      assert (b = b1) as <-. { apply (name_inj es fs Hcn); [apply (HB b); left; reflexivity | apply (HB1 b1 Hb1) | rewrite (Hb b (or_introl eq_refl)), (Hb2 b1 Hb1); reflexivity | exact H6]. }
      apply H2. left. rewrite Ef. apply (rn_counts es T tw incl fs Hrn); auto; [cbn; auto | ].
      rewrite (can_agg_spec es fs Hcn Hwt Hpf _ _ _ _ _ _ _ C1) in H3. apply andb_true_iff in H3 as [H3 H3o]. apply andb_true_iff in H3 as [H3t H3n].
      apply Nat.eqb_eq in H3n, H3o. apply negb_true_iff in H3t. cbn. auto.
    - apply IH; [exact Hl | exact Hi'|]. intros v [<-|Hv]; [|apply (Hweak seen Hs v Hv)]. exists p, [b], u, nm, b. rewrite <- Ef. split; [exact Hf|]. split; [exact Hx|]. rewrite Ef. auto.
  Qed.

  Lemma agg_total eid path wh prev ce ec g look idx d base : g <> [] -> NoDup g ->
    (forall f, In f g -> calculated f /\ fentity f = eid /\ exists p bs u nm, f = FAgg p bs path u wh prev nm /\ forall b, In b bs -> fentity b = ce) ->
    (forall f n, In f g -> In n (fnames f) -> ~ In n (cols d)) -> es_get es ce = Ok ec ->
    look (map (fun r => (false, r)) path) = Ok base -> In (relationship_variable_id path) (cols base) -> (forall ti, e_time ec = Some ti -> In ti (cols base)) ->
    (forall f b, In f g -> In b (fdeps f) -> In (fname b) (cols base)) ->
    (forall w x, wh = Some w -> In x (rows base) -> exists b, cell (fname w) x = VBool b) ->
    (forall f, In f g -> single_column f \/ (prev = None /\ forall x, In x (rows base) -> cell (relationship_variable_id path) x <> VNull)) ->
    exists d', calc_agg es T look idx g d = Ok d' /\ gains d d' g.
  Proof.
    intros Hne Hng Hg Hfresh Hec Hlook Hgb Hti Hdep Hwb Hcol.
    assert (exists p0 bs0 u0 nm0 g0, g = FAgg p0 bs0 path u0 wh prev nm0 :: g0) as (p0 & bs0 & u0 & nm0 & g0 & Eg).
    { destruct g as [|f0 g0]; [congruence|]. destruct (Hg f0 (or_introl eq_refl)) as (_ & _ & p0 & bs0 & u0 & nm0 & -> & _). exists p0, bs0, u0, nm0, g0. reflexivity. }
    assert (In (FAgg p0 bs0 path u0 wh prev nm0) g) as Hf0 by (rewrite Eg; left; reflexivity).
    destruct (Hg _ Hf0) as (C0 & _ & p0' & bs0' & u0' & nm0' & E0 & Hb0). injection E0 as <- <- <- <-.
    destruct (agg_base es fs Hwt _ _ _ _ _ _ _ C0) as (ce0 & Hbne & _).
    assert (exists b0 bs1, bs0 = b0 :: bs1) as (b0 & bs1 & Ebs) by (destruct bs0 as [|b0 bs1]; [congruence | eauto]).
    set (fs' := filter (fun f => existsb (fun n => negb (mem_str n (cols d))) (fnames f)) g).
    assert (forall f, In f fs' -> In f g) as Hfs' by (intros f Hf; apply filter_In in Hf; apply Hf).
    assert (flat_map fnames fs' = flat_map fnames g) as Efl.
    { unfold fs'. clear Eg Hf0 Hng Hg Hcol Hdep. induction g as [|f g' IH]; [reflexivity|]. cbn [filter flat_map]. destruct (existsb _ (fnames f)) eqn:Ee.
      - cbn [flat_map]. destruct g' as [|f1 g1]; [reflexivity|]. rewrite IH; [reflexivity | discriminate | intros f' n Hf'; apply Hfresh; right; exact Hf' | intros f' Hf'; apply filter_In in Hf'; apply Hf'].
      - assert (fnames f = []) as ->.
        { destruct (fnames f) as [|n ns] eqn:En; [reflexivity|]. cbn [existsb] in Ee. apply orb_false_iff in Ee as [Ee _]. apply negb_false_iff, mem_str_In in Ee. exfalso. apply (Hfresh f n); [left; reflexivity | rewrite En; left; reflexivity | exact Ee]. }
        destruct g' as [|f1 g1]; [reflexivity|]. apply IH; [discriminate | intros f' n Hf'; apply Hfresh; right; exact Hf' | intros f' Hf'; apply filter_In in Hf'; apply Hf']. }
    unfold gains. rewrite <- Efl.
    assert (calc_agg es T look idx g d = (do base <- look (map (fun r => (false, r)) path);
      match fs' with
      | [] => Ok d
      | _ =>
        let names := flat_map fnames fs' in
        do _ <- (if existsb (fun n => mem_str n (cols d)) names then Err KeyError else Ok tt);
        do base <- match wh, rows base with
                   | Some w, _ :: _ => bool_filter (fname w) base
                   | _, _ => Ok base
                   end;
        let fills := flat_map (fun f => map (fun n => (n, fdefault f)) (fnames f)) fs' in
        match rows base with
        | [] => Ok (fillna fills (fold_left (fun d n => assign_scalar d n VNull) names d))
        | _ =>
          let gb := relationship_variable_id path in
          do child_ti <- match bs0 with
                         | b :: _ => do ce <- es_get es (fentity b); Ok (e_time ce)
                         | [] => Err IndexError
                         end;
          do base <- prev_filter T prev child_ti gb base;
          do _ <- check_col base gb;
          do _ <- (if count_twice es fs' [] then Err ValueError else Ok tt);
          let keys := group_keys (cell gb) (rows base) in
          let fs'' := match keys with [] => filter (can_agg es) fs' | _ => fs' end in
          do vals <- mapM (fun k =>
              do vs <- mapM (fun f => agg_values es T f (filter_df (fun r => val_eqb (cell gb r) k) base)) fs'';
              Ok (k, combine (flat_map fnames fs'') (List.concat vs))) keys;
          Ok (fillna fills
                (mkDf (cols d ++ flat_map fnames fs'')
                   (left_merge (rows d) (cell idx) vals (map (fun n => (n, n)) (flat_map fnames fs'')))))
        end
      end)) as ->. { unfold fs'. rewrite Eg. reflexivity. }
    rewrite Hlook. cbn [bind].
    assert (NoDup fs') as Hnfs by (apply NoDup_filter; exact Hng).
    assert (forall n, In n (flat_map fnames fs') -> ~ In n (cols d)) as Hfr.
    { intros n Hn. apply in_flat_map in Hn as (f & Hf & Hn). apply (Hfresh f n (Hfs' f Hf) Hn). }
    clearbody fs'. destruct fs' as [|f1 fs1] eqn:Efs; [exists d; split; [reflexivity|]; cbn; tauto|]. rewrite <- Efs in *. cbv zeta.
    assert (existsb (fun n => mem_str n (cols d)) (flat_map fnames fs') = false) as ->.
    { apply existsb_false. intros n Hn. apply mem_str_nIn. apply Hfr. exact Hn. }
    cbn [bind].
    assert (exists base', (match wh, rows base with Some w, _ :: _ => bool_filter (fname w) base | _, _ => Ok base end) = Ok base' /\ cols base' = cols base /\ List.incl (rows base') (rows base)) as (base' & -> & Ec & Hir).
    { destruct wh as [w|]; [|exists base; split; [destruct (rows base); reflexivity|]; split; [reflexivity | apply incl_refl]].
      destruct (rows base) as [|x0 xs] eqn:Er; [exists base; rewrite Er; split; [reflexivity|]; split; [reflexivity | apply incl_refl]|]. rewrite <- Er in *.
      apply where_total; [|intros x Hx; apply (Hwb w x eq_refl Hx)]. apply (Hdep (FAgg p0 bs0 path u0 (Some w) prev nm0) w Hf0). unfold fdeps. apply in_app_iff. right. left; reflexivity. }
    cbn [bind]. destruct (rows base') as [|x0 xs] eqn:Er.
    { eexists. split; [reflexivity|]. unfold fillna. cbn [cols]. apply (proj2 (assign_scalars_cols (flat_map fnames fs') VNull d)). }
    rewrite <- Er in *. assert (rows base' <> []) as Hrne by (rewrite Er; discriminate). clear x0 xs Er.
    rewrite Ebs, (Hb0 b0) by (rewrite Ebs; left; reflexivity). rewrite Hec. cbn [bind].
    destruct (prev_filter_total prev (e_time ec) (relationship_variable_id path) base') as (base2 & -> & Ec2 & Hp2); [intros t Ht; rewrite Ec; apply Hti; exact Ht | rewrite Ec; exact Hgb|].
    cbn [bind]. rewrite check_col_Ok' by (rewrite Ec2, Ec; exact Hgb). cbn [bind].
    rewrite (count_once eid path wh prev ce g Hg fs' [] Hnfs Hfs') by (intros v []). cbn [bind].
    set (gb := relationship_variable_id path) in *. set (keys := group_keys (cell gb) (rows base2)).
    assert ((match keys with [] => filter (can_agg es) fs' | _ => fs' end) = fs') as ->.
    { destruct keys as [|k ks] eqn:Ek; [|reflexivity]. apply filter_all_true. intros f Hf. pose proof (Hfs' f Hf) as Hfg. destruct (Hg f Hfg) as (C & _ & p & bs & u & nm & Ef & _).
      destruct (Hcol f Hfg) as [Hs|[Hp Hx]].
      - rewrite Ef in *. rewrite (can_agg_spec es fs Hcn Hwt Hpf _ _ _ _ _ _ _ C). cbn [single_column] in Hs. destruct Hs as (-> & -> & ->). reflexivity.
      - exfalso. specialize (Hp2 Hp). subst base2. destruct (rows base') as [|x xs] eqn:Er; [congruence|]. assert (In (cell gb x) keys) as Hin; [|rewrite Ek in Hin; destruct Hin].
        apply group_keys_In. split; [apply Hx, Hir; left; reflexivity|]. exists x. split; [first [left; reflexivity | rewrite Er; left; reflexivity] | reflexivity]. }
    assert (exists vals, mapM (fun k => do vs <- mapM (fun f => agg_values es T f (filter_df (fun r => val_eqb (cell gb r) k) base2)) fs'; Ok (k, combine (flat_map fnames fs') (List.concat vs))) keys = Ok vals) as (vals & ->).
    { apply mapM_total. intros k _. destruct (mapM_total (fun f => agg_values es T f (filter_df (fun r => val_eqb (cell gb r) k) base2)) fs') as (vs & ->); [|cbn [bind]; eauto].
      intros f Hf. pose proof (Hfs' f Hf) as Hfg. destruct (Hg f Hfg) as (C & _ & p & bs & u & nm & Ef & _). pose proof (pf_outputs rels fs Hpf f C) as Ho. rewrite Ef in *. cbn iota in Ho.
      unfold agg_values. rewrite (can_agg_args es fs Hcn Hwt Hpf _ _ _ _ _ _ _ C). rewrite columns_total.
      2:{ cbn [filter_df cols]. rewrite Ec2, Ec. intros c Hc. apply in_map_iff in Hc as (b & <- & Hb). apply (Hdep _ b Hfg). unfold fdeps. cbn [fbases]. apply in_app_iff. auto. }
      cbn [bind]. rewrite Ho by (rewrite !map_length; reflexivity). rewrite fnaming_len. cbn [fnout]. rewrite Nat.eqb_refl. eauto. }
    cbn [bind]. eexists. split; [reflexivity|]. unfold fillna. cbn [cols]. intros c. apply in_app_iff.
  Qed.
End Total1.
