(** The four kinds of feature keep a frame meaningful. *)
From Verif Require Import Base BaseFacts M_Schema S_Schema M_Trie M_Table M_Query S_Query L_Query S_View L_View
  M_Feature M_FeatureSet M_Calc S_Calc S_Group S_Sem S_Approx S_Value L_Frame L_FeatureSet L_Group P_Select L_Value1.

Lemma mapM_In_Ok {A B} (f : A -> res B) l ys a : mapM f l = Ok ys -> In a l -> exists y, f a = Ok y /\ In y ys.
Proof.
  intros H Ha. apply mapM_Ok_Forall2 in H. destruct (Forall2_In_l _ _ _ _ H Ha) as (y & Hy & Hf). eauto.
Qed.
Lemma mapM_In_Ok' {A B} (f : A -> res B) l ys y : mapM f l = Ok ys -> In y ys -> exists a, f a = Ok y /\ In a l.
Proof.
  intros H Hy. apply mapM_Ok_Forall2 in H. destruct (Forall2_In_r _ _ _ _ H Hy) as (a & Ha & Hf). eauto.
Qed.

Lemma combine_nth_error {A B} (l : list A) (l' : list B) a b : In (a, b) (combine l l') -> exists k, nth_error l k = Some a /\ nth_error l' k = Some b.
Proof.
  revert l'. induction l as [|x l IH]; intros [|y l'] H; cbn in H; try contradiction.
  destruct H as [[= -> ->]|H]; [exists 0; auto|]. destruct (IH l' H) as (k & H1 & H2). exists (S k); auto.
Qed.

Lemma combine_In_nth {A B} (l : list A) (l' : list B) j a b : nth_error l j = Some a -> nth_error l' j = Some b -> In (a, b) (combine l l').
Proof. revert l' j. induction l as [|x l IH]; intros [|y l'] [|j] H1 H2; cbn in *; try discriminate; [left; congruence | right; eauto]. Qed.

Lemma Forall2_map_r' {A B C} (R : C -> B -> Prop) (f : A -> C) l l' : Forall2 R (map f l) l' -> Forall2 (fun a b => R (f a) b) l l'.
Proof. revert l'. induction l as [|a l IH]; intros l' H; cbn in H; inversion H; subst; constructor; auto. Qed.

Lemma at_row_self idx rs col : NoDup (map (cell idx) rs) -> List.length col = List.length rs ->
  map (fun r => at_row idx rs (cell idx r) col) rs = col.
Proof.
  intros Hn Hl. apply nth_ext with (d := VNull) (d' := VNull); [rewrite map_length; symmetry; exact Hl|].
  intros k Hk. rewrite map_length in Hk. destruct (nth_error_ex rs k Hk) as (r & Hr).
  rewrite (nth_map_null _ _ _ r Hk). rewrite (nth_error_nth' rs k r r Hr). apply at_row_nth; assumption.
Qed.

Lemma map_seq_nth {A B} (f : A -> B) l d : map (fun k => f (nth k l d)) (seq 0 (List.length l)) = map f l.
Proof.
  induction l as [|a l IH]; [reflexivity|]. cbn [List.length seq map nth]. f_equal. rewrite <- seq_shift, map_map. exact IH.
Qed.

Lemma nth_map_seq {A} (f : nat -> A) n k d : k < n -> nth k (map f (seq 0 n)) d = f k.
Proof.
  intros H. rewrite nth_indep with (d' := f 0) by (rewrite map_length, seq_length; exact H). rewrite map_nth, seq_nth by exact H. reflexivity.
Qed.

(** a row-wise primitive, on the columns of some rows *)
Lemma rowwise_rows {A} m p : rowwise m p -> exists g : option Z -> list val -> list val, forall t (bs : list (A -> val)) (rs : list A),
  List.length bs = m -> p_trans p t (map (fun b => map b rs) bs) =
    map (fun j => map (fun r => nth j (g t (map (fun b => b r) bs)) VNull) rs) (seq 0 (p_nout p)).
Proof.
  intros (g & Hg). exists g. intros t bs rs Hb.
  rewrite (Hg t _ (List.length rs)).
  - apply map_ext. intros j. destruct rs as [|r0 rs0]; [reflexivity|]. set (rs := r0 :: rs0).
    transitivity (map (fun k => (fun r => nth j (g t (map (fun b => b r) bs)) VNull) (nth k rs r0)) (seq 0 (List.length rs))); [|exact (map_seq_nth (fun r => nth j (g t (map (fun b => b r) bs)) VNull) rs r0)].
    apply map_ext_in. intros k Hk. apply in_seq in Hk. f_equal. f_equal. rewrite map_map. apply map_ext. intros b.
    apply (nth_map_null b rs k r0). lia.
  - rewrite map_length. exact Hb.
  - intros c Hc. apply in_map_iff in Hc as (b & <- & _). apply map_length.
Qed.

Section Value2.
  Variables (es : entityset) (T : Z) (tw : option window) (incl : bool) (given : feat -> option (row -> list val)) (fs : list feat).
  Notation rels := (es_rels es).
  Notation fname := (fname rels).
  Notation fnames := (fnames rels).
  Notation R := (rows_at es T tw incl).
  Notation sem := (sem_with es T tw incl given).
  Notation owner := (owner es T tw incl).
  Notation calculated := (calculated fs).
  Notation means := (means es T tw incl given fs).
  Notation sees := (sees es T tw incl given fs).
  Notation sees_row := (sees_row es T tw incl given fs).
  Notation lvl_ok := (lvl_ok es T tw incl).

  Hypothesis Hes : good_es es.
  Hypothesis Hip : index_present es.
  Hypothesis Hw : win_time tw.
  Hypothesis Hcn : clear_names es fs.
  Hypothesis Hov : forall f g, given f = Some g -> is_aggregation f.
  Hypothesis Hwt : forall f, needed fs f -> wt rels f.
  Hypothesis Hpf : plain_features rels fs.
  Hypothesis Hovl : forall f g r, needed fs f -> given f = Some g -> List.length (g r) = fnout f.

  (** the frame has the columns of [f], or [f] is an aggregation over several columns without any group,
      which pandas leaves without columns *)
  Definition done (d : df) (rs : list row) (f : feat) : Prop :=
    List.incl (fnames f) (cols d) \/
    (~ single_column f /\ (forall n, In n (fnames f) -> ~ In n (cols d)) /\ forall r, In r rs -> sem f r = repeat (fdefault f) (fnout f)).

  Lemma trans_bases p bs nm : calculated (FTrans p bs nm) -> bs <> [] /\ forall b, In b bs -> needed fs b /\ fentity b = fentity (FTrans p bs nm) /\ fnout b = 1.
  Proof.
    intros Hf. pose proof (Hwt _ (proj1 Hf)) as Hw'. inversion Hw' as [| | |p' bs' nm' e Hne Hb He| |]; subst. split; [exact Hne|].
    intros b Hin. split; [apply (needed_dep fs (FTrans p bs nm)); [apply Hf | unfold fdeps; cbn; rewrite app_nil_r; exact Hin]|].
    destruct (He b Hin) as [Hb1 Hb2]. split; [|exact Hb2]. destruct bs as [|b0 bs0]; [congruence|]. cbn [fentity]. rewrite Hb1. symmetry. apply He. left; reflexivity.
  Qed.

  Lemma group_bases p bs g nm : calculated (FGroup p bs g nm) -> bs <> [] /\ (forall b, In b bs -> needed fs b /\ fentity b = fentity (FGroup p bs g nm) /\ fnout b = 1) /\
    needed fs g /\ fentity g = fentity (FGroup p bs g nm) /\ fnout g = 1.
  Proof.
    intros Hf. pose proof (Hwt _ (proj1 Hf)) as Hw'. inversion Hw' as [| | | |p' bs' g' nm' Hne Hg Hg1 Hb He|]; subst.
    assert (fentity (FGroup p bs g nm) = fentity g) as Ee. { destruct bs as [|b0 bs0]; [reflexivity|]. cbn [fentity]. apply He. left; reflexivity. }
    split; [exact Hne|]. split; [|split; [|split; [symmetry; exact Ee | exact Hg1]]].
    - intros b Hin. split; [apply (needed_dep fs (FGroup p bs g nm)); [apply Hf | unfold fdeps; cbn; rewrite app_nil_r; apply in_or_app; left; exact Hin]|].
      rewrite Ee. apply He. exact Hin.
    - apply (needed_dep fs (FGroup p bs g nm)); [apply Hf | unfold fdeps; cbn; rewrite app_nil_r; apply in_or_app; right; left; reflexivity].
  Qed.

  (** ** transforms *)
  Lemma trans_out eid rs p bs nm j k r : calculated (FTrans p bs nm) -> fentity (FTrans p bs nm) = eid -> List.incl rs (R eid) ->
    (p_full p = true -> rs = R eid) ->
    let outs := p_trans p (time_arg T p) (map (fun b => map (fun r => hd VNull (sem b r)) rs) bs) in
    forall vs, nth_error outs j = Some vs -> List.length vs = List.length rs -> j < p_nout p -> nth_error rs k = Some r ->
    nth k vs VNull = nth j (sem (FTrans p bs nm) r) VNull.
  Proof.
    intros Hf He Hrs Hfull outs vs Hj Hl Hjn Hk. cbn [sem_with]. rewrite (given_none given Hov (FTrans p bs nm)) by (intros []). change (match bs with [] => ""%string | b :: _ => fentity b end) with (fentity (FTrans p bs nm)).
    rewrite He. pose proof (R_NoDup es T tw incl Hes Hip Hw eid) as Hnd.
    destruct (p_full p) eqn:Ef.
    - rewrite <- (Hfull eq_refl). change (p_trans p (time_arg T p) (map (fun b => map (fun r' => hd VNull (sem b r')) rs) bs)) with outs.
      rewrite (nth_map_null _ _ _ []) by (eapply nth_error_len; exact Hj). rewrite (nth_error_nth' outs j vs [] Hj).
      rewrite <- (Hfull eq_refl) in Hnd. symmetry. apply at_row_nth; assumption.
    - destruct (rowwise_rows (A := row) _ p (pf_trans rels fs Hpf p bs nm Hf Ef)) as (g & Hg).
      destruct (trans_bases p bs nm Hf) as [Hne _].
      assert (forall rs, p_trans p (time_arg T p) (map (fun b => map (fun r => hd VNull (sem b r)) rs) bs) =
        map (fun j => map (fun r => nth j (g (time_arg T p) (map (fun b => hd VNull (sem b r)) bs)) VNull) rs) (seq 0 (p_nout p))) as Hg'.
      { intros rs'. pose proof (Hg (time_arg T p) (map (fun b r => hd VNull (sem b r)) bs) rs') as E. rewrite map_map in E.
        rewrite E by apply map_length. apply map_ext. intros j'. apply map_ext. intros r'. rewrite map_map. reflexivity. }
      unfold outs in Hj. rewrite Hg' in Hj |- *. apply nth_error_map_Some in Hj as (j' & Hj' & ->).
      assert (j' = j) as ->. { pose proof (nth_error_nth' _ _ _ 0 Hj') as E. rewrite seq_nth in E by exact Hjn. symmetry. exact E. }
      rewrite (nth_map_null _ _ _ r) by (eapply nth_error_len; exact Hk). rewrite (nth_error_nth' rs k r r Hk).
      rewrite (nth_map_null _ _ _ []) by (rewrite map_length, seq_length; exact Hjn). rewrite nth_map_seq by exact Hjn.
      assert (In r (R eid)) as Hr by (apply Hrs; eapply nth_error_In; exact Hk). apply In_nth_error in Hr as (k' & Hk').
      rewrite (at_row_nth _ _ _ k' r Hnd); [|apply map_length | exact Hk'].
      rewrite (nth_map_null _ _ _ r) by (eapply nth_error_len; exact Hk'). rewrite (nth_error_nth' _ k' r r Hk'). reflexivity.
  Qed.

  Lemma transform_sees eid L rs g : lvl_ok eid L -> List.incl rs (R eid) ->
    (forall f, In f g -> calculated f /\ fentity f = eid /\ (uses_full f = true -> rs = R eid)) ->
    forall d d', sees eid L d rs -> calc_transform es T g d = Ok d' ->
    sees eid L d' rs /\ List.incl (cols d) (cols d') /\ forall f, In f g -> done d' rs f.
  Proof.
    intros HL Hrs Hg d d' Hs H. unfold calc_transform in H. destruct (rows d) as [|x0 xs] eqn:Er.
    - assert (rs = []) as ->. { pose proof (sees_length _ _ _ _ _ _ _ _ _ _ Hs) as E. rewrite Er in E. destruct rs; [reflexivity | discriminate]. }
      clear Hg Hrs. revert d d' Hs Er H. induction g as [|f g IH]; intros d d' Hs Er H; cbn [foldM] in H.
      + injection H as <-. split; [exact Hs|]. split; [apply incl_refl | intros f []].
      + apply bind_Ok in H as (d1 & Hd1 & H). destruct f as [| | |p bs nm| |]; try discriminate. injection Hd1 as <-.
        destruct (assign_scalars_cols (fnames (FTrans p bs nm)) (p_default p) d) as [H1 H2].
        set (d1 := fold_left _ _ _) in *. rewrite Er in H1.
        destruct (IH d1 d') as (I1 & I2 & I3).
        * split; [apply H2; left; apply Hs | rewrite H1; constructor].
        * exact H1.
        * exact H.
        * split; [exact I1|]. split; [intros c Hc; apply I2, H2; auto|].
          intros f [<-|Hf]; [|apply I3; exact Hf]. left. intros c Hc. apply I2, H2; auto.
    - clear Er x0 xs. apply bind_Ok in H as (new & Hnew & H).
      destruct (assign_cols_sees es T tw incl given fs eid L (List.concat new) d d' rs Hs H) as [H1 H2].
      + intros n vs Hin Hl k r Hk. apply in_concat in Hin as (nvs & Hnvs & Hin).
        destruct (mapM_In_Ok' _ _ _ _ Hnew Hnvs) as (f & Hf & Hfg). destruct f as [| | |p bs nm| |]; try discriminate.
        unfold trans_values in Hf. apply bind_Ok in Hf as (args & Hargs & Hf).
        destruct (Nat.eqb_spec (List.length (p_trans p (calc_time T p) args)) (List.length (fnames (FTrans p bs nm)))) as [El|]; [|discriminate].
        injection Hf as <-. apply combine_nth_error in Hin as (j & Hj1 & Hj2).
        destruct (Hg _ Hfg) as (Hc & He & Hfull). destruct (trans_bases p bs nm Hc) as [_ Hbs]. rewrite He in Hbs.
        rewrite (base_columns es T tw incl given fs Hes Hcn Hov Hwt eid L d rs bs args HL Hs Hbs Hargs) in Hj2.
        rewrite (trans_out eid rs p bs nm j k r Hc He Hrs Hfull vs Hj2 Hl); [|apply nth_error_len in Hj1; rewrite fnaming_len in Hj1; exact Hj1 | exact Hk].
        apply mn_feat; assumption.
      + split; [exact H1|]. split; [intros c Hc; apply H2; auto|]. intros f Hf. left. intros c Hc. apply H2. right.
        destruct (mapM_In_Ok _ _ _ _ Hnew Hf) as (nvs & Hn & Hin). destruct f as [| | |p bs nm| |]; try discriminate.
        unfold trans_values in Hn. apply bind_Ok in Hn as (args & Hargs & Hn).
        destruct (Nat.eqb_spec (List.length (p_trans p (calc_time T p) args)) (List.length (fnames (FTrans p bs nm)))) as [El|]; [|discriminate].
        injection Hn as <-. apply In_nth_error in Hc as (j & Hj). destruct (nth_error_ex (p_trans p (calc_time T p) args) j) as (vs & Hvs). { apply nth_error_len in Hj. lia. }
        apply in_map_iff. exists (c, vs). split; [reflexivity|]. apply in_concat. eexists. split; [exact Hin|].
        clear -Hj Hvs. revert j Hj Hvs. generalize (fnames (FTrans p bs nm)). generalize (p_trans p (calc_time T p) args).
        intros l l'. revert l. induction l' as [|n l' IH]; intros [|v l] [|j] H1 H2; cbn in *; try discriminate; [left; congruence | right; eauto].
  Qed.

  (** ** group-by transforms *)
  Lemma group_out eid rs p bs g nm key j k r : calculated (FGroup p bs g nm) -> fentity (FGroup p bs g nm) = eid -> List.incl rs (R eid) ->
    (p_full p = true -> rs = R eid) -> key <> VNull ->
    let q := fun r' => val_eqb (hd VNull (sem g r')) key in
    let outs := p_trans p (time_arg T p) (map (fun b => map (fun r => hd VNull (sem b r)) (filter q rs)) bs) in
    forall vs, nth_error outs j = Some vs -> List.length vs = List.length (filter q rs) -> j < p_nout p -> nth_error (filter q rs) k = Some r ->
    or_default (p_default p) (nth k vs VNull) = nth j (sem (FGroup p bs g nm) r) VNull.
  Proof.
    intros Hf He Hrs Hfull Hkey q outs vs Hj Hl Hjn Hk. cbn [sem_with]. rewrite (given_none given Hov (FGroup p bs g nm)) by (intros []). change (match bs with [] => fentity g | b :: _ => fentity b end) with (fentity (FGroup p bs g nm)).
    rewrite He. pose proof (R_NoDup es T tw incl Hes Hip Hw eid) as Hnd.
    assert (In r (filter q rs)) as Hin by (eapply nth_error_In; exact Hk). apply filter_In in Hin as [Hin Hq]. unfold q in Hq.
    destruct (val_eqb_spec (hd VNull (sem g r)) key) as [Ek|]; [|discriminate]. rewrite Ek.
    destruct (is_null key) eqn:En; [destruct key; cbn in En; congruence|].
    assert (NoDup (map (cell (index_of es eid)) (filter q (R eid)))) as Hnq by (apply NoDup_map_filter; exact Hnd).
    destruct (p_full p) eqn:Ef.
    - rewrite <- (Hfull eq_refl). rewrite <- (Hfull eq_refl) in Hnq. fold q. fold outs.
      rewrite (nth_map_null _ _ _ []) by (eapply nth_error_len; exact Hj). rewrite (nth_error_nth' outs j vs [] Hj).
      f_equal. symmetry. apply at_row_nth; assumption.
    - destruct (rowwise_rows (A := row) _ p (pf_group rels fs Hpf p bs g nm Hf Ef)) as (h & Hg).
      destruct (group_bases p bs g nm Hf) as [Hne _].
      assert (forall rs, p_trans p (time_arg T p) (map (fun b => map (fun r => hd VNull (sem b r)) rs) bs) =
        map (fun j => map (fun r => nth j (h (time_arg T p) (map (fun b => hd VNull (sem b r)) bs)) VNull) rs) (seq 0 (p_nout p))) as Hg'.
      { intros rs'. pose proof (Hg (time_arg T p) (map (fun b r => hd VNull (sem b r)) bs) rs') as E. rewrite map_map in E.
        rewrite E by apply map_length. apply map_ext. intros j'. apply map_ext. intros r'. rewrite map_map. reflexivity. }
      fold q. unfold outs in Hj. rewrite Hg' in Hj |- *. apply nth_error_map_Some in Hj as (j' & Hj' & ->).
      assert (j' = j) as ->. { pose proof (nth_error_nth' _ _ _ 0 Hj') as E. rewrite seq_nth in E by exact Hjn. symmetry. exact E. }
      rewrite (nth_map_null _ _ _ r) by (eapply nth_error_len; exact Hk). rewrite (nth_error_nth' _ k r r Hk).
      rewrite (nth_map_null _ _ _ []) by (rewrite map_length, seq_length; exact Hjn). rewrite nth_map_seq by exact Hjn. f_equal.
      assert (In r (filter q (R eid))) as Hr. { apply filter_In. split; [apply Hrs; exact Hin|]. unfold q. rewrite Ek. destruct (val_eqb_spec key key); congruence. }
      apply In_nth_error in Hr as (k' & Hk').
      rewrite (at_row_nth _ _ _ k' r Hnq); [|apply map_length | exact Hk'].
      rewrite (nth_map_null _ _ _ r) by (eapply nth_error_len; exact Hk'). rewrite (nth_error_nth' _ k' r r Hk'). reflexivity.
  Qed.

  (** rows paired with the rows of the entity they stand for *)
  Lemma update_group_zs gb key name (q : row -> bool) phi (zs : list (row * row)) :
    (forall z, In z zs -> val_eqb (cell gb (fst z)) key = q (snd z)) ->
    update_group gb key name (map phi (filter q (map snd zs))) (map fst zs) =
    map (fun z : row * row => if q (snd z) then if is_null (phi (snd z)) then fst z else dset String.eqb name (phi (snd z)) (fst z) else fst z) zs.
  Proof.
    induction zs as [|z zs IH]; intros Hq; [reflexivity|]. cbn [map filter update_group]. rewrite (Hq z (or_introl eq_refl)).
    assert (forall z, In z zs -> val_eqb (cell gb (fst z)) key = q (snd z)) as Hq' by (intros z' Hz'; apply Hq; right; exact Hz').
    destruct (q (snd z)) eqn:Eq; cbn [map]; rewrite IH by exact Hq'; rewrite ?Eq; reflexivity.
  Qed.

  Lemma update_names gb key (q : row -> bool) (nps : list (string * (row -> val))) : forall zs : list (row * row),
    (forall z, In z zs -> val_eqb (cell gb (fst z)) key = q (snd z)) -> ~ In gb (map fst nps) -> NoDup (map fst nps) ->
    exists zs', fold_left (fun rs nv => update_group gb key (fst nv) (snd nv) rs)
                  (map (fun np => (fst np, map (snd np) (filter q (map snd zs)))) nps) (map fst zs) = map fst zs' /\
      map snd zs' = map snd zs /\
      Forall2 (fun z z' => snd z' = snd z /\ (forall c, ~ In c (map fst nps) -> cell c (fst z') = cell c (fst z)) /\
        forall n phi, In (n, phi) nps -> cell n (fst z') = if q (snd z) then (if is_null (phi (snd z)) then cell n (fst z) else phi (snd z)) else cell n (fst z)) zs zs'.
  Proof.
    induction nps as [|[n phi] nps IH]; intros zs Hq Hgb Hn.
    - exists zs. split; [reflexivity|]. split; [reflexivity|]. apply Forall2_refl'. intros z _. split; [reflexivity|]. split; [reflexivity | intros n phi []].
    - cbn [map fold_left fst snd] in *. rewrite (update_group_zs gb key n q phi zs Hq).
      inversion Hn as [|x l Hx Hl]; subst.
      set (h := fun z : row * row => if q (snd z) then if is_null (phi (snd z)) then fst z else dset String.eqb n (phi (snd z)) (fst z) else fst z).
      set (zs1 := map (fun z => (h z, snd z)) zs).
      assert (map fst zs1 = map h zs) as E1 by (unfold zs1; rewrite map_map; reflexivity).
      assert (map snd zs1 = map snd zs) as E2 by (unfold zs1; rewrite map_map; reflexivity).
      assert (forall c z, c <> n -> cell c (h z) = cell c (fst z)) as Ho.
      { intros c z Hc. unfold h. destruct (q (snd z)); [|reflexivity]. destruct (is_null _); [reflexivity|]. apply cell_dset_other; exact Hc. }
      destruct (IH zs1) as (zs' & H1 & H2 & H3).
      + intros z Hz. unfold zs1 in Hz. apply in_map_iff in Hz as (z0 & <- & Hz0). cbn [fst snd]. rewrite Ho; [apply Hq; exact Hz0|]. intros ->. apply Hgb. left; reflexivity.
      + intros H. apply Hgb. right; exact H.
      + exact Hl.
      + exists zs'. rewrite E2 in H1. rewrite E1 in H1. split; [exact H1|]. split; [congruence|].
        assert (Forall2 (fun z z1 : row * row => z1 = (h z, snd z)) zs zs1) as F0 by (unfold zs1; clear; induction zs; cbn; constructor; auto).
        eapply Forall2_trans'; [|exact F0 | exact H3].
        intros z z1 z' -> (I1 & I2 & I3). cbn [fst snd] in *. split; [exact I1|]. split.
          * intros c Hc. rewrite I2 by (intros Hx'; apply Hc; right; exact Hx'). apply Ho. intros ->. apply Hc. left; reflexivity.
          * intros n' phi' [[= <- <-]|Hin].
             -- rewrite I2 by exact Hx. unfold h. destruct (q (snd z)); [|reflexivity]. destruct (is_null (phi (snd z))); [reflexivity | apply cell_dset_same].
             -- rewrite (I3 n' phi' Hin). rewrite Ho; [reflexivity|]. intros ->. apply Hx. apply in_map_iff. exists (n, phi'); auto.
  Qed.

  Lemma names_NoDup f : calculated f -> NoDup (fnames f).
  Proof.
    intros Hf. apply NoDup_nth_error. intros i j Hi E. destruct (nth_error_ex _ _ Hi) as (n & Hn). rewrite Hn in E. symmetry in E.
    apply (cn_columns es fs Hcn f f i j n Hf Hf eq_refl Hn E).
  Qed.

  Definition gkey_of (g : feat) (r : row) : val := hd VNull (sem g r).

  Lemma groupby_feature_zs eid rs p bs g nm d0 gb : calculated (FGroup p bs g nm) -> fentity (FGroup p bs g nm) = eid -> List.incl rs (R eid) ->
    NoDup (map (cell (index_of es eid)) rs) ->
    (p_full p = true -> rs = R eid) ->
    (* the frame that is grouped *)
    Forall2 (fun x r => cell gb x = gkey_of g r /\ forall b, In b bs -> In (fname b) (cols d0) -> cell (fname b) x = hd VNull (sem b r)) (rows d0) rs ->
    ~ In gb (fnames (FGroup p bs g nm)) ->
    forall d d' (zs : list (row * row)), rows d = map fst zs -> map snd zs = rs ->
    (forall z, In z zs -> cell gb (fst z) = gkey_of g (snd z) /\ forall n, In n (fnames (FGroup p bs g nm)) -> cell n (fst z) = p_default p) ->
    groupby_feature T gb p (fnames (FGroup p bs g nm)) (map fname bs) d0 d = Ok d' ->
    cols d' = cols d /\
    exists zs', rows d' = map fst zs' /\
      Forall2 (fun z z' => snd z' = snd z /\ (forall c, ~ In c (fnames (FGroup p bs g nm)) -> cell c (fst z') = cell c (fst z)) /\
        forall j n, nth_error (fnames (FGroup p bs g nm)) j = Some n -> cell n (fst z') = nth j (sem (FGroup p bs g nm) (snd z)) VNull) zs zs'.
  Proof.
    set (f := FGroup p bs g nm). intros Hf He Hrs Hnd Hfull Hd0 Hgbn d d' zs Hzr Hzs Hz H. unfold groupby_feature in H.
    assert (forall ks d (zs : list (row * row)) K, rows d = map fst zs -> map snd zs = rs -> (forall k, In k ks -> k <> VNull /\ ~ In k K) -> NoDup ks ->
      (forall z, In z zs -> cell gb (fst z) = gkey_of g (snd z)) ->
      (forall z j n, In z zs -> nth_error (fnames f) j = Some n -> cell n (fst z) = if mem_val (gkey_of g (snd z)) K then nth j (sem f (snd z)) VNull else p_default p) ->
      forall d', foldM (fun d key =>
        let grp := filter_df (fun r => val_eqb (cell gb r) key) d0 in
        do args <- mapM (column grp) (map fname bs);
        let outs := p_trans p (calc_time T p) args in
        if Nat.eqb (List.length outs) (List.length (fnames f)) &&
           forallb (fun c => Nat.eqb (List.length c) (List.length (rows grp))) outs then
          Ok (mkDf (cols d) (fold_left (fun rs nv => update_group gb key (fst nv) (snd nv) rs) (combine (fnames f) outs) (rows d)))
        else Err ValueError) ks d = Ok d' ->
      cols d' = cols d /\ exists zs', rows d' = map fst zs' /\
        Forall2 (fun z z' => snd z' = snd z /\ (forall c, ~ In c (fnames f) -> cell c (fst z') = cell c (fst z)) /\
          forall j n, nth_error (fnames f) j = Some n -> cell n (fst z') = if mem_val (gkey_of g (snd z)) (rev ks ++ K) then nth j (sem f (snd z)) VNull else p_default p) zs zs') as Hloop.
    { clear d d' zs Hzr Hzs Hz H. induction ks as [|key ks IH]; intros d zs K Hzr Hzs HK Hnk Hgb Hc d' H; cbn [foldM] in H.
      - injection H as <-. split; [reflexivity|]. exists zs. split; [exact Hzr|]. apply Forall2_refl'. intros z Hz. split; [reflexivity|]. split; [reflexivity|].
        intros j n Hj. apply Hc; assumption.
      - apply bind_Ok in H as (d1 & Hd1 & H). cbv zeta in Hd1. apply bind_Ok in Hd1 as (args & Hargs & Hd1).
        set (q := fun r' => val_eqb (hd VNull (sem g r')) key).
        assert (args = map (fun b => map (fun r => hd VNull (sem b r)) (filter q rs)) bs) as ->.
        { apply mapM_Ok_Forall2 in Hargs. assert (forall b, In b bs -> forall vs, column (filter_df (fun r => val_eqb (cell gb r) key) d0) (fname b) = Ok vs -> vs = map (fun r => hd VNull (sem b r)) (filter q rs)) as Hcol.
          { intros b Hb vs Hv. apply column_Ok in Hv as [Hbc ->]. cbn [filter_df rows cols] in *. apply Forall2_map_eq.
            eapply Forall2_impl; [|eapply (Forall2_filter _ (fun r => val_eqb (cell gb r) key) q); [|exact Hd0]].
            - intros x r _ _ [_ Hx]. apply Hx; [exact Hb | exact Hbc].
            - intros x r _ [Hx _]. unfold q. rewrite Hx. reflexivity. }
          clear -Hargs Hcol. revert args Hargs. induction bs as [|b bs IH]; intros args Hargs; inversion Hargs as [|x y l l' Hxy Hl']; subst; [reflexivity|].
          cbn [map]. f_equal; [apply Hcol; [left; reflexivity | exact Hxy] | apply IH; [intros b' Hb'; apply Hcol; right; exact Hb' | exact Hl']]. }
        change (calc_time T p) with (time_arg T p) in Hd1.
        set (outs := p_trans p (time_arg T p) (map (fun b => map (fun r => hd VNull (sem b r)) (filter q rs)) bs)) in *.
        destruct (Nat.eqb_spec (List.length outs) (List.length (fnames f))) as [El|]; [|discriminate]. cbn [andb] in Hd1.
        destruct (forallb _ outs) eqn:Efb in Hd1; [|discriminate]. injection Hd1 as <-.
        assert (List.length (rows (filter_df (fun r => val_eqb (cell gb r) key) d0)) = List.length (filter q rs)) as Elen.
        { cbn [filter_df rows]. eapply Forall2_length'. eapply Forall2_filter; [|exact Hd0]. intros x r _ [Hx _]. unfold q. rewrite Hx. reflexivity. }
        assert (forall vs, In vs outs -> List.length vs = List.length (filter q rs)) as Hlen.
        { intros vs Hvs. rewrite forallb_forall in Efb. apply Efb in Hvs. apply Nat.eqb_eq in Hvs. congruence. }
        destruct (HK key (or_introl eq_refl)) as [Hkey HkK].
        set (phi := fun (vs : list val) r => at_row (index_of es eid) (filter q rs) (cell (index_of es eid) r) vs).
        set (nps := combine (fnames f) (map phi outs)).
        assert (combine (fnames f) outs = map (fun np => (fst np, map (snd np) (filter q (map snd zs)))) nps) as Ecomb.
        { unfold nps. rewrite Hzs. assert (forall vs, In vs outs -> map (phi vs) (filter q rs) = vs) as Hself.
          { intros vs Hvs. unfold phi. apply at_row_self; [apply NoDup_map_filter; exact Hnd | apply Hlen; exact Hvs]. }
          clear -Hself. revert Hself. generalize (fnames f). induction outs as [|vs l IH]; intros [|n ns] Hself; cbn [combine map]; try reflexivity.
          cbn [fst snd]. rewrite (Hself vs (or_introl eq_refl)). f_equal. apply IH. intros v Hv. apply Hself. right; exact Hv. }
        assert (map fst nps = fnames f) as Enames.
        { unfold nps. assert (List.length (map phi outs) = List.length (fnames f)) as E by (rewrite map_length; exact El). clear -E. revert E. generalize (map phi outs). generalize (fnames f).
          induction l as [|n l IH]; intros [|v l'] E; cbn in *; try discriminate; [reflexivity|]. f_equal. apply IH. lia. }
        destruct (update_names gb key q nps zs) as (zs1 & E1 & E2 & F1).
        + intros z Hzin. rewrite (Hgb z Hzin). reflexivity.
        + rewrite Enames. exact Hgbn.
        + rewrite Enames. apply names_NoDup. exact Hf.
        + rewrite <- Ecomb in E1. rewrite Enames in F1. rewrite Hzr in H. rewrite E1 in H.
          assert (forall z z1, In z zs -> snd z1 = snd z /\ (forall c, ~ In c (fnames f) -> cell c (fst z1) = cell c (fst z)) /\
             (forall n ph, In (n, ph) nps -> cell n (fst z1) = if q (snd z) then (if is_null (ph (snd z)) then cell n (fst z) else ph (snd z)) else cell n (fst z)) ->
             forall j n, nth_error (fnames f) j = Some n -> cell n (fst z1) = if mem_val (gkey_of g (snd z1)) (key :: K) then nth j (sem f (snd z1)) VNull else p_default p) as Hstep.
          { intros z z1 Hzin (I1 & I2 & I3) j n Hj. rewrite I1.
            destruct (nth_error_ex outs j) as (vs & Hvs). { apply nth_error_len in Hj. lia. }
            assert (In (n, phi vs) nps) as Hin.
            { unfold nps. apply (combine_In_nth _ _ j); [exact Hj|]. rewrite nth_error_map, Hvs. reflexivity. }
            rewrite (I3 n (phi vs) Hin). rewrite (Hc z j n Hzin Hj). unfold q at 1. unfold gkey_of. cbn [mem_val existsb].
            change (existsb (val_eqb (hd VNull (sem g (snd z)))) K) with (mem_val (hd VNull (sem g (snd z))) K).
            destruct (val_eqb_spec (hd VNull (sem g (snd z))) key) as [Ek|Ek]; cbn [orb]; [|reflexivity].
            assert (mem_val (hd VNull (sem g (snd z))) K = false) as ->. { apply not_true_iff_false. intros Hm. apply mem_val_In in Hm. rewrite Ek in Hm. contradiction. }
            assert (In (snd z) (filter q rs)) as Hr. { apply filter_In. split; [rewrite <- Hzs; apply in_map; exact Hzin|]. unfold q. rewrite Ek. destruct (val_eqb_spec key key); congruence. }
            apply In_nth_error in Hr as (k & Hk).
            assert (List.length vs = List.length (filter q rs)) as Hlv by (apply Hlen; eapply nth_error_In; exact Hvs).
            assert (j < p_nout p) as Hjp. { apply nth_error_len in Hj. unfold f in Hj. rewrite fnaming_len in Hj. exact Hj. }
            pose proof (group_out eid rs p bs g nm key j k (snd z) Hf He Hrs Hfull Hkey vs Hvs Hlv Hjp Hk) as Ho.
            assert (phi vs (snd z) = nth k vs VNull) as ->. { unfold phi. apply at_row_nth; [apply NoDup_map_filter; exact Hnd | exact Hlv | exact Hk]. }
            unfold f. rewrite <- Ho. unfold or_default. destruct (is_null (nth k vs VNull)); reflexivity. }
          destruct (IH (mkDf (cols d) (map fst zs1)) zs1 (key :: K)) with (d' := d') as [C1 (zs' & E3 & F3)].
          * reflexivity.
          * congruence.
          * intros k Hk. split; [apply HK; right; exact Hk|]. inversion Hnk as [|x l Hx Hl]; subst. intros [<-|Hin]; [contradiction|]. destruct (HK k (or_intror Hk)); contradiction.
          * inversion Hnk; assumption.
          * intros z1 Hz1. destruct (Forall2_In_r _ _ _ _ F1 Hz1) as (z & Hzin & I1 & I2 & _). rewrite I2 by exact Hgbn. rewrite I1. apply Hgb; exact Hzin.
          * intros z1 j n Hz1 Hj. destruct (Forall2_In_r _ _ _ _ F1 Hz1) as (z & Hzin & HI). eapply Hstep; eassumption.
          * exact H.
          * split; [exact C1|]. exists zs'. split; [exact E3|].
            assert (Forall2 (fun z z1 => snd z1 = snd z /\ (forall c, ~ In c (fnames f) -> cell c (fst z1) = cell c (fst z))) zs zs1) as F1'.
            { eapply Forall2_impl; [|exact F1]. intros z z1 _ _ (I1 & I2 & _). auto. }
            eapply Forall2_trans'; [|exact F1' | exact F3]. intros z z1 z' (I1 & I2) (J1 & J2 & J3). split; [congruence|]. split.
            -- intros c Hcn'. rewrite J2 by exact Hcn'. apply I2; exact Hcn'.
            -- intros j n Hj. rewrite (J3 j n Hj), I1. cbn [rev]. rewrite <- app_assoc. reflexivity. }
    destruct (Hloop (group_keys (cell gb) (rows d0)) d zs []) with (d' := d') as [C1 (zs' & E & F)].
    - exact Hzr.
    - exact Hzs.
    - intros k Hk. apply group_keys_In in Hk as [Hk _]. split; [exact Hk | intros []].
    - apply group_keys_NoDup.
    - intros z Hzin. apply Hz; exact Hzin.
    - intros z j n Hzin Hj. cbn. apply (Hz z Hzin). eapply nth_error_In; exact Hj.
    - exact H.
    - split; [exact C1|]. exists zs'. split; [exact E|]. eapply Forall2_impl; [|exact F]. intros z z' Hzin _ (I1 & I2 & I3). split; [exact I1|]. split; [exact I2|].
      intros j n Hj. rewrite (I3 j n Hj), app_nil_r. clear I3 F. set (M := mem_val _ _). destruct M eqn:Em; [reflexivity|]. unfold M in Em. clear M.
      assert (gkey_of g (snd z) = VNull) as En.
      { destruct (val_eqb_spec (gkey_of g (snd z)) VNull) as [E0|E0]; [exact E0|]. exfalso. apply not_true_iff_false in Em. apply Em. apply mem_val_In. apply -> in_rev. apply group_keys_In.
        split; [exact E0|]. assert (In (snd z) rs) as Hr by (rewrite <- Hzs; apply in_map; exact Hzin).
        destruct (Forall2_In_r _ _ _ _ Hd0 Hr) as (x & Hx & Hxg & _). exists x. auto. }
      unfold gkey_of in En. unfold f. cbn [sem_with]. rewrite (given_none given Hov (FGroup p bs g nm)) by (intros []). rewrite En. cbn [is_null].
      apply nth_error_len in Hj. unfold f in Hj. rewrite fnaming_len in Hj. cbn [fnout] in Hj. symmetry.
      clear -Hj. revert j Hj. induction (p_nout p) as [|m IH]; intros [|j] Hj; cbn; try lia; [reflexivity|]. apply IH. lia.
  Qed.

  Lemma dep_not_in f f' b : needed fs b -> calculated f' -> fentity b = fentity f' -> fnout b = 1 -> In b (fdeps f) -> fpath f = [] -> ~ reads f f' ->
    ~ In (fname b) (fnames f').
  Proof.
    intros Hb Hf' He Hn Hd Hp Hr Hin. apply Hr. split; [exact Hp|]. exists b. split; [exact Hd|]. apply In_nth_error in Hin as (j & Hj).
    assert (is_slice b \/ ~ is_slice b) as [Hsl|Hsl] by (destruct b; cbn; auto).
    - destruct b as [| | | | |b k nm]; cbn in Hsl; try contradiction. destruct (slice_base es fs Hcn Hwt b k nm Hb) as (Hcb & _ & En & Hne).
      rewrite En in Hj. destruct (cn_columns es fs Hcn b f' k j _ Hcb Hf' He Hne Hj) as [<- _]. right. eauto.
    - left. apply (cn_columns es fs Hcn b f' 0 j (fname b)); auto; [split; assumption | rewrite (single_names _ b Hn); reflexivity].
  Qed.

  Lemma groupby_defaults eid g : (forall f, In f g -> calculated f /\ fentity f = eid) ->
    forall d d1, foldM (fun d f => match f with
             | FGroup p _ _ _ => Ok (fold_left (fun d n => assign_scalar d n (p_default p)) (fnames f) d)
             | _ => Err TypeError end) g d = Ok d1 ->
    (forall c, In c (cols d1) <-> In c (cols d) \/ In c (flat_map fnames g)) /\
    Forall2 (fun x x1 => (forall c, ~ In c (flat_map fnames g) -> cell c x1 = cell c x) /\
      forall f n, In f g -> In n (fnames f) -> cell n x1 = fdefault f) (rows d) (rows d1).
  Proof.
    induction g as [|f g IH]; intros Hg d d1 H; cbn [foldM] in H.
    - injection H as <-. cbn [flat_map]. split; [cbn; tauto|]. apply Forall2_refl'. intros x _. split; [reflexivity | intros f n []].
    - apply bind_Ok in H as (d2 & Hd2 & H). destruct f as [| | | |p bs gf nm|]; try discriminate. injection Hd2 as <-.
      set (f := FGroup p bs gf nm) in *. destruct (assign_scalars_cols (fnames f) (p_default p) d) as [H1 H2]. set (d2 := fold_left _ _ _) in *.
      destruct (IH (fun f' Hf' => Hg f' (or_intror Hf')) d2 d1 H) as [I1 I2]. split.
      + intros c. rewrite I1, H2. cbn [flat_map]. rewrite in_app_iff. tauto.
      + rewrite H1 in I2.
        assert (Forall2 (fun x x2 => x2 = fold_left (fun x n => dset String.eqb n (p_default p) x) (fnames f) x) (rows d) (map (fun x => fold_left (fun x n => dset String.eqb n (p_default p) x) (fnames f) x) (rows d))) as F0
          by (clear; induction (rows d) as [|y l IHl]; cbn; constructor; auto).
        eapply Forall2_trans'; [|exact F0 | exact I2]. intros x x2 x1 -> (J1 & J2). split.
        * intros c Hc. rewrite J1 by (intros Hc'; apply Hc; cbn [flat_map]; apply in_or_app; auto). rewrite cell_dsets.
          destruct (mem_str c (fnames f)) eqn:Em; [|reflexivity]. apply mem_str_In in Em. exfalso. apply Hc. cbn [flat_map]. apply in_or_app; auto.
        * intros f' n Hf' Hn. destruct (in_dec string_dec n (flat_map fnames g)) as [Hi|Hi].
          -- apply in_flat_map in Hi as (f'' & Hf'' & Hn''). assert (f' = f'') as ->; [|apply J2; assumption].
             apply In_nth_error in Hn as (j & Hj). apply In_nth_error in Hn'' as (j' & Hj').
             destruct (Hg f' Hf') as [C1 E1]. destruct (Hg f'' (or_intror Hf'')) as [C2 E2]. apply (cn_columns es fs Hcn f' f'' j j' n C1 C2); congruence.
          -- rewrite J1 by exact Hi. rewrite cell_dsets. destruct Hf' as [<-|Hf'].
             ++ rewrite (proj2 (mem_str_In _ _) Hn). reflexivity.
             ++ exfalso. apply Hi. apply in_flat_map. eauto.
  Qed.

  Lemma groupby_sees eid L rs g : lvl_ok eid L -> List.incl rs (R eid) -> NoDup (map (cell (index_of es eid)) rs) -> NoDup g ->
    (forall f, In f g -> calculated f /\ fentity f = eid /\ (uses_full f = true -> rs = R eid)) ->
    (forall f f', In f g -> In f' g -> fgroupby f = fgroupby f' /\ ~ reads f f') ->
    forall d d', sees eid L d rs -> calc_groupby es T g d = Ok d' ->
    sees eid L d' rs /\ List.incl (cols d) (cols d') /\ forall f, In f g -> done d' rs f.
  Proof.
    intros HL Hrs Hnd Hng Hg Hgg d d' Hs H. unfold calc_groupby in H. apply bind_Ok in H as (d1 & Hd1 & H).
    assert (forall f, In f g -> calculated f /\ fentity f = eid) as Hg2 by (intros f Hf; destruct (Hg f Hf) as (? & ? & _); auto).
    destruct (groupby_defaults eid g Hg2 d d1 Hd1) as [C1 F1]. set (N := flat_map fnames g) in *.
    assert (List.length (rows d) = List.length rs) as El by (eapply sees_length; exact Hs).
    pose proof (Forall2_length' _ _ _ F1) as El1.
    assert (cols d' = cols d1 /\ exists zs, rows d' = map fst zs /\ map snd zs = rs /\
      Forall2 (fun x z => forall c, ~ In c N -> cell c (fst z) = cell c x) (rows d) zs /\
      forall z f j n, In z zs -> In f g -> nth_error (fnames f) j = Some n -> cell n (fst z) = nth j (sem f (snd z)) VNull) as (Ec & zs & E1 & E2 & F2 & Hz).
    { destruct (rows d1) as [|x0 xs] eqn:Er1.
      { injection H as <-. split; [reflexivity|]. exists []. rewrite Er1. destruct (rows d); [|discriminate]. destruct rs; [|discriminate].
        split; [reflexivity|]. split; [reflexivity|]. split; [constructor | intros z f j n []]. }
      rewrite <- Er1 in F1, El1. clear x0 xs Er1.
      assert (exists p0 bs0 gf nm0 g0, g = FGroup p0 bs0 gf nm0 :: g0 /\
        (do _ <- check_col d1 (fname gf);
         foldM (fun d f => match f with
             | FGroup p bs _ _ => groupby_feature T (fname gf) p (fnames f) (map fname bs) d1 d
             | _ => Err TypeError end) g d1) = Ok d') as (p0 & bs0 & gf & nm0 & g0 & Eg & H').
      { clear -H. destruct g as [|f0 g0]; [discriminate|]. destruct f0 as [| | | |p0 bs0 gf nm0|]; try discriminate. do 5 eexists. split; [reflexivity | exact H]. }
      clear H. rename H' into H. set (gb := fname gf) in *.
      assert (forall f, In f g -> exists p bs nm, f = FGroup p bs gf nm) as Hform.
      { intros f Hf. destruct (Hgg f (FGroup p0 bs0 gf nm0) Hf) as [E _]; [rewrite Eg; left; reflexivity|]. destruct f as [| | | |p bs g' nm|]; cbn in E; try discriminate. injection E as ->. eauto. }
      assert (In (FGroup p0 bs0 gf nm0) g) as Hf0 by (rewrite Eg; left; reflexivity).
      destruct (group_bases p0 bs0 gf nm0 (proj1 (Hg _ Hf0))) as (_ & _ & Hgn & Hge & Hg1).
      rewrite (proj1 (proj2 (Hg _ Hf0))) in Hge.
      assert (forall b f f', In f g -> In f' g -> In b (fdeps f) -> fnout b = 1 -> fentity b = eid -> ~ In (fname b) (fnames f')) as Hout.
      { intros b f f' Hf Hf' Hb Hn1 He. destruct (Hg f Hf) as (Cf & Ef & _). destruct (Hg f' Hf') as (Cf' & Ef' & _).
        apply (dep_not_in f f' b); auto; [apply (needed_dep fs f); [apply Cf | exact Hb] | congruence | | apply (Hgg f f' Hf Hf')].
        destruct (Hform f Hf) as (p & bs & nm & ->). reflexivity. }
      assert (forall b f, In f g -> In b (fdeps f) -> fnout b = 1 -> fentity b = eid -> ~ In (fname b) N) as HoutN.
      { intros b f Hf Hb Hn1 He Hin. apply in_flat_map in Hin as (f' & Hf' & Hin). exact (Hout b f f' Hf Hf' Hb Hn1 He Hin). }
      assert (forall p bs nm, In (FGroup p bs gf nm) g -> In gf (fdeps (FGroup p bs gf nm))) as Hgd by (intros; unfold fdeps; cbn; rewrite app_nil_r; apply in_or_app; right; left; reflexivity).
      apply bind_Ok in H as (u & Hu & H). apply check_col_Ok in Hu.
      assert (~ In gb N) as HgbN. { apply (HoutN gf _ Hf0); auto. }
      assert (In gb (cols d)) as Hgbd. { apply C1 in Hu as [Hu|Hu]; [exact Hu | contradiction]. }
      assert (Forall2 (fun x1 r => forall c, ~ In c N -> forall v, In c (cols d) -> means eid L c r v -> cell c x1 = v) (rows d1) rs) as Fd1.
      { destruct Hs as [_ Hs]. apply Forall2_flip in F1. eapply Forall2_trans'; [|exact F1 | exact Hs]. cbv beta. intros x1 x r [J1 _] Hx c Hc v Hcd Hm.
        rewrite (J1 c Hc). eapply sr_cell; [exact Hes | exact Hcn | exact Hov | exact HL | exact Hx | exact Hcd | exact Hm]. }
      (* bases that are columns of the grouped frame *)
      assert (Forall2 (fun x1 r => cell gb x1 = gkey_of gf r /\ forall b f, In f g -> In b (fdeps f) -> fnout b = 1 -> fentity b = eid -> In (fname b) (cols d1) -> cell (fname b) x1 = hd VNull (sem b r)) (rows d1) rs) as Fb.
      { destruct Hs as [_ Hs]. apply Forall2_flip in F1. eapply Forall2_trans'; [|exact F1 | exact Hs]. cbv beta. intros x1 x r [J1 _] Hx. split.
        - rewrite (J1 gb HgbN). apply (base_cell es T tw incl given fs Hes Hcn Hov Hwt eid L (cols d) x r gf HL Hx Hgn Hge Hg1 Hgbd).
        - intros b f Hf Hb Hn1 He Hin. assert (~ In (fname b) N) as HbN by (eapply HoutN; eassumption). rewrite (J1 _ HbN).
          assert (In (fname b) (cols d)) as Hbd by (apply C1 in Hin as [Hin|Hin]; [exact Hin | contradiction]).
          apply (base_cell es T tw incl given fs Hes Hcn Hov Hwt eid L (cols d) x r b HL Hx); auto. apply (needed_dep fs f); [apply (Hg f Hf) | exact Hb]. }
      clear Fd1.
      assert (forall rest dn dd zs, g = dn ++ rest -> cols dd = cols d1 -> rows dd = map fst zs -> map snd zs = rs ->
        Forall2 (fun x z => forall c, ~ In c N -> cell c (fst z) = cell c x) (rows d) zs ->
        (forall z, In z zs -> cell gb (fst z) = gkey_of gf (snd z)) ->
        (forall z f j n, In z zs -> nth_error (fnames f) j = Some n -> (In f dn -> cell n (fst z) = nth j (sem f (snd z)) VNull) /\ (In f rest -> cell n (fst z) = fdefault f)) ->
        foldM (fun d f => match f with
             | FGroup p bs _ _ => groupby_feature T gb p (fnames f) (map fname bs) d1 d
             | _ => Err TypeError end) rest dd = Ok d' ->
        cols d' = cols d1 /\ exists zs', rows d' = map fst zs' /\ map snd zs' = rs /\
        Forall2 (fun x z => forall c, ~ In c N -> cell c (fst z) = cell c x) (rows d) zs' /\
        forall z f j n, In z zs' -> In f g -> nth_error (fnames f) j = Some n -> cell n (fst z) = nth j (sem f (snd z)) VNull) as Hloop.
      { clear H. induction rest as [|f rest IH]; intros dn dd zs Egd Ecd Erd Ezs Fz Hgb Hc H; cbn [foldM] in H.
        - injection H as <-. split; [exact Ecd|]. exists zs. split; [exact Erd|]. split; [exact Ezs|]. split; [exact Fz|].
          intros z f j n Hzin Hf Hj. apply (Hc z f j n Hzin Hj). rewrite Egd, app_nil_r in Hf. exact Hf.
        - apply bind_Ok in H as (d2 & Hd2 & H). assert (In f g) as Hf by (rewrite Egd; apply in_or_app; right; left; reflexivity).
          destruct (Hform f Hf) as (p & bs & nm & ->). set (f := FGroup p bs gf nm) in *.
          destruct (Hg f Hf) as (Cf & Ef & Uf). destruct (group_bases p bs gf nm Cf) as (Hbne & Hbs & _). fold f in Hbs. rewrite Ef in Hbs.
          assert (forall b, In b bs -> In b (fdeps f)) as Hbd by (intros b Hb; unfold fdeps, f; cbn; rewrite app_nil_r; apply in_or_app; left; exact Hb).
          destruct (groupby_feature_zs eid rs p bs gf nm d1 gb Cf Ef Hrs Hnd Uf) with (d := dd) (d' := d2) (zs := zs) as [Cd2 (zs2 & Er2 & Fz2)].
          + eapply Forall2_impl; [|exact Fb]. intros x r _ _ [J1 J2]. split; [exact J1|]. intros b Hb Hbc. destruct (Hbs b Hb) as (B1 & B2 & B3). apply (J2 b f); auto.
          + exact (Hout gf f f Hf Hf (Hgd p bs nm Hf) Hg1 Hge).
          + exact Erd.
          + exact Ezs.
          + intros z Hzin. split; [apply Hgb; exact Hzin|]. intros n Hn. apply In_nth_error in Hn as (j & Hj). apply (Hc z f j n Hzin Hj). left; reflexivity.
          + exact Hd2.
          + fold f in Fz2.
            assert (map snd zs2 = map snd zs) as E22. { symmetry. apply Forall2_map_eq. eapply Forall2_impl; [|exact Fz2]. intros z z' _ _ (I1 & _). symmetry; exact I1. }
            assert (forall f', In f' g -> f' <> f -> forall n, In n (fnames f') -> ~ In n (fnames f)) as Hdis.
            { intros f' Hf' Hne n Hn Hn'. apply In_nth_error in Hn as (j & Hj). apply In_nth_error in Hn' as (j' & Hj').
              apply Hne. destruct (Hg f' Hf') as (C' & E' & _). apply (cn_columns es fs Hcn f' f j j' n C' Cf); congruence. }
            assert (forall f', In f' (dn ++ f :: rest) -> In f' g) as Hing by (intros f' Hf'; rewrite Egd; exact Hf').
            assert (~ In f (dn ++ rest)) as Hfd. { rewrite Egd in Hng. apply NoDup_remove_2 in Hng. exact Hng. }
            apply (IH (dn ++ [f]) d2 zs2).
            * rewrite <- app_assoc. exact Egd.
            * congruence.
            * exact Er2.
            * congruence.
            * eapply Forall2_trans'; [|exact Fz | exact Fz2]. intros x z z2 J1 (I1 & I2 & _) c Hc'. rewrite I2; [apply J1; exact Hc'|].
              intros Hin. apply Hc'. apply in_flat_map. exists f. split; assumption.
            * intros z2 Hz2. destruct (Forall2_In_r _ _ _ _ Fz2 Hz2) as (z & Hzin & I1 & I2 & _). rewrite I2, I1; [apply Hgb; exact Hzin|].
              exact (Hout gf f f Hf Hf (Hgd p bs nm Hf) Hg1 Hge).
            * intros z2 f' j n Hz2 Hj. destruct (Forall2_In_r _ _ _ _ Fz2 Hz2) as (z & Hzin & I1 & I2 & I3).
              assert (In f' g -> f' <> f -> cell n (fst z2) = cell n (fst z)) as Hsame.
              { intros Hf' Hne. apply I2. apply (Hdis f' Hf' Hne). eapply nth_error_In; exact Hj. }
              destruct (Hc z f' j n Hzin Hj) as [H1 H2]. rewrite I1. split; intros Hin.
              -- apply in_app_or in Hin as [Hin|[<-|[]]].
                 ++ rewrite Hsame; [apply H1; exact Hin | apply Hing, in_or_app; auto|]. intros ->. apply Hfd, in_or_app; auto.
                 ++ apply I3. exact Hj.
              -- rewrite Hsame; [apply H2; right; exact Hin | apply Hing, in_or_app; right; right; exact Hin|]. intros ->. apply Hfd, in_or_app; auto.
            * exact H. }
      set (zs := combine (rows d1) rs).
      assert (List.length (rows d1) = List.length rs) as El2 by congruence.
      assert (map fst zs = rows d1 /\ map snd zs = rs) as [Ez1 Ez2].
      { unfold zs. revert El2. generalize rs. generalize (rows d1). clear. induction l as [|x l IH]; intros [|r rs] E; cbn in *; try discriminate; [auto|]. destruct (IH rs) as [E1 E2]; [lia|]. split; f_equal; assumption. }
      apply (Hloop g [] d1 zs eq_refl eq_refl (eq_sym Ez1) Ez2).
      - apply Forall2_flip. apply (Forall2_map_r' (fun x1 x => forall c, ~ In c N -> cell c x1 = cell c x) fst). rewrite Ez1. apply Forall2_flip. eapply Forall2_impl; [|exact F1]. intros x x1 _ _ [J1 _]. exact J1.
      - intros z Hzin. destruct z as [x1 r]. unfold zs in Hzin. apply combine_nth_error in Hzin as (k & Hk1 & Hk2).
        apply (Forall2_nth_error _ _ _ _ _ _ Fb Hk1 Hk2).
      - intros z f j n Hzin Hj. split; [intros []|]. intros Hf. assert (In (fst z) (rows d1)) as Hx1 by (rewrite <- Ez1; apply in_map; exact Hzin).
        destruct (Forall2_In_r _ _ _ _ F1 Hx1) as (x & _ & _ & J2). apply (J2 f n Hf). eapply nth_error_In; exact Hj.
      - exact H. }
    assert (List.incl (cols d) (cols d')) as Hincl by (rewrite Ec; intros c Hc; apply C1; auto).
    split; [|split; [exact Hincl|]].
    - split; [apply Hincl, Hs|]. rewrite E1. apply Forall2_nth; [rewrite map_length, <- E2, map_length; reflexivity|].
      intros k x' r Hx' Hr. apply nth_error_map_Some in Hx' as (z & Hzk & ->). rewrite <- E2 in Hr. rewrite nth_error_map, Hzk in Hr. injection Hr as <-.
      destruct (nth_error_ex (rows d) k) as (x & Hx). { rewrite El, <- E2, map_length. eapply nth_error_len; exact Hzk. }
      apply (sees_row_step es T tw incl given fs eid L (cols d) (cols d') N x (fst z) (snd z)).
      + destruct Hs as [_ Hs]. rewrite <- E2 in Hs. eapply Forall2_nth_error; [exact Hs | exact Hx|]. rewrite nth_error_map, Hzk. reflexivity.
      + intros c. rewrite Ec. apply C1.
      + exact (Forall2_nth_error _ _ _ _ _ _ F2 Hx Hzk).
      + intros c Hc. apply in_flat_map in Hc as (f & Hf & Hc). apply In_nth_error in Hc as (j & Hj). destruct (Hg f Hf) as (Cf & Ef & _).
        rewrite (Hz z f j c (nth_error_In _ _ Hzk) Hf Hj). apply mn_feat; assumption.
    - intros f Hf. left. intros c Hc. rewrite Ec. apply C1. right. apply in_flat_map. eauto.
  Qed.
End Value2.
