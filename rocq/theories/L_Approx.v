(** The driver when some features are calculated beforehand for groups of cutoffs. *)
From Verif Require Import Base BaseFacts M_Schema M_Table M_Query M_Calc L_Query L_Frame M_CFM S_CFM L_CFM.

Lemma flat_map_single {A B} (h : A -> list B) (e : A -> B) l : (forall a, In a l -> h a = [e a]) -> flat_map h l = map e l.
Proof. induction l as [|a l IH]; intros H; [reflexivity|]. cbn [flat_map map]. rewrite (H a (or_introl eq_refl)), IH; [reflexivity | intros b Hb; apply H; right; exact Hb]. Qed.

(** both times of a row are known *)
Definition both (c : cutoff) : Prop := (exists F, c_time c = Some F) <-> (exists t, c_orig c = Some t).

Section Answer.
  Context {P : Type}.
  Variables (calc : option P -> option window -> Z -> list val -> res matrix)
            (approx : list cutoff -> res P) (sort_ids : list val -> list val) (now : Z) (tw : option window)
            (pass cs : list string) (v : Z -> Z -> val -> list val) (all : list cutoff).
  Hypothesis Hcalc : forall g F p t ids m, g <> [] -> List.incl g all -> (forall c, In c g -> c_time c = Some F) -> approx g = Ok p ->
    ids <> [] -> NoDup ids -> (forall i, In i ids -> exists c, In c g /\ c_id c = i /\ c_orig c = Some t) ->
    calc (Some p) tw t ids = Ok m -> m = mkMatrix cs (map (fun i => (i, v F t i)) ids).
  Hypothesis Hsort : forall l, Permutation (sort_ids l) l.
  Hypothesis Hboth : forall c, In c all -> both c.

  Definition keep := filter (fun c => negb (mem_str c pass)) cs.
  Definition row_for (k : cutoff) (vs : list val) : row :=
    map (fun c => (c, cell c (combine cs vs))) keep ++ map (fun c => (c, cell c (c_pass k))) pass.
  Definition exp_at (k : cutoff) : mrow :=
    ((c_id k, c_orig k), match c_time k, c_orig k with Some F, Some t => row_for k (v F t (c_id k)) | _, _ => [] end).

  Lemma merge_rows_perm F t g m ids : (forall c, In c g -> c_time c = Some F /\ c_orig c = Some t) -> NoDup (map c_id g) ->
    Permutation ids (map c_id g) -> m = mkMatrix cs (map (fun i => (i, v F t i)) ids) ->
    Permutation (merge_rows pass g m) (map exp_at g).
  Proof.
    intros Hg Hn Hp ->. unfold merge_rows. cbn [m_cols m_rows]. fold keep. rewrite isort_perm.
    apply Permutation_refl'. apply flat_map_single. intros k Hk. cbv beta zeta.
    assert (filter (fun iv : val * list val => val_eqb (fst iv) (c_id k)) (map (fun i => (i, v F t i)) ids) = [(c_id k, v F t (c_id k))]) as ->.
    { assert (NoDup ids) as Hni by (eapply Permutation_NoDup; [symmetry; exact Hp | exact Hn]).
      assert (In (c_id k) ids) as Hk' by (eapply Permutation_in; [symmetry; exact Hp|]; apply in_map; exact Hk).
      clear -Hni Hk'. rename Hk' into Hk. induction Hni as [|i ids Hi Hni IH]; [destruct Hk|]. cbn [map filter fst]. destruct (val_eqb_spec i (c_id k)) as [E|E].
      - rewrite E. f_equal. clear -Hi E. rewrite E in Hi. induction ids as [|j ids IH]; [reflexivity|]. cbn [map filter fst].
        destruct (val_eqb_spec j (c_id k)) as [E'|_]; [exfalso; apply Hi; left; exact E'|]. apply IH. intros H. apply Hi. right. exact H.
      - apply IH. destruct Hk as [Hk|Hk]; [congruence | exact Hk]. }
    cbn [map snd]. destruct (Hg k Hk) as [Ef Et]. unfold exp_at, row_for. rewrite Ef, Et. reflexivity.
  Qed.

  Lemma NoDup_ids_orig t g : NoDup (map (fun c => (c_id c, c_orig c)) g) -> (forall c, In c g -> c_orig c = Some t) -> NoDup (map c_id g).
  Proof.
    intros Hn Ht. induction g as [|a l IH]; cbn [map] in *; [constructor|].
    inversion Hn as [|? ? H1 H2]; subst. constructor; [|apply IH; [exact H2 | intros; apply Ht; right; assumption]].
    intros Hin. apply in_map_iff in Hin as (b & E & Hb). apply H1. apply in_map_iff. exists b. split; [|exact Hb].
    rewrite E, (Ht a (or_introl eq_refl)), (Ht b (or_intror Hb)). reflexivity.
  Qed.

  Lemma NoDup_map_sub {A B} (h : A -> B) (l l' : list A) : NoDup (map h l) -> (exists p, l' = filter p l) -> NoDup (map h l').
  Proof. intros H (p & ->). apply NoDup_map_filter. exact H. Qed.

  Lemma calc_chunk_approx size xs rows : good_size size -> List.incl xs all -> NoDup (map (fun c => (c_id c, c_orig c)) xs) ->
    calc_chunk calc approx sort_ids now tw pass true false size (CFrame xs) = Ok rows ->
    Permutation rows (map exp_at (filter (timed c_time) xs)).
  Proof.
    intros Hsz Hall Hn H. cbn [calc_chunk andb] in H. apply bind_Ok in H as (parts & Hp & H).
    destruct (Nat.eqb (List.length parts) 0); [discriminate|]. injection H as <-.
    rewrite <- groupby_perm. eapply flat_map_perm_map; [exact Hp|]. clear Hp parts. intros (F & g) part Hg H. cbn [fst snd] in *.
    pose proof (fun c => groupby_time_of _ _ _ _ c Hg) as Hc. pose proof (groupby_In _ _ _ _ Hg) as [Hne Hgf].
    apply bind_Ok in H as (pre & Hpre & H). apply bind_Ok in Hpre as (p & Hap & Hpre). injection Hpre as <-.
    apply bind_Ok in H as (inner & Hi & H). apply bind_Ok in H as (ms & Hm & H). injection H as <-.
    assert (List.incl g all) as Hga by (intros c Hc'; apply Hall, Hc, Hc').
    assert (NoDup (map (fun c => (c_id c, c_orig c)) g)) as Hgn by (eapply NoDup_map_sub; [exact Hn | eauto]).
    assert (filter (timed c_orig) g = g) as Eg.
    { apply filter_all. intros c Hc'. destruct (proj1 (Hboth c (Hga c Hc'))) as (t & Et); [exists F; apply Hc, Hc'|]. unfold timed. rewrite Et. reflexivity. }
    assert (Permutation (flat_map snd inner) g /\ forall k s, In (k, s) inner -> s <> [] /\ NoDup (map c_id s) /\ List.incl s g /\ forall c, In c s -> c_orig c = Some k) as [Hfl Hin].
    { assert (forall k s, In (k, s) (groupby_time c_orig g) -> s <> [] /\ NoDup (map c_id s) /\ List.incl s g /\ forall c, In c s -> c_orig c = Some k) as Hgr.
      { intros k s Hks. pose proof (fun c => groupby_time_of _ _ _ _ c Hks) as Hsc. pose proof (groupby_In _ _ _ _ Hks) as [Hsne Hsf]. split; [exact Hsne|]. split.
        - eapply NoDup_ids_orig; [eapply NoDup_map_sub; [exact Hgn | eauto] | intros c Hc'; apply Hsc, Hc'].
        - split; [intros c Hc'; apply Hsc, Hc' | intros c Hc'; apply Hsc, Hc']. }
      destruct size as [n|].
      - pose proof (chunk_groups_concat n _ _ Hsz Hi) as [H1 H2]. split; [rewrite H1, groupby_perm, Eg; reflexivity|].
        intros k s Hks. destruct (chunk_groups_slice _ _ _ _ _ Hsz Hi Hks) as (g' & Hg' & Hs). destruct (Hgr k g' Hg') as (A1 & A2 & A3 & A4).
        pose proof (slices_In _ _ _ Hsz Hs) as (B1 & _ & B3). split; [exact B1|]. split; [eapply NoDup_incl_slice; eassumption|].
        split; [eapply incl_tran; eassumption | intros c Hc'; apply A4, B3, Hc'].
      - injection Hi as <-. split; [rewrite groupby_perm, Eg; reflexivity | exact Hgr]. }
    etransitivity; [|apply Permutation_map; exact Hfl]. eapply flat_map_perm_map; [exact Hm|]. intros (t & s) q Hks H. cbn [fst snd] in *.
    destruct (Hin _ _ Hks) as (Hsne & Hsn & Hsi & Hst). apply bind_Ok in H as (m & Hm' & H). injection H as <-.
    eapply merge_rows_perm; [intros c Hc'; split; [apply Hc, Hsi, Hc' | apply Hst, Hc'] | exact Hsn | apply Hsort|].
    eapply Hcalc; [exact Hne | exact Hga | intros c Hc'; apply Hc, Hc' | exact Hap | | | | exact Hm'].
    - intros E. apply Hsne. pose proof (Hsort (map c_id s)) as Hp. rewrite E in Hp. apply Permutation_nil in Hp. destruct s; [reflexivity | discriminate].
    - eapply Permutation_NoDup; [symmetry; apply Hsort | exact Hsn].
    - intros i Hi'. eapply Permutation_in in Hi'; [|apply Hsort]. apply in_map_iff in Hi' as (c & <- & Hc'). exists c. split; [apply Hsi, Hc' | split; [reflexivity | apply Hst, Hc']].
  Qed.

  Lemma par_approx n arrive size xs rows : 0 < n -> (forall l, Permutation (arrive l) l) -> List.incl xs all -> NoDup (map (fun c => (c_id c, c_orig c)) xs) ->
    par_chunks calc approx sort_ids now tw pass true false n arrive size (CFrame xs) = Ok rows ->
    Permutation rows (map exp_at (filter (timed c_time) xs)).
  Proof.
    intros Hn Ha Hall Hd H. unfold par_chunks in H. apply bind_Ok in H as (k & Hk & H). apply bind_Ok in H as (chunks & Hc & H).
    apply bind_Ok in H as (parts & Hp & H). destruct (Nat.eqb (List.length parts) 0); [discriminate|]. injection H as <-.
    apply (perm_mapM_concat _ _ _ _ (Ha chunks)) in Hp as (parts' & Hp & Hpp). rewrite Hpp. clear Hpp parts.
    apply bind_Ok in Hc as (gs & Hg & Hc). injection Hc as <-.
    destruct (Nat.eqb_spec k 0) as [->|Hk0].
    { unfold chunk_groups in Hg. cbn [Nat.eqb andb] in Hg. destruct (groupby_time c_time xs) eqn:E; cbn in Hg; [|discriminate].
      injection Hg as <-. cbn in Hp. injection Hp as <-. cbn [List.concat]. pose proof (groupby_perm c_time xs) as HH. rewrite E in HH. cbn in HH.
      apply Permutation_map with (f := exp_at) in HH. exact HH. }
    assert (0 < k) as Hk' by lia. pose proof (chunk_groups_concat _ _ _ Hk' Hg) as [Hcc Hin].
    rewrite <- groupby_perm, <- Hcc.
    apply mapM_Ok_Forall2 in Hp. apply Forall2_map_l_inv in Hp.
    apply (mapM_Ok_Forall2 (fun kg => calc_chunk calc approx sort_ids now tw pass true false None (CFrame (snd kg)))) in Hp.
    eapply flat_map_perm_map; [exact Hp|]. intros (t & s) p Hts H. cbn [snd] in *.
    destruct (chunk_groups_slice _ _ _ _ _ Hk' Hg Hts) as (g & Hgg & Hs). pose proof (slices_In _ _ _ Hk' Hs) as (_ & _ & Hsi).
    assert (filter (timed c_time) s = s) as E.
    { apply filter_all. intros c Hc. apply Hsi in Hc. eapply groupby_time_of in Hgg as [E _]; [|exact Hc]. unfold timed. rewrite E. reflexivity. }
    rewrite <- E. eapply (calc_chunk_approx None); [exact I | | | exact H].
    - intros c Hc. apply Hsi in Hc. apply Hall. eapply groupby_time_of in Hgg; [|exact Hc]. apply Hgg.
    - eapply NoDup_incl_slice; [exact Hk' | | exact Hs]. apply groupby_In in Hgg as [_ ->]. apply NoDup_map_filter; exact Hd.
  Qed.

  (** the matrix has one row for every row of the cutoff frame, in its order *)
  Theorem cfm_approx_outcome m size cs0 fm : all <> [] ->
    fair m -> (forall n a, m = Workers n a -> 0 < n) -> (forall num den, size = Some (num, den) -> (0 < den)%Z) ->
    map (fun c => (c_id c, c_time c)) cs0 = map (fun c => (c_id c, c_orig c)) all -> NoDup (map (fun c => (c_id c, c_time c)) cs0) ->
    cfm calc approx sort_ids now tw pass m true false size (CFrame cs0) (CFrame all) = Ok fm -> fm = map exp_at all.
  Proof.
    intros Hne Hm Hw Hs E Hd H. rewrite E in Hd. unfold cfm in H. apply bind_Ok in H as (sz & Hsz & H). apply bind_Ok in H as (rows & Hr & H).
    assert (List.length cs0 = List.length all) as El by (pose proof (f_equal (@List.length _) E) as El; rewrite !map_length in El; exact El).
    assert (Permutation rows (map exp_at (filter (timed c_time) all))) as Hp.
    { destruct m as [|n arrive].
      - eapply calc_chunk_approx; [| apply incl_refl | exact Hd | exact Hr].
        destruct size as [[num den]|]; [|injection Hsz as <-; exact I]. eapply good_size_handle; [eapply Hs; reflexivity | | exact Hsz]. cbn. rewrite El. destruct all; [congruence | cbn; lia].
      - eapply par_approx; [eapply Hw; reflexivity | exact Hm | apply incl_refl | exact Hd | exact Hr]. }
    cbn [reindex] in H.
    assert (NoDup (map fst rows)) as Hnr.
    { eapply Permutation_NoDup; [symmetry; apply Permutation_map; exact Hp|]. rewrite map_map. cbn [exp_at fst]. apply NoDup_map_filter; exact Hd. }
    rewrite (proj2 (distinct_by_spec _ label_eqb_spec _) Hnr) in H. injection H as <-.
    set (look := fun k : val * option Z => (k, match snd k with Some _ => match dget label_eqb k rows with Some r => r | None => [] end | None => [] end) : mrow).
    change (map (fun c => look (c_id c, c_time c)) cs0 = map exp_at all). rewrite <- (map_map (fun c => (c_id c, c_time c)) look), E, map_map.
    apply map_ext_in. intros k Hk. unfold look. cbn [snd]. unfold exp_at. f_equal.
    destruct (c_orig k) as [t|] eqn:Et; [|destruct (c_time k); reflexivity].
    destruct (proj2 (Hboth k Hk)) as (F & EF); [eauto|]. 
    rewrite (dget_NoDup_In _ label_eqb_spec (c_id k, Some t) (snd (exp_at k))); [unfold exp_at; cbn [snd]; rewrite EF, Et; reflexivity | exact Hnr |].
    eapply Permutation_in; [symmetry; exact Hp|]. apply in_map_iff. exists k. split; [unfold exp_at; rewrite EF, Et; reflexivity|].
    apply filter_In. split; [exact Hk | unfold timed; rewrite EF; reflexivity].
  Qed.

  Lemma cell_row_for k vs x : cell x (row_for k vs) = if mem_str x pass then cell x (c_pass k) else cell x (combine cs vs).
  Proof.
    unfold row_for.
    assert (forall l (h : string -> val), dget String.eqb x (map (fun c => (c, h c)) l) = if mem_str x l then Some (h x) else None) as Hmap.
    { induction l as [|a l IH]; intros h; [reflexivity|]. cbn [map dget]. rewrite mem_str_cons. destruct (String.eqb_spec x a) as [->|]; [reflexivity | apply IH]. }
    assert (forall a b : row, dget String.eqb x (a ++ b) = match dget String.eqb x a with Some w => Some w | None => dget String.eqb x b end) as Happ.
    { induction a as [|[y w] a IH]; intros b; [reflexivity|]. cbn [app dget]. destruct (String.eqb x y); [reflexivity | apply IH]. }
    unfold cell at 1. rewrite Happ, !Hmap. unfold keep.
    destruct (mem_str x pass) eqn:Ep.
    - assert (mem_str x (filter (fun c => negb (mem_str c pass)) cs) = false) as ->; [|reflexivity].
      match goal with |- ?a = false => destruct a eqn:E end; [|reflexivity]. apply mem_str_In, filter_In in E as [_ E]. rewrite Ep in E. discriminate.
    - destruct (mem_str x (filter (fun c => negb (mem_str c pass)) cs)) eqn:E; [reflexivity|].
      assert (~ In x cs) as Hno. { intros Hx. assert (In x (filter (fun c => negb (mem_str c pass)) cs)) as Hy by (apply filter_In; split; [exact Hx | rewrite Ep; reflexivity]). apply mem_str_In in Hy. congruence. }
      symmetry. unfold cell. destruct (dget String.eqb x (combine cs vs)) as [w|] eqn:Ed; [|reflexivity].
      apply (dget_In _ String.eqb_spec) in Ed. apply in_combine_l in Ed. contradiction.
  Qed.
End Answer.
