(** C06: the calculated values are the meaning of the requested features. *)
From Verif Require Import Base BaseFacts M_Schema S_Schema M_Trie M_Table M_Query S_Query L_Query S_View L_View
  M_Feature M_FeatureSet M_Calc S_Calc S_Group S_Plan S_Sem S_Approx S_Value L_Trie L_Frame L_FeatureSet L_Plan L_Group P_Select L_Schema
  P_Serialize L_Value1 L_Value2 L_Value3 L_Value4 L_Value5 L_Value6 L_Value7 X_Demo P_Group.

(** ** tries of plans *)
Lemma mark_full_twf p : forall t : ftrie, twf t -> twf (mark_full p t).
Proof.
  induction p as [|k p IH]; intros [v ch] H; [exact H|]. cbn [mark_full]. apply twf_unfold in H as [H1 H2]. apply twf_unfold. split.
  - apply (upd_child_NoDup edge_eqb edge_eqb_spec). exact H1.
  - apply (upd_child_Forall edge_eqb); [exact H2|]. intros [[[f0 f1] f2] ch'] Hs. apply IH. apply twf_unfold. apply twf_unfold in Hs. exact Hs.
Qed.

Lemma add_feature_twf rels n : forall f t appr anc, fsize f <= n -> twf t -> twf (add_feature rels f t appr anc).
Proof.
  induction n as [|n IH]; intros f t appr anc Hn Ht; [destruct f; cbn [fsize] in Hn; lia|].
  rewrite add_feature_unfold. destruct t as [[[nfl ff] nf] ch]. cbn [tvalue children]. cbn zeta.
  destruct (mem_str _ (tvalue appr)); [exact Ht|].
  apply (twf_update edge_eqb edge_eqb_spec).
  - assert (forall ds s, List.incl ds (fdeps f) -> twf s ->
      twf (fold_left (fun s d => add_feature rels (unslice d) s (get_node edge_eqb [] (fpath f) appr) (anc || uses_full f)) ds s)) as Hfold.
    { induction ds as [|d ds IHd]; intros s Hi Hs; cbn [fold_left]; [exact Hs|].
      apply IHd; [intros x Hx; apply Hi; right; exact Hx|]. apply IH; [|exact Hs].
      pose proof (fsize_dep f d (Hi d (or_introl eq_refl))). pose proof (fsize_unslice d). lia. }
    intros s Hs. apply Hfold; [apply incl_refl | exact Hs].
  - destruct (anc || uses_full f); [apply mark_full_twf|]; apply twf_unfold; apply twf_unfold in Ht; exact Ht.
Qed.

Lemma build_twf rels fs appr : twf (build_feature_trie rels fs appr).
Proof.
  unfold build_feature_trie. assert (twf (@TNode edge fnode fnode0 [])) as H0 by (apply twf_unfold; split; constructor).
  revert H0. generalize (@TNode edge fnode fnode0 []). induction fs as [|f fs IH]; intros t Ht; cbn [fold_left]; [exact Ht|].
  apply IH. eapply add_feature_twf; [apply le_n | exact Ht].
Qed.

(** ** the table of features by name *)
Lemma by_name_sound rels fs n f : dget String.eqb n (features_by_name rels fs) = Some f -> needed fs f /\ funique rels f = n.
Proof.
  set (P := fun d : list (string * feat) => forall n f, dget String.eqb n d = Some f -> needed fs f /\ funique rels f = n).
  assert (forall l d, P d -> (forall g, In g l -> needed fs g) -> P (fold_left (fun d g => dset String.eqb (funique rels g) g d) l d)) as Hl.
  { induction l as [|g l IH]; intros d Hd Hg; cbn [fold_left]; [exact Hd|]. apply IH; [|intros h Hh; apply Hg; right; exact Hh].
    intros m h Hm. destruct (string_dec (funique rels g) m) as [<-|Hne].
    - rewrite (dget_dset_same _ String.eqb_spec) in Hm. injection Hm as <-. split; [apply Hg; left; reflexivity | reflexivity].
    - rewrite (dget_dset_other _ String.eqb_spec) in Hm by congruence. apply Hd. exact Hm. }
  unfold features_by_name. cbv zeta. revert n f.
  assert (forall l d, P d -> (forall g, In g l -> In g fs) -> P (fold_left (fun d f => fold_left (fun d dep => dset String.eqb (funique rels dep) dep d) (deep_deps rels [] f) d) l d)) as Hll.
  { induction l as [|g l IH]; intros d Hd Hg; cbn [fold_left]; [exact Hd|]. apply IH; [|intros h Hh; apply Hg; right; exact Hh].
    apply Hl; [exact Hd|]. intros h Hh. exists g. split; [apply Hg; left; reflexivity|]. apply (reaches_cases rels). right. exact Hh. }
  apply Hll; [|auto]. apply Hl; [discriminate | apply needed_self].
Qed.

(** ** plans of feature sets *)
Section Plan.
  Variables (es : entityset) (fs : list feat).
  Notation rels := (es_rels es).
  Hypothesis Hcn : clear_names es fs.
  Hypothesis Hwt : forall f, needed fs f -> wt rels f.
  Hypothesis Hns : forall f, In f fs -> ~ is_slice f.

  Lemma calculated_dep f d : calculated fs f -> In d (fdeps f) -> calculated fs (unslice d).
  Proof.
    intros [N _] Hd. pose proof (needed_dep fs f d N Hd) as Nd. pose proof (Hwt d Nd) as Wd. destruct (wt_unslice rels d Wd) as (_ & Hs & _).
    split; [|exact Hs]. destruct d; try exact Nd. cbn [unslice]. eapply needed_dep; [exact Nd | left; reflexivity].
  Qed.

  Lemma planned_calculated appr p b g : planned rels (apx appr) fs p b g -> calculated fs g.
  Proof.
    induction 1 as [f Hf _|p b f d Hp IH Hd _]; [split; [apply needed_self; exact Hf | apply Hns; exact Hf]|]. eapply calculated_dep; eassumption.
  Qed.

  Lemma planned_uses_full appr p b g : planned rels (apx appr) fs p b g -> b = true -> exists g', calculated fs g' /\ uses_full g' = true.
  Proof.
    induction 1 as [f Hf _|p b f d Hp IH Hd _]; intros E.
    - exists f. split; [split; [apply needed_self; exact Hf | apply Hns; exact Hf] | exact E].
    - apply orb_true_iff in E as [E|E]; [apply IH; exact E|]. exists (unslice d). split; [eapply calculated_dep; [eapply planned_calculated; exact Hp | exact Hd] | exact E].
  Qed.

  Lemma build_plan_ok appr given : (forall p b g, planned rels (apx appr) fs p b g -> given g = None) -> plan_ok es given fs (build_feature_trie rels fs appr).
  Proof.
    intros Hgv p. pose proof (plan_exact rels fs appr p) as Hp. destruct (V (build_feature_trie rels fs appr) p) as [[full ff] nf] eqn:EV. destruct Hp as (H1 & H2 & H3 & H4 & H5).
    cbn [nff nnf nfull fst snd]. split; [exact H4|]. split; [exact H5|]. split; [|split].
    3:{ intros E. apply H3 in E as (p0 & g & q & r & Hg & _). exact (planned_uses_full _ _ _ _ Hg eq_refl). }
    2:{ intros f C Hf. assert (exists b g, planned rels (apx appr) fs p b g /\ funique rels f = funique rels g) as (b & g & Hg & Eg).
        { apply in_app_iff in Hf as [Hf|Hf]; [apply H1 in Hf as (g & Hg & Eg); eauto | apply H2 in Hf as [(g & Hg & Eg) _]; eauto]. }
        pose proof (planned_calculated _ _ _ _ Hg) as Cg. assert (f = g) as -> by (apply (cn_unique es fs Hcn); [apply C | apply Cg | exact Eg]). exact (Hgv _ _ _ Hg). }
    intros f C Hf q r Eq. apply H1 in Hf as (g & Hg & Eg).
    pose proof (planned_calculated _ _ _ _ Hg) as Cg. assert (f = g) as -> by (apply (cn_unique es fs Hcn); [apply C | apply Cg | exact Eg]).
    pose proof (plan_exact rels fs appr (p ++ q)) as Hq. destruct (V (build_feature_trie rels fs appr) (p ++ q)) as [[full' ff'] nf'].
    destruct Hq as (_ & _ & Hq & _). cbn [nfull fst snd]. apply Hq. exists p, g, q, r. auto.
  Qed.
End Plan.

(** ** the feature matrix *)
Lemma default_cell rels fs f n : (forall f g, In f fs -> In g fs -> In n (fnames rels f) -> In n (fnames rels g) -> f = g) ->
  In f fs -> In n (fnames rels f) -> cell n (default_row rels fs) = fdefault f.
Proof.
  intros Hu Hf Hn. unfold default_row. assert (forall l, List.incl l fs -> In f l -> cell n (flat_map (fun f => map (fun n => (n, fdefault f)) (fnames rels f)) l) = fdefault f) as H.
  { induction l as [|g l IH]; intros Hi Hin; [destruct Hin|]. cbn [flat_map].
    destruct (in_dec string_dec n (fnames rels g)) as [Hg|Hg].
    - rewrite (Hu f g Hf (Hi g (or_introl eq_refl)) Hn Hg) in *. clear -Hg. revert Hg. generalize (flat_map (fun f => map (fun n => (n, fdefault f)) (fnames rels f)) l) as rest. generalize (fdefault g) as v.
      intros v rest. induction (fnames rels g) as [|m ms IH]; intros Hg; [destruct Hg|]. cbn [map app]. unfold cell. cbn [dget]. destruct (String.eqb_spec n m) as [->|Hne]; [reflexivity|].
      destruct Hg as [->|Hg]; [congruence|]. apply IH. exact Hg.
    - destruct Hin as [->|Hin]; [contradiction|]. rewrite <- (IH (fun x Hx => Hi x (or_intror Hx)) Hin). clear -Hg. generalize (fdefault g) as v. intros v.
      induction (fnames rels g) as [|m ms IH]; [reflexivity|]. cbn [map app]. unfold cell. cbn [dget]. destruct (String.eqb_spec n m) as [->|Hne]; [exfalso; apply Hg; left; reflexivity|].
      apply IH. intros Hx. apply Hg. right; exact Hx. }
  apply H; [apply incl_refl | exact Hf].
Qed.

Lemma map_flat_map {A B C} (h : B -> C) (k : A -> list B) l : map h (flat_map k l) = flat_map (fun a => map h (k a)) l.
Proof. induction l as [|a l IH]; cbn [flat_map]; [reflexivity|]. rewrite map_app, IH. reflexivity. Qed.
Lemma flat_map_ext_in {A B} (h k : A -> list B) l : (forall a, In a l -> h a = k a) -> flat_map h l = flat_map k l.
Proof. induction l as [|a l IH]; intros H; cbn [flat_map]; [reflexivity|]. rewrite (H a (or_introl eq_refl)), IH; [reflexivity|]. intros b Hb. apply H. right; exact Hb. Qed.

Lemma map_nth_eq {A B} (h : A -> B) (l : list A) (vs : list B) dflt : List.length vs = List.length l ->
  (forall i a, nth_error l i = Some a -> h a = nth i vs dflt) -> map h l = vs.
Proof.
  revert vs. induction l as [|a l IH]; intros [|v vs] E H; try discriminate; [reflexivity|]. cbn [map]. f_equal; [apply (H 0 a eq_refl)|].
  apply IH; [cbn [List.length] in E; lia|]. intros i b Hi. apply (H (S i) b Hi).
Qed.

Section Matrix.
  Variables (es : entityset) (idvars : string -> list string) (ord : list string -> list string) (T : Z) (tw : option window) (incl : bool) (fs : list feat).
  Notation rels := (es_rels es).
  Notation R := (rows_at es T tw incl).

  (** a valid request: the features are well formed, of the entity [eid], and have clear names; the
      conditions under which C06 holds are the records [clear_names] and [plain_features] of S_Value.v *)
  Record valid_request (eid : string) : Prop := {
    vr_es : good_es es;
    vr_index : index_present es;
    vr_idvars : good_idvars es idvars;
    vr_window : win_time tw;
    vr_order : forall l, Permutation (ord l) l;
    vr_features : forall f, In f fs -> wt rels f /\ ~ is_slice f /\ fentity f = eid;
    vr_names : clear_names es fs;
    vr_plain : plain_features rels fs
  }.

  Lemma request_wt eid : valid_request eid -> forall f, needed fs f -> wt rels f.
  Proof.
    intros H f (f0 & Hf0 & Hr). assert (wt rels f0) as W by (apply (vr_features eid H f0 Hf0)). clear Hf0. induction Hr as [f|f d g Hd Hr IH]; [exact W|]. apply IH.
    assert (is_slice f \/ ~ is_slice f) as [Hs|Hs] by (destruct f; cbn [is_slice]; auto).
    - destruct f; try contradiction. cbn [fdeps fbases fwhere app] in Hd. destruct Hd as [<-|[]]. apply (proj1 (wt_unslice rels _ W)).
    - destruct (wt_path rels f W Hs) as (b & _ & Hb). apply (Hb d Hd).
  Qed.

  (** with features calculated beforehand: [given] are their values, [appr] says where they are left out of the plan *)
  Theorem matrix_given given appr pre eid ids m : (forall f g, given f = Some g -> is_aggregation f) ->
    (forall f g r, needed fs f -> given f = Some g -> List.length (g r) = fnout f) ->
    tvalue appr = [] -> (forall p b f, planned rels (apx appr) fs p b f -> given f = None) ->
    pre_ok es T tw incl given fs eid (inb (index_of es eid) ids) (build_feature_trie rels fs appr) pre ->
    valid_request eid ->
    (forall f, In f fs -> single_column f \/ fdefault f = VNull \/
       exists i r, In i ids /\ In r (R eid) /\ cell (index_of es eid) r = i /\ sem_with es T tw incl given f r <> repeat (fdefault f) (fnout f)) ->
    run es idvars ord fs appr pre T tw incl ids = Ok m ->
    m_cols m = flat_map (fnames rels) fs /\
    (forall i, In i (map fst (m_rows m)) <-> In i ids) /\
    (forall i vals, In (i, vals) (m_rows m) -> vals = flat_map (fun f => value_with es T tw incl given f i) fs).
  Proof.
    intros Hov Hovl Hroot Hgv Hpre Hv Hdef Hrun. pose proof (request_wt eid Hv) as Hwt. destruct Hv as [Hes Hip Hiv Hw Hord Hfs Hcn Hpf].
    unfold run in Hrun. destruct fs as [|f0 fs'] eqn:Efs; [discriminate|]. rewrite <- Efs in *. destruct ids as [|i0 ids'] eqn:Ei; [discriminate|]. rewrite <- Ei in *. cbv zeta in Hrun.
    assert (fentity f0 = eid) as E0 by (apply Hfs; rewrite Efs; left; reflexivity). rewrite E0 in Hrun.
    apply bind_Ok in Hrun as (e & He & Hrun). apply bind_Ok in Hrun as (tr & Htr & Hrun).
    pose proof (index_of_eq es eid e He) as Eidx.
    assert (good es T tw incl given fs eid [] (inb (e_index e) ids) (build_feature_trie rels fs appr) tr) as Hg.
    { eapply (calc_node_good es idvars T tw incl given fs Hes Hip Hiv Hw Hcn Hov Hwt Hpf Hovl (features_by_name rels fs) ord (by_name_sound rels fs) Hord) with (parent := None); [ | apply build_twf | apply build_plan_ok; [exact Hcn | exact Hwt | intros f Hf; apply (Hfs f Hf) | exact Hgv] | apply lvl_nil | reflexivity | left; symmetry; exact Eidx | left; symmetry; exact Eidx | rewrite <- Eidx; exact Hpre | exact Htr].
      apply build_typed.
      - intros f d C Hd. eapply calculated_dep; eassumption.
      - intros f [N S]. split; [apply Hwt; exact N | exact S].
      - intros f Hf. split; [split; [apply needed_self; exact Hf | apply (Hfs f Hf)] | apply (Hfs f Hf)]. }
    pose proof (fun _ : feat => plan_exact rels fs appr []) as Hplan.
    destruct (build_feature_trie rels fs appr) as [[[full ff] nf] ch] eqn:Eft. destruct tr as [[o3 o5] subs].
    apply good_unfold in Hg as (_ & _ & (d & -> & Hs & Hthere) & _). cbn [tvalue snd] in Hrun.
    set (rs := filter (inb (e_index e) ids) (R eid)) in *.
    assert (forall f, In f fs -> calculated fs f) as HC by (intros f Hf; split; [apply needed_self; exact Hf | apply (Hfs f Hf)]).
    assert (forall f, In f fs -> there es T tw incl given d rs f) as Hth.
    { intros f Hf. apply Hthere; [apply HC; exact Hf|]. specialize (Hplan f). change (V (TNode (full, ff, nf) ch) []) with ((full, ff, nf) : fnode) in Hplan. cbn iota in Hplan.
      destruct Hplan as (H1 & H2 & _). assert (planned rels (apx appr) fs [] (uses_full f) f) as Hp by (apply planned_target; [exact Hf | unfold apx; cbn [get_node]; rewrite Hroot; intros []]).
      apply in_app_iff. destruct (in_dec string_dec (funique rels f) ff) as [Hin|Hin]; [left; exact Hin|]. right. apply H2. destruct (uses_full f); [exfalso; apply Hin, H1; exists f; auto|].
      split; [exists f; auto|]. intros Hx. apply Hin, H1. exact Hx. }
    assert (forall f, In f fs -> fnout f = List.length (fnames rels f)) as Hlen by (intros f Hf; rewrite fnaming_len; reflexivity).
    set (names := flat_map (fnames rels) fs) in *. set (dflt := default_row rels fs) in *.
    assert (NoDup (map (cell (e_index e)) (R eid))) as HnR by (rewrite <- Eidx; apply R_NoDup; assumption).
    assert (forall r, In r (R eid) -> In (cell (e_index e) r) ids -> In r rs) as Hrs.
    { intros r Hr Hin. apply filter_In. split; [exact Hr|]. unfold inb. apply andb_true_iff. split; [apply mem_val_In; exact Hin|].
      pose proof (R_nonnull es T tw incl Hes Hip Hw eid r Hr) as Hnn. rewrite Eidx in Hnn. destruct (cell (e_index e) r); [congruence|reflexivity..]. }
    assert (forall f r, In f fs -> In r rs -> value_with es T tw incl given f (cell (e_index e) r) = sem_with es T tw incl given f r) as Hval.
    { intros f r Hf Hr. unfold value_with. rewrite (proj2 (proj2 (Hfs f Hf))), Eidx, (row_with_unique _ _ _ HnR); [reflexivity|]. apply filter_In in Hr. apply Hr. }
    assert (forall i, In i ids -> ~ In i (map (cell (e_index e)) rs) -> map (fun n => cell n dflt) names = flat_map (fun f => value_with es T tw incl given f i) fs) as Hmiss.
    { intros i Hi Hno. unfold names. rewrite map_flat_map. apply flat_map_ext_in. intros f Hf. unfold value_with. rewrite (proj2 (proj2 (Hfs f Hf))), Eidx.
      rewrite (proj2 (row_with_None (e_index e) i (R eid))); [|intros Hx; apply in_map_iff in Hx as (r & <- & Hr); apply Hno; apply in_map, Hrs; assumption].
      rewrite (Hlen f Hf). assert (forall ns, List.incl ns (fnames rels f) -> map (fun n => cell n dflt) ns = repeat (fdefault f) (List.length ns)) as Hx; [|apply Hx, incl_refl].
      induction ns as [|n ns IH]; intros Hin; [reflexivity|]. cbn [map List.length repeat]. f_equal; [|apply IH; intros x Hx; apply Hin; right; exact Hx].
      apply default_cell; [|exact Hf | apply Hin; left; reflexivity]. intros g h Hg Hh Ng Nh. apply In_nth_error in Ng as (k & Ng). apply In_nth_error in Nh as (l & Nh).
      apply (cn_columns es fs Hcn g h k l n); auto. rewrite (proj2 (proj2 (Hfs g Hg))), (proj2 (proj2 (Hfs h Hh))). reflexivity. }
    assert (forall x r, In r rs -> sees_row es T tw incl given fs eid [] (cols d) x r -> map (fun n => cell n x) names = flat_map (fun f => value_with es T tw incl given f (cell (e_index e) r)) fs) as Hhave.
    { intros x r Hr Hx. unfold names. rewrite map_flat_map. apply flat_map_ext_in. intros f Hf. rewrite (Hval f r Hf Hr).
      apply map_nth_eq with (dflt := VNull); [rewrite (semw_length es T tw incl given fs Hwt Hpf Hovl f (proj1 (HC f Hf)) r); apply Hlen; exact Hf|].
      intros k n Hk. destruct (in_dec string_dec n (cols d)) as [Hn|Hn].
      - eapply sr_feat; [exact Hes | exact Hcn | exact Hov | apply lvl_nil | exact Hx | apply HC; exact Hf | apply (Hfs f Hf) | exact Hk | exact Hn].
      - destruct (Hth f Hf) as [Hin|[Hsg Hall]]; [exfalso; apply Hn, Hin; eapply nth_error_In; exact Hk|].
        destruct (Hdef f Hf) as [Hd|[Hd|(i & r' & Hi & Hr' & Er' & Hne)]]; [contradiction | | exfalso; apply Hne, Hall, Hrs; [exact Hr' | rewrite <- Eidx, Er'; exact Hi]].
        rewrite (proj2 (proj2 Hx) n Hn), (Hall r Hr), Hd. symmetry. apply nth_repeat'. rewrite (Hlen f Hf). eapply nth_error_len. exact Hk. }
    destruct Hs as [Hix Hs]. destruct (rows d) as [|x0 xs] eqn:Ex.
    - injection Hrun as <-. cbn [m_cols m_rows]. split; [reflexivity|]. assert (rs = []) as E by (inversion Hs; reflexivity). split.
      + intros i. rewrite map_map. cbn [fst]. rewrite map_id. reflexivity.
      + intros i vals Hin. apply in_map_iff in Hin as (i' & [= <- <-] & Hi). apply Hmiss; [exact Hi|]. rewrite E. intros [].
    - rewrite <- Ex in *. clear Ex x0 xs.
      set (have := map (cell (e_index e)) (rows d)) in *. set (missing := filter (fun i => negb (mem_val i have)) ids) in *.
      set (labelled := map (fun i => (i, dflt)) missing ++ map (fun r => (cell (e_index e) r, r)) (rows d)) in *.
      destruct (Nat.eqb _ _) eqn:El; [|discriminate]. apply bind_Ok in Hrun as (us & _ & Hrun). injection Hrun as <-. cbn [m_cols m_rows]. split; [reflexivity|].
      assert (Forall2 (fun x r => cell (e_index e) x = cell (e_index e) r) (rows d) rs) as Fi.
      { eapply Forall2_impl; [|exact Hs]. intros x r _ _ Hx. cbv beta. eapply sr_raw; [exact Hes | exact Hcn | exact Hov | apply lvl_nil | exact He | exact Hx | rewrite <- Eidx; exact Hix |]. exact (proj1 (proj2 (proj1 (ent_good es Hes _ _ He)))). }
      assert (have = map (cell (e_index e)) rs) as Eh by (apply Forall2_map_eq; exact Fi).
      split.
      + intros i. rewrite map_map. cbn [fst]. rewrite map_id. rewrite (dedup_In val_eqb val_eqb_spec). split; [tauto|]. intros Hi. split; [exact Hi | intros []].
      + intros i vals Hin. apply in_map_iff in Hin as (i' & [= <- <-] & Hi). apply (dedup_In val_eqb val_eqb_spec) in Hi as [Hi _].
        destruct (dget val_eqb i' labelled) as [x|] eqn:Ed.
        * apply (dget_In _ val_eqb_spec) in Ed. unfold labelled in Ed. apply in_app_or in Ed as [Ed|Ed].
          -- apply in_map_iff in Ed as (i2 & [= -> <-] & Hm). apply filter_In in Hm as [_ Hm]. apply Hmiss; [exact Hi|]. rewrite <- Eh.
             intros Hx. apply mem_val_In in Hx. rewrite Hx in Hm. discriminate.
          -- apply in_map_iff in Ed as (x' & [= <- ->] & Hx). 
             destruct (Forall2_In_l _ _ _ _ (Forall2_and _ _ _ _ Hs Fi) Hx) as (r & Hr & Hsr & Er). rewrite Er. apply Hhave; assumption.
        * exfalso. apply (dget_None _ val_eqb_spec) in Ed. apply Ed. unfold labelled. rewrite map_app, !map_map. cbn [fst]. rewrite map_id. apply in_or_app.
          destruct (mem_val i' have) eqn:Em; [right; apply mem_val_In; exact Em | left; apply filter_In; split; [exact Hi | rewrite Em; reflexivity]].
  Qed.

  Theorem C06_values_partial eid ids m : valid_request eid ->
    (** an aggregation that is not a single pandas column and has a non-null default takes another value somewhere *)
    (forall f, In f fs -> single_column f \/ fdefault f = VNull \/
       exists i r, In i ids /\ In r (R eid) /\ cell (index_of es eid) r = i /\ sem es T tw incl f r <> repeat (fdefault f) (fnout f)) ->
    run es idvars ord fs no_appr no_pre T tw incl ids = Ok m ->
    m_cols m = flat_map (fnames rels) fs /\
    (forall i, In i (map fst (m_rows m)) <-> In i ids) /\
    (forall i vals, In (i, vals) (m_rows m) -> vals = flat_map (fun f => value_of es T tw incl f i) fs).
  Proof.
    intros Hv Hdef Hrun.
    destruct (matrix_given (fun _ => None) no_appr no_pre eid ids m) as (H1 & H2 & H3); [discriminate | discriminate | reflexivity | reflexivity | apply pre_ok_nothing | exact Hv | | exact Hrun|].
    - intros f Hf. destruct (Hdef f Hf) as [H|[H|(i & r & H1 & H2 & H3 & H4)]]; [left; exact H | right; left; exact H|]. right. right. exists i, r. rewrite sem_with_none. auto.
    - split; [exact H1|]. split; [exact H2|]. intros i vals Hin. rewrite (H3 i vals Hin). apply flat_map_ext. intros f. unfold value_with, value_of.
      destruct (row_with _ _ _); [apply sem_with_none | reflexivity].
  Qed.
End Matrix.

(** ** the demonstration request is valid *)
Lemma demo_needed f : needed demo_fs f -> In f demo_reach.
Proof.
  intros (f0 & Hf0 & Hr). assert (In f0 demo_reach) as H0 by (cbn in *; tauto). clear Hf0.
  induction Hr as [f|f d g Hd Hr IH]; [exact H0|]. apply IH. cbn in H0. in_cases H0; cbn in Hd; cbn; in_cases Hd; tauto.
Qed.

Lemma abs_rowwise : rowwise 1 p_abs.
Proof.
  exists (fun _ vs => [VNum (Z.abs (num (hd VNull vs)))]). intros t cs n Hne Hlen. destruct cs as [|c cs]; [discriminate Hne|]. cbn [p_trans p_abs p_nout hd seq map nth].
  apply f_equal2; [|reflexivity]. rewrite <- (Hlen c (or_introl eq_refl)). clear. induction c as [|v c IH]; [reflexivity|]. cbn [map List.length seq nth]. f_equal.
  rewrite <- seq_shift, map_map. exact IH.
Qed.

Lemma demo_links r c : link_column demo_rels r c -> r_ce r = "event"%string /\ link_name demo_rels r c = "sess.cid"%string.
Proof.
  induction 1 as [r0 r Hr0 Hr E|r' r c Hr E H [IH1 IH2]].
  - cbn in Hr0, Hr. in_cases Hr0; in_cases Hr; cbn in E; try discriminate E. split; reflexivity.
  - rewrite IH1 in E. cbn in Hr. in_cases Hr; discriminate E.
Qed.

Lemma demo_request ord : (forall l, Permutation (ord l) l) -> valid_request (demo_es []) demo_idvars ord None demo_fs "cust"%string.
Proof.
  intros Hord. constructor.
  - apply demo_good; [intros r [] | cbn; nodup_tac].
  - intros e r He Hr. cbn in He. in_cases He; cbn in Hr; in_cases Hr; discriminate.
  - intros e He. cbn in He. in_cases He; cbn [e_id e_df e_index e_time cols demo_idvars String.eqb Ascii.eqb Bool.eqb].
    + split; [intros c Hc; cbn in *; tauto|]. split; [cbn; tauto|]. split; [discriminate|]. intros r Hr E. cbn in Hr. in_cases Hr; cbn in E; discriminate E.
    + split; [intros c Hc; cbn in *; tauto|]. split; [cbn; tauto|]. split; [intros ti [= <-]; cbn; tauto|]. intros r Hr E. cbn in Hr. in_cases Hr; cbn in E; try discriminate E; cbn; tauto.
    + split; [intros c Hc; cbn in *; tauto|]. split; [cbn; tauto|]. split; [intros ti [= <-]; cbn; tauto|]. intros r Hr E. cbn in Hr. in_cases Hr; cbn in E; try discriminate E; cbn; tauto.
  - exact I.
  - exact Hord.
  - intros f Hf. exact (demo_wt f Hf).
  - constructor.
    + exact (proj1 C14_nonvacuous).
    + intros f g i j n [Hf _] [Hg _] E Hi Hj. apply demo_needed in Hf, Hg. cbn in Hf, Hg.
      in_cases Hf; in_cases Hg; try discriminate E; vm_compute in Hi, Hj; destruct i as [|[|i]]; try discriminate Hi; destruct j as [|[|j]]; try discriminate Hj; injection Hi as <-; try discriminate Hj; split; reflexivity.
    + intros f e n [Hf _] He Hn Hc. apply demo_needed in Hf. cbn in Hf. in_cases Hf; try exact I; vm_compute in He; injection He as <-; vm_compute in Hn, Hc; in_cases Hn; exfalso; repeat (destruct Hc as [Hc|Hc]; [discriminate Hc|]); destruct Hc.
    + intros e v nm Hf. apply demo_needed in Hf. cbn in Hf. repeat (destruct Hf as [Hf|Hf]; [try discriminate Hf; injection Hf as <- <- <-; reflexivity|]). destruct Hf.
    + intros b n nm Hf. apply demo_needed in Hf. cbn in Hf. repeat (destruct Hf as [Hf|Hf]; [discriminate Hf|]). destruct Hf.
    + intros r c Hl. apply demo_links in Hl as [-> El]. change (es_rels (demo_es [])) with demo_rels. rewrite El. split.
      * intros e He Hc. vm_compute in He. injection He as <-. vm_compute in Hc. repeat (destruct Hc as [Hc|Hc]; [discriminate Hc|]); destruct Hc.
      * intros f [Hf _] E Hc. apply demo_needed in Hf. cbn in Hf. in_cases Hf; try discriminate E; vm_compute in Hc; repeat (destruct Hc as [Hc|Hc]; [discriminate Hc|]); destruct Hc.
  - constructor.
    + intros f g [Hf _] [Hg _] E Ec _. apply demo_needed in Hf, Hg. cbn in Hf, Hg. in_cases Hf; in_cases Hg; try discriminate E; try discriminate Ec; reflexivity.
    + intros f [Hf _]. apply demo_needed in Hf. cbn in Hf. in_cases Hf; exact I.
    + intros f g a b [Hf _] _ E. apply demo_needed in Hf. cbn in Hf. in_cases Hf; discriminate E.
    + intros f d n [Hf _] E. apply demo_needed in Hf. cbn in Hf. in_cases Hf; discriminate E.
    + intros p bs path u wh prev nm [Hf _] r Hr. apply demo_needed in Hf. cbn in Hf.
      repeat (destruct Hf as [Hf|Hf]; [try discriminate Hf; injection Hf as <- <- <- <- <- <- <-; cbn in Hr; in_cases Hr; reflexivity|]). destruct Hf.
    + intros p bs path u w prev nm [Hf _]. apply demo_needed in Hf. cbn in Hf. repeat (destruct Hf as [Hf|Hf]; [discriminate Hf|]). destruct Hf.
    + intros r b nm b' nm' n [Hf _] [Hg _] _ _. apply demo_needed in Hf, Hg. cbn in Hf, Hg.
      repeat (destruct Hf as [Hf|Hf]; [try discriminate Hf; clear -Hf Hg; repeat (destruct Hg as [Hg|Hg]; [try discriminate Hg; congruence|]); destruct Hg |]). destruct Hf.
    + intros f [Hf _]. apply demo_needed in Hf. cbn in Hf. in_cases Hf; try exact I; intros t cs _; reflexivity.
    + intros p bs nm [Hf _]. apply demo_needed in Hf. cbn in Hf.
      repeat (destruct Hf as [Hf|Hf]; [try discriminate Hf; injection Hf as <- <- <-; try discriminate; intros _; apply abs_rowwise|]). destruct Hf.
    + intros p bs g nm [Hf _]. apply demo_needed in Hf. cbn in Hf.
      repeat (destruct Hf as [Hf|Hf]; [try discriminate Hf; injection Hf as <- <- <- <-; discriminate|]). destruct Hf.
Qed.

(** customers 1, 2, 3 and the unknown 9 at time 7: the request succeeds and the values are those of the
    meaning; customer 3 has no events and 9 does not exist *)
Example C06_nonvacuous :
  valid_request (demo_es []) demo_idvars (fun l => l) None demo_fs "cust"%string /\
  (forall f, In f demo_fs -> single_column f \/ fdefault f = VNull \/
     exists i r, In i [VNum 2; VNum 1; VNum 9; VNum 3] /\ In r (rows_at (demo_es []) 7 None true "cust"%string) /\
       cell (index_of (demo_es []) "cust"%string) r = i /\ sem (demo_es []) 7 None true f r <> repeat (fdefault f) (fnout f)) /\
  run (demo_es []) demo_idvars (fun l => l) demo_fs no_appr no_pre 7 None true [VNum 2; VNum 1; VNum 9; VNum 3] =
    Ok (mkMatrix ["SUM(event.amt)"; "WSUM(event.CUM_SUM(amt), sess.dev)"; "ABSOLUTE(SUM(event.amt))"; "SUM(event.CUM_SUM(amt) by sid)"]%string
      [(VNum 2, [VNum 0; VNum 0; VNum 0; VNum 0]); (VNum 1, [VNum 24; VNum 24; VNum 24; VNum 31]);
       (VNum 9, [VNum 0; VNum 0; VNull; VNum 0]); (VNum 3, [VNum 0; VNum 0; VNum 0; VNum 0])]).
Proof.
  split; [apply demo_request; intros l; apply Permutation_refl|]. split.
  - intros f Hf. in_cases Hf; try (left; vm_compute; auto; fail).
    right; right. exists (VNum 1), (demo_cust 1 30). split; [right; left; reflexivity|]. split; [vm_compute; auto|]. split; [reflexivity|]. vm_compute. discriminate.
  - vm_compute. reflexivity.
Qed.

Print Assumptions C06_values_partial.
