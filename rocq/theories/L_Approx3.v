(** Lemmas for C12: the trie of frames calculated beforehand fits the plan. *)
From Verif Require Import Base BaseFacts M_Schema S_Schema M_Trie M_Table M_Query S_Query L_Query S_View L_View
  M_Feature M_FeatureSet M_Calc S_Calc S_Group S_Plan S_Sem S_Value S_Approx L_Trie L_Frame L_FeatureSet L_Plan L_Group P_Select L_Schema
  L_Value1 L_Value2 L_Value3 L_Value4 L_Value5 L_Value6 L_Value7 P_Serialize P_Value X_Demo M_CFM S_CFM L_CFM P_CFM P_EndToEnd
  M_Time L_Time M_Approx L_Gather L_Approx2.

Lemma has_or_default {A} (d : A) p : forall t : trie edge A, has edge_eqb p t \/ get_node edge_eqb d p t = trie_new d.
Proof.
  induction p as [|k p IH]; intros [v ch]; cbn [has get_node children]; [left; exact I|].
  destruct (dget edge_eqb k ch) as [s|]; [apply IH|]. right. apply get_node_new.
Qed.

Lemma gather_NoDup rels fs p : NoDup (tvalue (get_node edge_eqb [] p (gather_approximate rels fs))).
Proof.
  rewrite gather_fold. assert (forall l t, (forall p, NoDup (tvalue (get_node edge_eqb [] p t))) -> forall p, NoDup (tvalue (get_node edge_eqb [] p (fold_left (gather_step rels fs) l t)))) as H.
  { induction l as [|f l IH]; intros t Ht q; cbn [fold_left]; [apply Ht|]. apply IH. clear q IH. intros q. unfold gather_step. destruct (uses_full_or_dependent rels fs f); [apply Ht|].
    destruct f; try apply Ht. destruct (chain_end _) as [q0 b]. destruct (is_agg b); [|apply Ht].
    destruct (list_eq_dec (fun a b => match edge_eqb_spec a b with ReflectT _ e => left e | ReflectF _ e => right e end) q q0) as [->|Hne].
    - rewrite (get_node_update_same edge_eqb edge_eqb_spec). cbn [tvalue]. unfold set_add. destruct (mem_str _ _) eqn:E; [apply Ht|]. apply NoDup_app_one; [apply Ht|]. intros Hin. apply mem_str_In in Hin. congruence.
    - rewrite (tvalue_update_other edge_eqb edge_eqb_spec) by (try exact Hne; intros s; reflexivity). apply Ht. }
  apply H. intros q. change (@TNode edge (list string) [] []) with (@trie_new edge (list string) []). rewrite (get_node_new edge_eqb []). constructor.
Qed.

(** ** the fold over the paths *)
Section Fold.
  Variables (node : list edge -> list string -> res df).
  Definition put (t : trie edge (option df)) (pn : list edge * list string) : res (trie edge (option df)) :=
    match snd pn with [] => Ok t | _ => do d <- node (fst pn) (snd pn); Ok (set_value edge_eqb None (fst pn) (Some d) t) end.

  Lemma put_fold l : forall t0 pre, NoDup (map fst l) -> foldM put l t0 = Ok pre -> forall p,
    (forall ns, In (p, ns) l -> ns <> [] -> exists d, node p ns = Ok d /\ tvalue (get_node edge_eqb None p pre) = Some d) /\
    ((forall ns, In (p, ns) l -> ns = []) -> tvalue (get_node edge_eqb None p pre) = tvalue (get_node edge_eqb None p t0)).
  Proof.
    induction l as [|[q ms] l IH]; intros t0 pre Hn H p; cbn [foldM] in H; [injection H as <-; split; [intros ns [] | reflexivity]|].
    cbn [map fst] in Hn. inversion Hn as [|? ? Hq Hl]; subst. apply bind_Ok in H as (t1 & H1 & H). destruct (IH t1 pre Hl H p) as [I1 I2].
    assert (p <> q -> tvalue (get_node edge_eqb None p t1) = tvalue (get_node edge_eqb None p t0)) as Ho.
    { intros Hne. unfold put in H1. cbn [fst snd] in H1. destruct ms; [injection H1 as <-; reflexivity|]. apply bind_Ok in H1 as (d & _ & E). injection E as <-. apply (tvalue_set_other edge_eqb edge_eqb_spec). exact Hne. }
    split.
    - intros ns [E|Hin] Hne; [|apply I1; assumption]. injection E as -> ->. unfold put in H1. cbn [fst snd] in H1. destruct ns as [|n0 ns']; [congruence|].
      apply bind_Ok in H1 as (d & Hd & E). injection E as <-. exists d. split; [exact Hd|]. rewrite I2; [apply (tvalue_set_same edge_eqb edge_eqb_spec)|].
      intros ns Hin. exfalso. apply Hq. apply in_map_iff. exists (p, ns). auto.
    - intros Hall. rewrite I2 by (intros ns Hin; apply Hall; right; exact Hin).
      destruct (list_eq_dec (fun a b => match edge_eqb_spec a b with ReflectT _ e => left e | ReflectF _ e => right e end) p q) as [->|Hne]; [|apply Ho; exact Hne].
      unfold put in H1. cbn [fst snd] in H1. rewrite (Hall ms (or_introl eq_refl)) in H1. injection H1 as <-. reflexivity.
  Qed.
End Fold.

Section PreOk.
  Variables (es : entityset) (idvars : string -> list string) (ord : list string -> list string) (tw : option window) (incl : bool) (fs : list feat) (eid : string).
  Variables (sort_ids : list val -> list val) (now : Z).
  Hypothesis Hv : valid_request es idvars ord tw fs eid.
  Hypothesis Hsort : forall l, Permutation (sort_ids l) l.
  Notation rels := (es_rels es).
  Notation Hes := (vr_es _ _ _ _ _ _ Hv).
  Notation Hip := (vr_index _ _ _ _ _ _ Hv).
  Notation Hw := (vr_window _ _ _ _ _ _ Hv).
  Notation Hcn := (vr_names _ _ _ _ _ _ Hv).
  Notation appr := (gather_approximate rels fs).

  (** a visible row comes from a row of the table *)
  Lemma R_source T e x : In x (rows_at es T tw incl e) -> exists en x0, es_get es e = Ok en /\ In x0 (rows (e_df en)) /\ forall c, never_hidden en c -> cell c x = cell c x0.
  Proof.
    intros Hx. destruct (es_get es e) as [en|er] eqn:E; [|rewrite (R_none _ _ _ _ _ _ E) in Hx; destruct Hx].
    rewrite (R_eq es T tw incl Hes Hw e en E) in Hx. apply filter_In in Hx as [Hx _]. unfold view in Hx. apply in_map_iff in Hx as (x0 & <- & Hx0). apply filter_In in Hx0 as [Hx0 _].
    exists en, x0. split; [reflexivity|]. split; [exact Hx0|]. intros c Hc. apply cell_mask_never. exact Hc.
  Qed.

  Section Given.
    Variables (F T : Z) (given : feat -> option (row -> list val)) (bs : list cutoff) (ids : list val) (pre0 : trie edge (option df)) (td : timedelta) (g : list cutoff).
    Hypothesis Hgiven : forall p a, approximable fs p a -> given a = Some (fun r => value_of es F tw incl a (cell (index_of es (fentity a)) r)).
    Hypothesis Hdef : forall p a, approximable fs p a -> single_column a \/ fdefault a = VNull.
    Hypothesis Hfull : forall p a, approximable fs p a -> ~ full_needed rels (apx appr) fs p.
    Hypothesis Htime : forall c, In c bs -> c_time c = Some F.
    Hypothesis Hids : forall i, In i ids -> exists c, In c bs /\ c_id c = i.
    Hypothesis Hbs : bin_cutoffs td g = Ok bs.
    Hypothesis Hpre : approximate_features es idvars ord incl sort_ids now tw td fs appr g = Ok pre0.
    Notation R := (rows_at es T tw incl).
    Notation node := (approximate_node es idvars ord incl sort_ids now tw fs bs).

    Lemma apx_names p n : In n (tvalue (get_node edge_eqb [] p appr)) <-> exists a, approximable fs p a /\ n = funique rels a.
    Proof. apply (gather_In rels fs (cn_unique _ _ Hcn) p n). Qed.

    Lemma pre_value p d : tvalue (get_node edge_eqb None p pre0) = Some d ->
      tvalue (get_node edge_eqb [] p appr) <> [] /\ node p (tvalue (get_node edge_eqb [] p appr)) = Ok d.
    Proof.
      unfold approximate_features in Hpre. rewrite Hbs in Hpre. cbn [bind] in Hpre. pose proof (gather_twf rels fs) as Htw.
      destruct (put_fold node (iter appr) (TNode None []) pre0 (iter_NoDup appr Htw) Hpre p) as [H1 H2].
      intros Hd. assert (tvalue (get_node edge_eqb [] p appr) <> []) as Hne.
      { intros E. rewrite H2 in Hd.
        - change (@TNode edge (option df) None []) with (@trie_new edge (option df) None) in Hd. rewrite (get_node_new edge_eqb None) in Hd. discriminate Hd.
        - intros ns Hin. apply (iter_In edge_eqb edge_eqb_spec [] appr Htw) in Hin as [_ ->]. exact E. }
      split; [exact Hne|]. destruct (has_or_default [] p appr) as [Hh|Hh]; [|rewrite Hh in Hne; exfalso; apply Hne; reflexivity].
      destruct (H1 (tvalue (get_node edge_eqb [] p appr))) as (d' & Hd' & E); [apply (iter_In edge_eqb edge_eqb_spec [] appr Htw); auto | exact Hne | congruence].
    Qed.

    Definition covered (p : list edge) (e : string) (q : row -> bool) : Prop :=
      forallb fst p = true -> last_var p (index_of es eid) = index_of es e /\
      forall r, In r (filter q (R e)) -> exists i, In i ids /\ chain es p (index_of es eid) i (cell (index_of es e) r).

    Lemma covered_next p e q ed : covered p e q -> In (snd ed) rels -> esrc ed = e -> covered (p ++ [ed]) (edst ed) (next ed (filter q (R e))).
    Proof.
      intros Hc Hr He Hp. rewrite forallb_app in Hp. apply andb_true_iff in Hp as [Hp Hed]. destruct ed as [b r]. cbn [forallb fst] in Hed. rewrite andb_true_r in Hed. subst b.
      destruct (Hc Hp) as [Hl Hcov]. unfold esrc, edst in *. cbn [fst snd] in *. split.
      - rewrite last_var_snoc. apply (parent_index' es Hes). exact Hr.
      - intros m Hm. apply filter_In in Hm as [Hm Hn]. unfold next, inb in Hn. cbn [fst snd] in Hn. apply andb_true_iff in Hn as [Hn _]. apply mem_val_In in Hn.
        apply in_map_iff in Hn as (x & Ex & Hx). destruct (Hcov x Hx) as (i & Hi & Hch). exists i. split; [exact Hi|].
        apply filter_In in Hx as [Hx _]. destruct (R_source T e x Hx) as (en & x0 & Hen & Hx0 & Hcell). subst e.
        rewrite <- (parent_index' es Hes r Hr), <- Ex. destruct (child_link es Hes r en Hr Hen) as [_ Hnh]. rewrite (Hcell _ Hnh).
        eapply chain_snoc; [exact Hch | exact Hen | exact Hx0|]. rewrite Hl. symmetry. apply Hcell. rewrite (index_of_eq _ _ _ Hen). exact (proj1 (proj2 (proj2 (proj2 (ent_good es Hes _ _ Hen))))).
    Qed.

    Lemma pre_ok_below P : forall ft p e q pre, typed rels P e ft -> twf ft -> e = path_end eid p ->
      (forall p', V ft p' = V (build_feature_trie rels fs appr) (p ++ p')) ->
      (forall p', tvalue (get_node edge_eqb None p' pre) = tvalue (get_node edge_eqb None (p ++ p') pre0)) ->
      covered p e q -> pre_ok es T tw incl given fs e q ft pre.
    Proof.
      induction ft as [[[full ff] nf] ch IH] using trie_ind2. intros p e q pre Hty Htw -> HV Hp Hc. apply typed_unfold in Hty as [_ Hty]. apply twf_unfold in Htw as [Hnd Htw].
      apply pre_ok_unfold. split.
      - intros d Hd Hne. pose proof (Hp []) as Hp0. cbn [get_node] in Hp0. rewrite app_nil_r in Hp0. rewrite Hp0 in Hd. apply pre_value in Hd as [Hnn Hd].
        assert (exists a, approximable fs p a) as (a & Ha).
        { destruct (tvalue (get_node edge_eqb [] p appr)) as [|n ns] eqn:E; [congruence|]. destruct (proj1 (apx_names p n)) as (a & Ha & _); [rewrite E; left; reflexivity | eauto]. }
        assert (full = false) as ->.
        { destruct full; [|reflexivity]. exfalso. apply (Hfull p a Ha). pose proof (plan_exact rels fs appr p) as Hpl. pose proof (HV []) as HV0. rewrite app_nil_r in HV0. rewrite <- HV0 in Hpl. unfold V in Hpl. cbn [get_node tvalue] in Hpl. destruct Hpl as (_ & _ & Hpl & _). apply Hpl. reflexivity. }
        assert (forallb fst p = true) as Hfw by (destruct Ha as (_ & f & _ & Hl & _); eapply leads_forward; exact Hl).
        destruct (Hc Hfw) as [_ Hcov].
        eapply (approximate_node_frame es idvars ord tw incl fs eid sort_ids now Hv Hsort F given Hgiven Hdef p); [apply gather_NoDup | apply apx_names | exact Htime | | | exact Hne | exact Hd].
        + intros r Hr. destruct (Hcov r Hr) as (i & Hi & Hch). destruct (Hids i Hi) as (c & Hcin & Eid). exists c. split; [exact Hcin|]. rewrite Eid. exact Hch.
        + intros r Hr. apply filter_In in Hr as [Hr _]. apply (R_nonnull es T tw incl Hes Hip Hw _ _ Hr).
      - rewrite Forall_forall in *. intros [ed s] Hin. cbn [fst snd]. destruct (Hty _ Hin) as (Hr & Hs & Hty'). cbn [fst snd] in *.
        apply (IH _ Hin) with (p := p ++ [ed]); [exact Hty' | exact (Htw _ Hin) | symmetry; apply path_end_snoc | | | apply covered_next; assumption].
        + intros p'. cbn [snd]. rewrite <- (V_child (full, ff, nf) ch ed s p') by (apply (dget_NoDup_In edge_eqb edge_eqb_spec); assumption). rewrite HV, <- app_assoc. reflexivity.
        + intros p'. rewrite <- app_assoc. cbn [app]. rewrite <- Hp. rewrite <- get_node_app. reflexivity.
    Qed.

    Lemma approximated_pre_ok : pre_ok es T tw incl given fs eid (inb (index_of es eid) ids) (build_feature_trie rels fs appr) pre0.
    Proof.
      pose proof (request_wt es idvars ord tw fs eid Hv) as Hwt.
      eapply pre_ok_below with (p := []); [ | apply build_twf | reflexivity | reflexivity | reflexivity | ].
      - apply (build_typed rels (calculated fs)).
        + intros f d C Hd. eapply (calculated_dep es fs Hwt); eassumption.
        + intros f [N S]. split; [apply Hwt; exact N | exact S].
        + intros f Hf. split; [split; [apply needed_self; exact Hf | apply (vr_features _ _ _ _ _ _ Hv f Hf)] | apply (vr_features _ _ _ _ _ _ Hv f Hf)].
      - intros _. split; [reflexivity|]. intros r Hr. apply filter_In in Hr as [_ Hr]. unfold inb in Hr. apply andb_true_iff in Hr as [Hr _]. apply mem_val_In in Hr. exists (cell (index_of es eid) r). split; [exact Hr | reflexivity].
    Qed.
  End Given.
End PreOk.
