(** The calculation depends on the entity set only through its relationships, the declarations of its
    entities and the answers of [query_by_values]. *)
From Verif Require Import Base BaseFacts M_Schema S_Schema L_Schema M_Trie L_Trie M_Table M_Query S_Query L_Query S_View L_View
  M_Feature M_FeatureSet M_Calc S_Calc L_FeatureSet.

Section Ext.
  Variables (en1 en2 : list entity) (rels : list relationship)
            (idvars : string -> list string) (ord : list string -> list string)
            (T : Z) (tw : option window) (incl : bool).
  Let es1 := mkES en1 rels.
  Let es2 := mkES en2 rels.

  (** variables the calculation queries by: all rows, the index, or a link *)
  Definition qok (eid : string) (var : option string) : Prop :=
    var = None \/ (exists r, In r rels /\ r_pe r = eid /\ var = Some (r_pv r)) \/
    (exists r, In r rels /\ r_ce r = eid /\ var = Some (r_cv r)) \/
    (exists e, es_get es1 eid = Ok e /\ var = Some (e_index e)).

  Hypothesis Hix : forall eid, (do e <- es_get es1 eid; Ok (e_index e)) = (do e <- es_get es2 eid; Ok (e_index e)).
  Hypothesis Hti : forall eid, (do e <- es_get es1 eid; Ok (e_time e)) = (do e <- es_get es2 eid; Ok (e_time e)).
  Hypothesis Hq : forall eid vals var cs, qok eid var ->
    query_by_values es1 eid vals var cs (Some T) tw incl = query_by_values es2 eid vals var cs (Some T) tw incl.

  Lemma calc_agg_ext look idx g d : calc_agg es1 T look idx g d = calc_agg es2 T look idx g d.
  Proof.
    unfold calc_agg. destruct g as [|f g]; [reflexivity|]. destruct f as [| |p bs path u wh prev nm| | |]; try reflexivity.
    destruct bs as [|b bs]; [reflexivity|]. rewrite (Hti (fentity b)). reflexivity.
  Qed.

  Lemma calc_group_ext look idx g d : calc_group es1 T look idx g d = calc_group es2 T look idx g d.
  Proof.
    unfold calc_group. destruct g as [|[| | | | |] g]; try reflexivity. apply calc_agg_ext.
  Qed.

  Lemma foldM_ext' {A S} (f g : S -> A -> res S) l s : (forall s a, f s a = g s a) -> foldM f l s = foldM g l s.
  Proof.
    intros H. revert s. induction l as [|a l IH]; intros s; cbn [foldM]; [reflexivity|].
    rewrite H. destruct (g s a); cbn [bind]; auto.
  Qed.

  Lemma calc_features_ext by_name look1 look2 idx names d :
    (forall p, look1 p = look2 p) ->
    calc_features es1 by_name ord T look1 idx names d = calc_features es1 by_name ord T look2 idx names d.
  Proof.
    intros Hl. unfold calc_features. destruct (group_features _ _ _) as [gs|]; cbn [bind]; [|reflexivity].
    apply foldM_ext'. intros s g. unfold calc_group. destruct g as [|[| | | | |] g]; try reflexivity.
    - unfold calc_direct. rewrite Hl. reflexivity.
    - unfold calc_agg. rewrite Hl. reflexivity.
  Qed.

  Lemma calc_features_es by_name look idx names d :
    calc_features es1 by_name ord T look idx names d = calc_features es2 by_name ord T look idx names d.
  Proof.
    unfold calc_features. change (es_rels es1) with (es_rels es2).
    destruct (group_features _ _ _) as [gs|]; cbn [bind]; [|reflexivity]. apply foldM_ext'. intros; apply calc_group_ext.
  Qed.

  Lemma calc_node_ext by_name (Q : string -> fnode -> Prop) : forall ft eid pre fvar fvals parent,
    typed rels Q eid ft -> qok eid (Some fvar) ->
    calc_node es1 idvars by_name ord T tw incl ft eid pre fvar fvals parent =
    calc_node es2 idvars by_name ord T tw incl ft eid pre fvar fvals parent.
  Proof.
    fix IH 1. intros [[[full ff] nf] ch] eid pre fvar fvals parent Ht Hvar.
    apply typed_unfold in Ht as [_ Hch]. cbn [calc_node].
    pose proof (Hix eid) as Hi. destruct (es_get es1 eid) as [e1|x1] eqn:E1, (es_get es2 eid) as [e2|x2] eqn:E2; cbn [bind] in Hi |- *; try congruence.
    injection Hi as Hi.
    destruct (necessary_columns idvars by_name eid (ff ++ nf)) as [cs|]; cbn [bind]; [|reflexivity].
    rewrite (Hq eid (if full then None else Some fvals) (if full then None else Some fvar) (Some cs))
      by (destruct full; [left; reflexivity | exact Hvar]).
    destruct (query_by_values es2 _ _ _ _ _ _ _) as [d0|]; cbn [bind]; [|reflexivity].
    change (add_ancestor es1) with (add_ancestor es2).
    destruct (match parent with None => _ | Some _ => _ end) as [[d1 anc]|]; cbn [bind]; [|reflexivity].
    destruct (if full then isin_filter d1 fvar fvals else Ok d1) as [fd|]; cbn [bind]; [|reflexivity].
    match goal with
    | |- bind ?a _ = bind ?b _ => assert (a = b) as Hsub
    end.
    { induction ch as [|[ed s] ch IHch]; [reflexivity|].
      inversion Hch as [|x l (Hr1 & Hr2 & Hr3) Hch' Heq]; subst. cbn [fst snd] in *.
      rewrite (IHch Hch'). destruct ed as [fw r]. cbn [fst snd esrc edst] in *. unfold edst, esrc in *; cbn [fst snd] in *.
      destruct fw.
      - destruct (column fd (r_cv r)) as [vs|]; cbn [bind]; [|reflexivity].
        rewrite (IH s (r_pe r)); [reflexivity | exact Hr3 | right; left; exists r; auto].
      - destruct (column fd (r_pv r)) as [vs|]; cbn [bind]; [|reflexivity].
        rewrite (IH s (r_ce r)); [reflexivity | exact Hr3 | right; right; left; exists r; auto]. }
    rewrite Hsub. clear Hsub. destruct (_ ch) as [subs|]; cbn [bind]; [|reflexivity].
    rewrite Hi. destruct full.
    - rewrite calc_features_es. destruct (calc_features es2 _ _ _ _ _ _ _) as [d3|]; cbn [bind]; [|reflexivity].
      destruct (isin_filter d3 fvar fvals) as [d4|]; cbn [bind]; [|reflexivity].
      rewrite calc_features_es. reflexivity.
    - cbn [bind]. rewrite calc_features_es. reflexivity.
  Qed.

  Lemma run_ext fs appr pre ids :
    (forall f, In f fs -> wt rels f /\ ~ is_slice f /\ fentity f = match fs with f0 :: _ => fentity f0 | [] => ""%string end) ->
    run es1 idvars ord fs appr pre T tw incl ids = run es2 idvars ord fs appr pre T tw incl ids.
  Proof.
    intros Hfs. unfold run. destruct fs as [|f0 fs']; [reflexivity|]. destruct ids as [|i0 ids']; [reflexivity|].
    change (es_rels es1) with rels. change (es_rels es2) with rels.
    pose proof (Hix (fentity f0)) as Hi.
    destruct (es_get es1 (fentity f0)) as [e1|x1] eqn:E1, (es_get es2 (fentity f0)) as [e2|x2] eqn:E2; cbn [bind] in Hi |- *; try congruence.
    injection Hi as Hi. rewrite <- Hi.
    rewrite (calc_node_ext _ (node_names rels (fun f => wt rels f /\ ~ is_slice f))).
    - reflexivity.
    - apply build_typed.
      + intros f d [Hw Hs] Hd. destruct (wt_path rels f Hw Hs) as (b & _ & Hb). destruct (Hb d Hd) as [_ Hwd].
        destruct (wt_unslice rels d Hwd) as (H1 & H2 & _). auto.
      + auto.
      + intros f Hf. destruct (Hfs f Hf) as (H1 & H2 & H3). auto.
    - right; right; right. exists e1. auto.
  Qed.
End Ext.

Lemma run_same_known es1 es2 idvars ord fs appr pre T tw incl ids :
  good_es es1 -> good_es es2 -> win_time tw ->
  same_es_known T incl tw es1 es2 ->
  (forall f, In f fs -> wt (es_rels es1) f /\ ~ is_slice f /\ fentity f = match fs with f0 :: _ => fentity f0 | [] => ""%string end) ->
  run es1 idvars ord fs appr pre T tw incl ids = run es2 idvars ord fs appr pre T tw incl ids.
Proof.
  intros Hg1 Hg2 Hw [Hr Hsame] Hfs. destruct es1 as [en1 rels], es2 as [en2 rels2]. cbn [es_rels] in *. subst rels2.
  apply run_ext; [| | |exact Hfs].
  - intros eid. specialize (Hsame eid). destruct (es_get _ eid) as [e1|], (es_get _ eid) as [e2|]; cbn [bind]; try contradiction; [|congruence].
    destruct Hsame as [(_ & H & _) _]. congruence.
  - intros eid. specialize (Hsame eid). destruct (es_get _ eid) as [e1|], (es_get _ eid) as [e2|]; cbn [bind]; try contradiction; [|congruence].
    destruct Hsame as [(_ & _ & H & _) _]. congruence.
  - intros eid vals var cs Hvar. specialize (Hsame eid).
    destruct (es_get (mkES en1 rels) eid) as [e1|] eqn:E1, (es_get (mkES en2 rels) eid) as [e2|] eqn:E2; try contradiction.
    + destruct Hsame as [Hk Hl]. destruct (es_get_id _ _ _ E1) as [Hid1 Hin1]. destruct (es_get_id _ _ _ E2) as [Hid2 Hin2].
      destruct (proj1 Hg1 e1 Hin1) as (Hwf1 & Hind & Hnd & Hni & Hnt & Hlink & Hpar).
      destruct (proj1 Hg2 e2 Hin2) as (Hwf2 & _). cbn [es_rels] in *.
      assert (In (qvar e1 var) (cols (e_df e1)) /\ never_hidden e1 (qvar e1 var)) as [Hv1 Hv2].
      { pose proof (proj1 (proj2 Hwf1)) as Hixc.
        destruct Hvar as [->|[(r & Hr & He & ->)|[(r & Hr & He & ->)|(e & He & ->)]]]; cbn [qvar].
        - auto.
        - rewrite (Hpar r Hr) by congruence. auto.
        - destruct (Hlink r Hr) as [H1 H2]; [congruence|]. auto.
        - replace e with e1 by congruence. auto. }
      eapply query_same_known; eassumption.
    + unfold query_by_values. rewrite E1, E2. cbn [bind]. congruence.
Qed.
