(** C14: features are evaluated in dependency order, in homogeneous groups. *)
From Verif Require Import Base M_Schema M_Trie M_Feature M_FeatureSet S_Plan S_Calc S_Group L_Group X_Demo.
Local Open Scope string_scope.

(** For every set of planned features of an entity, in any iteration order ([names]; [feats] are the
    features of these names): grouping succeeds, the groups partition the features, a feature comes in a
    later group than the features of the same entity whose columns it reads, and the members of a group
    agree on class, path name, full-entity use, where clause, groupby and use_previous.
    Missing from the property: a slice of a feature of another entity ([C14_slice_order_refuted]) and
    windows of several units ([C14_windows_refuted]). *)
Theorem C14_groups_partial rels by_name names feats :
  mapM (fun n => match dget String.eqb n by_name with Some f => Ok f | None => Err KeyError end) names = Ok feats ->
  distinct_names rels feats ->
  exists groups,
    group_features rels by_name names = Ok groups /\
    Permutation (List.concat groups) feats /\
    (forall g, In g groups -> g <> []) /\
    (forall f d, In f feats -> In d feats -> reads f d -> In d (fdeps f) \/ fpath d = [] -> earlier groups d f) /\
    (forall g f f', In g groups -> In f g -> In f' g ->
       fclass f = fclass f' /\ fpath_name rels f = fpath_name rels f' /\ uses_full f = uses_full f' /\
       where_name rels f = where_name rels f' /\ groupby_name rels f = groupby_name rels f' /\
       (plain_window f -> plain_window f' -> same_window f f')).
Proof. exact (group_features_good rels by_name names feats). Qed.

(** the demonstration features meet the hypotheses and give three groups *)
Definition demo_reach : list feat := [f_sum; f_wsum; f_abs; f_sumby; f_amt; f_esid; f_cum; f_cumby; f_dev; FIdent "sess" "dev" None].
Example C14_nonvacuous :
  distinct_names demo_rels demo_fs /\
  exists g1 g2 g3,
    group_features demo_rels (features_by_name demo_rels demo_fs) (map (funique demo_rels) demo_fs) = Ok [g1; g2; g3].
Proof.
  split; [|do 3 eexists; vm_compute; reflexivity].
  assert (forall f, needed demo_fs f -> In f demo_reach) as H.
  { intros f (f0 & Hf0 & Hr). assert (In f0 demo_reach) as H0 by (cbn in *; tauto). clear Hf0.
    induction Hr as [f|f d g Hd Hr IH]; [exact H0|]. apply IH.
    cbn in H0. in_cases H0; cbn in Hd; cbn; in_cases Hd; tauto. }
  intros f g Hf Hg. apply H in Hf, Hg. cbn in Hf, Hg.
  in_cases Hf; in_cases Hg; vm_compute; intros E; try reflexivity; discriminate E.
Qed.

(** A transform of one output of a multi-output aggregation is placed before the aggregation. *)
Definition p_two : prim := mkPrim "NMostCommon" 2 false false VNull false (fun _ => "")
  (fun bs rp _ wh pv => "TWO(" ++ rp ++ "." ++ String.concat ", " bs ++ ")") (fun _ _ => []) (fun _ cs => [hd VNull (hd [] cs); VNull]).
Definition f_two : feat := FAgg p_two [f_amt] demo_rels true None None None.
Definition f_abs0 : feat := FTrans p_abs [FSlice f_two 0 None] None.
Theorem C14_slice_order_refuted :
  exists rels by_name names f d groups,
    group_features rels by_name names = Ok groups /\ reads f d /\
    In f (List.concat groups) /\ In d (List.concat groups) /\ earlier groups f d /\ ~ earlier groups d f.
Proof.
  exists demo_rels, (features_by_name demo_rels [f_abs0; f_two]), (map (funique demo_rels) [f_abs0; f_two]), f_abs0, f_two, [[f_abs0]; [f_two]].
  split; [vm_compute; reflexivity|]. split; [split; [reflexivity|]; exists (FSlice f_two 0 None); split; [left; reflexivity | right; eauto]|].
  split; [left; reflexivity|]. split; [right; left; reflexivity|]. split.
  - exists [], [f_abs0], [], [f_two], []. split; [reflexivity|]. split; left; reflexivity.
  - intros (l1 & g1 & l2 & g2 & l3 & E & H1 & H2).
    destruct l1 as [|a l1]; [|destruct l1 as [|b l1]; [|destruct l1; [discriminate|]]].
    + injection E as <- E. destruct H1 as [H1|[]]. discriminate.
    + injection E as _ <- E. destruct l2; discriminate.
    + injection E as _ _ E. discriminate.
Qed.

(** A feature with a window of two units, and one without window, end in the same group: the window of
    the first of them is then used for both (C52). *)
Definition two_units : tdelta := mkTd [("hours", 1%Z); ("minutes", 30%Z)] (fun t => (t - 90)%Z) "1 Hours 30 Minutes".
Definition f_sum_recent : feat := FAgg p_sum [f_amt] demo_rels true None (Some two_units) None.
Theorem C14_windows_refuted :
  exists rels by_name names groups g f f',
    group_features rels by_name names = Ok groups /\ In g groups /\ In f g /\ In f' g /\ ~ same_window f f'.
Proof.
  exists demo_rels, (features_by_name demo_rels [f_sum; f_sum_recent]), (map (funique demo_rels) [f_sum; f_sum_recent]), [[f_sum; f_sum_recent]], [f_sum; f_sum_recent], f_sum, f_sum_recent.
  split; [vm_compute; reflexivity|]. split; [left; reflexivity|]. split; [left; reflexivity|]. split; [right; left; reflexivity|]. intros [].
Qed.

Print Assumptions C14_groups_partial.
Print Assumptions C14_slice_order_refuted.
Print Assumptions C14_windows_refuted.
