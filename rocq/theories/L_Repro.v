(** Lemmas for C74: two searches that iterate sets in different orders go in step. *)
From Coq Require Import Permutation Sorted.
From Verif Require Import Base BaseFacts M_Schema M_Feature M_Types M_Serialize M_Match M_DFS S_Schema S_Calc S_Match S_DFS S_DFSAll S_Repro L_Schema P_Depth P_Match L_DFS P_DFS L_DFSAll.
Local Open Scope string_scope.
Local Open Scope list_scope.

Lemma sorted_unique {A} (leb : A -> A -> bool) l1 : forall l2, StronglySorted (fun x y => leb x y = true) l1 -> StronglySorted (fun x y => leb x y = true) l2 -> Permutation l1 l2 ->
  (forall a b, In a l1 -> In b l1 -> leb a b = true -> leb b a = true -> a = b) -> l1 = l2.
Proof.
  induction l1 as [|a l1 IH]; intros l2 H1 H2 Hp Ha; [apply Permutation_nil in Hp; congruence|].
  destruct l2 as [|b l2]; [apply Permutation_sym, Permutation_nil in Hp; discriminate|].
  inversion H1 as [|? ? S1 F1]; subst. inversion H2 as [|? ? S2 F2]; subst. rewrite Forall_forall in F1, F2.
  assert (a = b) as <-.
  { pose proof (Permutation_in _ Hp (or_introl eq_refl)) as [<-|Hb]; [reflexivity|]. pose proof (Permutation_in _ (Permutation_sym Hp) (or_introl eq_refl)) as [<-|Hb']; [reflexivity|].
    apply Ha; [left; reflexivity | right; exact Hb' | apply F1; exact Hb' | apply F2; exact Hb]. }
  f_equal. apply IH; [exact S1 | exact S2 | apply Permutation_cons_inv in Hp; exact Hp | intros x y Hx Hy; apply Ha; right; assumption].
Qed.
Lemma isort_same {A} (leb : A -> A -> bool) l1 l2 : (forall x y z, leb x y = true -> leb y z = true -> leb x z = true) -> (forall x y, leb x y = true \/ leb y x = true) ->
  Permutation l1 l2 -> (forall a b, In a l1 -> In b l1 -> leb a b = true -> leb b a = true -> a = b) -> isort leb l1 = isort leb l2.
Proof.
  intros Ht Hto Hp Ha. apply (sorted_unique leb).
  - apply isort_sorted; assumption.
  - apply isort_sorted; assumption.
  - rewrite !isort_perm. exact Hp.
  - intros a b H1 H2. apply Ha; [apply (Permutation_in _ (isort_perm leb l1)); exact H1 | apply (Permutation_in _ (isort_perm leb l1)); exact H2].
Qed.
Lemma str_leb_antisym a b : str_leb a b = true -> str_leb b a = true -> a = b.
Proof. unfold str_leb. rewrite (String.compare_antisym a b). destruct (String.compare b a) eqn:E; cbn; try discriminate. intros _ _. symmetry. apply String.compare_eq_iff. exact E. Qed.
Lemma strs_leb_total a : forall b, strs_leb a b = true \/ strs_leb b a = true.
Proof.
  induction a as [|x a IH]; intros [|y b]; cbn [strs_leb]; auto. rewrite (String.compare_antisym x y). destruct (String.compare y x); cbn; auto.
Qed.
Lemma strs_leb_antisym a : forall b, strs_leb a b = true -> strs_leb b a = true -> a = b.
Proof.
  induction a as [|x a IH]; intros [|y b]; cbn [strs_leb]; try discriminate; [reflexivity|]. rewrite (String.compare_antisym y x). destruct (String.compare x y) eqn:E; cbn; try discriminate.
  intros H1 H2. apply String.compare_eq_iff in E as ->. f_equal. apply IH; assumption.
Qed.
Lemma strs_leb_trans a : forall b c, strs_leb a b = true -> strs_leb b c = true -> strs_leb a c = true.
Proof.
  induction a as [|x a IH]; intros [|y b] [|z c]; cbn [strs_leb]; try discriminate; auto.
  destruct (String.compare x y) eqn:E1; try discriminate; destruct (String.compare y z) eqn:E2; try discriminate; intros H1 H2.
  - apply str_compare_eq in E1 as ->. rewrite E2. eapply IH; eassumption.
  - apply str_compare_eq in E1 as ->. rewrite E2. reflexivity.
  - apply str_compare_eq in E2 as ->. rewrite E1. reflexivity.
  - rewrite (str_compare_trans_lt _ _ _ E1 E2). reflexivity.
Qed.
Lemma mapM_perm {A B} (f : A -> res B) l l' r : Permutation l l' -> mapM f l = Ok r -> exists r', mapM f l' = Ok r' /\ Permutation r r'.
Proof.
  intros Hp. revert r. induction Hp as [|x l l' Hp IH|x y l|l l' l'' H1 IH1 H2 IH2]; intros r Hr; cbn [mapM] in *.
  - injection Hr as <-. exists []. auto.
  - destruct (f x) as [b|]; cbn [bind] in *; [|discriminate]. destruct (mapM f l) as [bs|] eqn:E; cbn [bind] in *; [|discriminate]. injection Hr as <-. destruct (IH _ eq_refl) as (r' & -> & Hr'). exists (b :: r'). cbn [bind]. auto.
  - destruct (f y) as [b|]; cbn [bind] in *; [|discriminate]. destruct (f x) as [c|]; cbn [bind] in *; [|discriminate]. destruct (mapM f l) as [bs|]; cbn [bind] in *; [|discriminate]. injection Hr as <-. eexists. split; [reflexivity | apply perm_swap].
  - destruct (IH1 _ Hr) as (r1 & E1 & P1). destruct (IH2 _ E1) as (r2 & E2 & P2). exists r2. split; [exact E2 | etransitivity; eassumption].
Qed.
Lemma filter_perm {A} (p : A -> bool) l l' : Permutation l l' -> Permutation (filter p l) (filter p l').
Proof.
  induction 1 as [|x l l' Hp IH|x y l|l l' l'' H1 IH1 H2 IH2]; cbn [filter]; [constructor | destruct (p x); auto | destruct (p x), (p y); auto using perm_swap, Permutation_refl | etransitivity; eassumption].
Qed.
Lemma foldM_lock {X S} (I : S -> S -> Prop) (f1 f2 : S -> X -> res S) l :
  (forall a s1 s2 s1', In a l -> I s1 s2 -> f1 s1 a = Ok s1' -> exists s2', f2 s2 a = Ok s2' /\ I s1' s2') ->
  forall s1 s2 s1', I s1 s2 -> foldM f1 l s1 = Ok s1' -> exists s2', foldM f2 l s2 = Ok s2' /\ I s1' s2'.
Proof.
  induction l as [|a l IH]; intros H s1 s2 s1' Hi; cbn [foldM]; [intros [= <-]; eauto|].
  destruct (f1 s1 a) as [t1|] eqn:E; cbn [bind]; [|discriminate]. destruct (H a s1 s2 t1 (or_introl eq_refl) Hi E) as (t2 & -> & Ht). cbn [bind]. apply IH; [intros b u1 u2 u1' Hb; apply H; right; exact Hb | exact Ht].
Qed.
Lemma mapM_ext {A B} (f g : A -> res B) l : (forall a, In a l -> f a = g a) -> mapM f l = mapM g l.
Proof. induction l as [|a l IH]; intros H; cbn [mapM]; [reflexivity|]. rewrite (H a (or_introl eq_refl)), IH; [reflexivity | intros b Hb; apply H; right; exact Hb]. Qed.
Lemma same_members {A} (l1 l2 : list A) : NoDup l1 -> NoDup l2 -> (forall x, In x l1 <-> In x l2) -> Permutation l1 l2.
Proof. apply NoDup_Permutation. Qed.

Section Pick.
  Variable rels : list relationship.
  Variable p_ret : prim -> option vtyp.
  Variable vtypes : string -> string -> option vtyp.
  Variable lower : string -> string.
  Variables ord1 ord2 : list feat -> list feat.
  Hypothesis ord1_perm : forall l, Permutation (ord1 l) l.
  Hypothesis ord2_perm : forall l, Permutation (ord2 l) l.
  Notation fname := (fname rels).
  Variable e : string.

  Definition pool_ok (fs : list feat) : Prop := NoDup fs /\ (forall f, In f fs -> fentity f = e) /\ (forall f g, In f fs -> In g fs -> fname f = fname g -> f = g).
  Lemma pool_perm fs1 fs2 : Permutation fs1 fs2 -> pool_ok fs1 -> pool_ok fs2.
  Proof.
    intros Hp (H1 & H2 & H3). symmetry in Hp. split; [eapply Permutation_NoDup; [symmetry; exact Hp | exact H1]|]. split; [intros f Hf; apply H2; eapply Permutation_in; [exact Hp | exact Hf] | intros f g Hf Hg; apply H3; eapply Permutation_in; try exact Hp; assumption].
  Qed.
  Lemma pool_filter flt fs : pool_ok fs -> pool_ok (filter flt fs).
  Proof. intros (H1 & H2 & H3). split; [apply NoDup_filter; exact H1|]. split; [intros f Hf; apply filter_In in Hf as [Hf _]; auto | intros f g Hf Hg; apply filter_In in Hf as [Hf _]; apply filter_In in Hg as [Hg _]; auto]. Qed.
  Lemma choice_perm ts fs1 fs2 t : Permutation fs1 fs2 -> choice p_ret vtypes ts fs1 t -> choice p_ret vtypes ts fs2 t.
  Proof. intros Hp (H1 & H2 & H3). split; [intros x Hx; eapply Permutation_in; [exact Hp | apply H1; exact Hx] | auto]. Qed.

  Lemma match_same ts fs1 fs2 comm direct ms1 : pool_ok fs1 -> Permutation fs1 fs2 ->
    (comm = true -> forall f g, In f fs1 -> In g fs1 -> lower (fname f) = lower (fname g) -> fname f = fname g) ->
    match_inputs rels p_ret vtypes lower ord1 ts fs1 comm direct = Ok ms1 ->
    exists ms2, match_inputs rels p_ret vtypes lower ord2 ts fs2 comm direct = Ok ms2 /\ forall m, In m ms1 <-> In m ms2.
  Proof.
    intros Hok1 Hp Hlow H. pose proof (pool_perm _ _ Hp Hok1) as Hok2. destruct Hok1 as (N1 & E1 & F1), Hok2 as (N2 & E2 & F2).
    destruct (Nat.eq_dec (List.length ts) 0) as [E0|Hne0]; [destruct ts; [discriminate H | discriminate E0]|]. assert (ts <> []) as Hne by (destruct ts; [contradiction | discriminate]).
    destruct comm eqn:Ec; [destruct (Nat.le_gt_cases 2 (List.length ts)) as [H2|H2]|].
    - destruct (C30_commutative rels p_ret vtypes lower ord1 ord1_perm e fs1 ts direct H2 N1 E1 F1) as (m1 & M1 & _ & A1 & B1 & S1). rewrite H in M1. injection M1 as <-.
      destruct (C30_commutative rels p_ret vtypes lower ord2 ord2_perm e fs2 ts direct H2 N2 E2 F2) as (m2 & M2 & _ & A2 & B2 & S2). exists m2. split; [exact M2|].
      assert (forall a b, incl a fs1 -> Permutation a b -> StronglySorted (fun a b => str_leb (lower (fname a)) (lower (fname b)) = true) a -> StronglySorted (fun a b => str_leb (lower (fname a)) (lower (fname b)) = true) b -> a = b) as Huniq.
      { intros a b Ha Hab Sa Sb. apply (sorted_unique (fun a b => str_leb (lower (fname a)) (lower (fname b)))); [exact Sa | exact Sb | exact Hab|]. intros x y Hx Hy L1 L2. apply F1; [apply Ha; exact Hx | apply Ha; exact Hy|].
        apply (Hlow eq_refl); [apply Ha; exact Hx | apply Ha; exact Hy|]. apply str_leb_antisym; assumption. }
      intros m. split; intros Hm.
      + destruct (A1 m Hm) as (t & Pt & Ct & Dt). destruct (B2 t (choice_perm _ _ _ _ Hp Ct) Dt) as (m' & Hm' & Pm' & _).
        assert (m = m') as -> ; [|exact Hm']. apply Huniq; [|etransitivity; [exact Pt | symmetry; exact Pm'] | apply S1; exact Hm | apply S2; exact Hm']. intros x Hx. destruct Ct as [Ct _]. apply Ct. eapply Permutation_in; [exact Pt | exact Hx].
      + destruct (A2 m Hm) as (t & Pt & Ct & Dt). pose proof (choice_perm _ _ _ _ (Permutation_sym Hp) Ct) as Ct1. destruct (B1 t Ct1 Dt) as (m' & Hm' & Pm' & _).
        assert (m' = m) as <- ; [|exact Hm']. apply Huniq; [|etransitivity; [exact Pm' | symmetry; exact Pt] | apply S1; exact Hm' | apply S2; exact Hm]. intros x Hx. destruct Ct1 as [Ct1 _]. apply Ct1. eapply Permutation_in; [exact Pm' | exact Hx].
    - assert (exists t, ts = [t]) as (t & ->) by (destruct ts as [|t [|t' ts]]; [contradiction | eauto | cbn in H2; lia]). cbn [match_inputs] in *.
      destruct (C30_match_exact rels p_ret vtypes lower ord1 e fs1 [t] direct Hne N1 E1 F1) as (m1 & M1 & _ & A1). destruct (C30_match_exact rels p_ret vtypes lower ord2 e fs2 [t] direct Hne N2 E2 F2) as (m2 & M2 & _ & A2).
      cbn [match_inputs] in M1, M2. rewrite H in M1. injection M1 as <-. exists m2. split; [exact M2|]. intros m. rewrite A1, A2. split; intros [Hc Hd]; (split; [|exact Hd]); eapply choice_perm; try exact Hc; [exact Hp | symmetry; exact Hp].
    - destruct (C30_match_exact rels p_ret vtypes lower ord1 e fs1 ts direct Hne N1 E1 F1) as (m1 & M1 & _ & A1). destruct (C30_match_exact rels p_ret vtypes lower ord2 e fs2 ts direct Hne N2 E2 F2) as (m2 & M2 & _ & A2).
      rewrite H in M1. injection M1 as <-. exists m2. split; [exact M2|]. intros m. rewrite A1, A2. split; intros [Hc Hd]; (split; [|exact Hd]); eapply choice_perm; try exact Hc; [exact Hp | symmetry; exact Hp].
  Qed.

  Lemma kept_same fs0 ms1 ms2 os g comm kept : (forall f, In f fs0 -> fentity f = e) -> (forall f h, In f fs0 -> In h fs0 -> fname f = fname h -> f = h) ->
    (forall m, In m ms1 -> incl m fs0) -> (forall m, In m ms1 <-> In m ms2) ->
    filter_matches_by_options rels p_ret vtypes ms1 os g comm = Ok kept -> filter_matches_by_options rels p_ret vtypes ms2 os g comm = Ok kept.
  Proof.
    intros He Hn Hi Hm H. assert (forall ms os, filter_matches_by_options rels p_ret vtypes ms os g comm =
      match ms, os with _ :: _, [] => Err IndexError | _, _ => Ok (isort (match_leb rels) (dedup_by (tuple_eq rels) [] (flat_map (choose_match rels p_ret vtypes os g comm) ms))) end) as Eq by reflexivity.
    rewrite Eq in *. clear Eq.
    assert (isort (match_leb rels) (dedup_by (tuple_eq rels) [] (flat_map (choose_match rels p_ret vtypes os g comm) ms1)) = isort (match_leb rels) (dedup_by (tuple_eq rels) [] (flat_map (choose_match rels p_ret vtypes os g comm) ms2))) as Eq.
    { assert (forall ms, (forall m, In m ms -> incl m fs0) -> forall a, In a (flat_map (choose_match rels p_ret vtypes os g comm) ms) -> incl a fs0) as Hinc.
      { intros ms Hms a Ha. apply in_flat_map in Ha as (m & Hm' & Ha). specialize (Hms m Hm'). unfold choose_match in Ha. destruct (is_valid_match _ _ _ _ _ _); [destruct Ha as [<-|[]]; exact Hms|]. destruct comm; [|contradiction].
        destruct (find _ _) as [o|] eqn:Ef; [|contradiction]. destruct Ha as [<-|[]]. apply find_some in Ef as [Ef _]. apply permutations_In in Ef. intros x Hx. apply Hms. eapply Permutation_in; [exact Ef | exact Hx]. }
      assert (forall m, In m ms2 -> incl m fs0) as Hi2 by (intros m Hm'; apply Hi, Hm; exact Hm').
      destruct (dedup_tuples rels e fs0 He Hn _ (Hinc ms1 Hi)) as [D1 I1]. destruct (dedup_tuples rels e fs0 He Hn _ (Hinc ms2 Hi2)) as [D2 I2].
      apply isort_same.
      - unfold match_leb. intros x y z. apply strs_leb_trans.
      - intros x y. apply strs_leb_total.
      - apply same_members; [exact D1 | exact D2|]. intros x. rewrite I1, I2, !in_flat_map. split; intros (m & Hm' & Hx); exists m; (split; [apply Hm; exact Hm' | exact Hx]).
      - intros a b Ha Hb L1 L2. pose proof (strs_leb_antisym _ _ L1 L2) as Eu. apply I1 in Ha, Hb. apply (Hinc ms1 Hi) in Ha, Hb. clear - Eu Ha Hb He Hn. revert b Hb Eu. induction a as [|x a IH]; intros [|y b] Hb Eu; try discriminate; [reflexivity|]. cbn [map] in Eu. injection Eu as Ex Ea.
        f_equal; [apply (unique_pool rels e fs0 He Hn); [apply Ha; left; reflexivity | apply Hb; left; reflexivity | exact Ex] | apply IH; [intros z Hz; apply Ha; right; exact Hz | intros z Hz; apply Hb; right; exact Hz | exact Ea]]. }
    rewrite <- Eq. destruct ms1 as [|m1 ms1], ms2 as [|m2 ms2].
    - exact H.
    - exfalso. apply (Hm m2). left. reflexivity.
    - exfalso. apply (Hm m1). left. reflexivity.
    - destruct os; exact H.
  Qed.
End Pick.

Section Step.
  Variable variables : string -> list string.
  Variable vtypes : string -> string -> option vtyp.
  Variable interesting : string -> string -> list val.
  Variable rels : list relationship.
  Variable p_ret : prim -> option vtyp.
  Variable p_inputs : prim -> option (list (list vtyp)).
  Variable attr : prim -> pattr.
  Variable subc : nat -> nat -> bool.
  Variable eq_prim : val -> prim.
  Variable lower : string -> string.
  Variables ord1 ord2 : list feat -> list feat.
  Hypothesis ord1_perm : forall l, Permutation (ord1 l) l.
  Hypothesis ord2_perm : forall l, Permutation (ord2 l) l.
  Variable A : dfs_args.
  Variable G : gopts.
  Variable D : option Z.
  Hypothesis no_seeds : g_seeds A = [].
  Notation ftype := (ftype p_ret vtypes).
  Notation fname := (fname rels).
  Notation funique := (funique rels).
  Notation mk_agg := (mk_agg p_ret p_inputs vtypes rels (fun _ _ => Ok tt)).
  Notation mk_trans := (mk_trans p_ret p_inputs vtypes).
  Notation mk_group := (mk_group p_ret p_inputs vtypes).
  Notation handle := (handle_new_feature rels A).
  Notation add_all := (add_all rels A).
  Notation opts := (opts attr G).
  Notation by_type := (features_by_type vtypes rels p_ret A).
  Notation matching o := (get_matching_inputs vtypes rels p_ret attr lower o A G).
  Notation run o := (run_dfs variables vtypes interesting rels p_ret p_inputs attr subc eq_prim lower o A G).
  Notation transforms o := (build_transform_features vtypes rels p_ret p_inputs attr lower o A G).
  Notation forwards := (build_forward_features vtypes rels p_ret A).
  Notation one o := (agg_one vtypes rels p_ret p_inputs attr subc o A).
  Notation aggs o := (build_agg_features vtypes rels p_ret p_inputs attr subc lower o A G).
  Notation wheres_of := (build_where_clauses vtypes interesting rels p_ret p_inputs eq_prim).
  Notation gen := (gen variables vtypes interesting rels p_ret p_inputs attr subc eq_prim A G D).
  Notation inv_all := (inv_all variables vtypes interesting rels p_ret p_inputs attr subc eq_prim A G D).
  Notation inv := (inv variables vtypes interesting rels p_ret p_inputs attr subc eq_prim A G D).
  Notation open_entity := (open_entity A G).
  Notation mdle := (mdle A D).
  Notation made := (made variables vtypes interesting rels p_ret p_inputs eq_prim A).
  Notation vals d := (map (@snd string feat) d).

  Lemma where_made e w src : is_where vtypes interesting p_ret p_inputs eq_prim e w src -> gen src -> exists v x, In v (variables e) /\ In x (interesting e v) /\ w = FTrans (eq_prim x) [FIdent e v None] None.
  Proof.
    intros (v & nm & x & -> & Hx & Hw) Hg. apply mk_trans_eq in Hw as [_ ->]. inversion Hg as [f Hs|e' v' Ho Hlv Hv Hi Ht|b i Hb Hn Hi|p m path e' ce f Hp Ho Hc Hne Hce Hig Hm Hv Hk Hf|p m path e' ce w src f Hp Ho Hc Hne Hce Hig Hm Hv Hk Hw Hsrc Hl Hq Hf|p m e' f Hp Ho Hig Hm Hv Hu Hf|p m g e' f Hp Ho Hig Hm Hv Hu Hg' Hge Hgw Hgv Hf|r b f Hr Ho Hp Hb He Hw Hf]; subst.
    - rewrite no_seeds in Hs. destruct Hs.
    - exists v, x. auto.
    - apply mk_agg_eq in Hf as [_ [u Hf]]. discriminate.
    - apply mk_agg_eq in Hf as [_ [u Hf]]. discriminate.
    - apply mk_trans_eq in Hf as [_ Hf]. discriminate.
    - apply mk_group_eq in Hf. discriminate.
    - apply mk_direct_eq in Hf. discriminate.
  Qed.
  Lemma mk_agg_flag p m path wh f e ce : backward_chain rels e path ce -> path <> [] -> (forall b, In b m -> fentity b = ce) -> mk_agg p m path wh None None = Ok f -> m <> [] /\ exists u, has_unique_forward_path rels ce e = Ok u /\ f = FAgg p m path u wh None None.
  Proof.
    intros Hc Hne Hm. unfold M_Serialize.mk_agg, check_bases. destruct m as [|b m]; cbn [bind]; [discriminate|]. rewrite (Hm b (or_introl eq_refl)). intros H. split; [discriminate|]. revert H.
    destruct path as [|r0 path]; [contradiction|]. match goal with |- bind ?c _ = _ -> _ => destruct c; cbn [bind]; [|discriminate] end. destruct (negb _); [discriminate|]. assert (r_pe r0 = e) as -> by (inversion Hc; subst; reflexivity).
    destruct (has_unique_forward_path rels ce e) as [u|]; cbn [bind]; [|discriminate]. intros H. exists u. split; [reflexivity|]. revert H. destruct (match wh with Some w => _ | None => _ end); cbn [bind]; [|discriminate]. destruct (check_types _ _ _ _ _); [|discriminate]. intros [= <-]. reflexivity.
  Qed.
  Lemma gen_made : forall f, gen f -> made f.
  Proof.
    fix IH 2. intros f0 [f Hs|e v Ho Hlv Hv Hi Ht|b i Hb Hn Hi|p m path e ce f Hp Ho Hc Hne Hce Hig Hm Hv Hk Hf|p m path e ce w src f Hp Ho Hc Hne Hce Hig Hm Hv Hk Hw Hsrc Hl Hq Hf|p m e f Hp Ho Hig Hm Hv Hu Hf|p m g e f Hp Ho Hig Hm Hv Hu Hg Hge Hgw Hgv Hf|r b f Hr Ho Hp Hb He Hw Hf].
    - rewrite no_seeds in Hs. destruct Hs.
    - constructor. exact Hv.
    - constructor; [apply IH; exact Hb | exact Hn | exact Hi].
    - destruct (mk_agg_flag _ _ _ _ _ _ _ Hc Hne (fun b Hb => proj1 (proj2 (Hm b Hb))) Hf) as (Hm0 & u & Hu & ->). apply (made_aggregate _ _ _ _ _ _ _ _ p m path e ce u None); try assumption; [apply Hv | |discriminate].
      intros b Hb. destruct (Hm b Hb) as (H1 & H2 & _). split; [apply IH; exact H1 | exact H2].
    - destruct (mk_agg_flag _ _ _ _ _ _ _ Hc Hne (fun b Hb => proj1 (proj2 (Hm b Hb))) Hf) as (Hm0 & u & Hu & ->). apply (made_aggregate _ _ _ _ _ _ _ _ p m path e ce u (Some w)); try assumption.
      + apply Hv.
      + intros b Hb. destruct (Hm b Hb) as (H1 & H2 & _). split; [apply IH; exact H1 | exact H2].
      + intros w' [= <-]. eapply where_made; eassumption.
    - apply mk_trans_eq in Hf as [Hm0 ->]. apply (made_transform _ _ _ _ _ _ _ _ p m e Hp Hm0 (proj2 Hv)). intros b Hb. destruct (Hm b Hb) as (H1 & H2 & _). split; [apply IH; exact H1 | exact H2].
    - apply mk_group_eq in Hf as ->. apply (made_group _ _ _ _ _ _ _ _ p m g e Hp (proj2 Hv)); [|apply IH; exact Hg | exact Hge]. intros b Hb. destruct (Hm b Hb) as (H1 & H2 & _). split; [apply IH; exact H1 | exact H2].
    - apply mk_direct_eq in Hf as ->. apply made_parent; [exact Hr | apply IH; exact Hb | exact He|]. destruct Hw as [_ Hw]. intros (nm & [E | E]); rewrite E in Hw; cbn [feature_in_relationship_path existsb snd] in Hw; rewrite !String.eqb_refl in Hw; [discriminate Hw | rewrite orb_true_r in Hw; discriminate Hw].
  Qed.

  Hypothesis gen_names : forall f g, gen f -> gen g -> fentity f = fentity g -> fname f = fname g -> f = g.
  Hypothesis Hcase : (exists p, In p (g_trans A ++ g_groups A ++ g_aggs A) /\ a_comm (attr p) = true) -> forall f g, gen f -> gen g -> fentity f = fentity g -> lower (fname f) = lower (fname g) -> fname f = fname g.
  Lemma unique_name f g : fentity f = fentity g -> funique f = funique g -> fname f = fname g.
  Proof. unfold M_Feature.funique. intros -> H. apply app_head_inj in H. injection H as H. exact H. Qed.
  Lemma gen_unique f g : gen f -> gen g -> fentity f = fentity g -> funique f = funique g -> f = g.
  Proof. intros Hf Hg He Hu. apply gen_names; try assumption. apply unique_name; assumption. Qed.

  Definition is_ident (f : feat) : bool := match f with FIdent _ _ _ => true | _ => false end.
  Definition quiet : Prop := forall e v, interesting e v = [].
  Definition like (a1 a2 : afeats) : Prop := forall e, match dget String.eqb e a1, dget String.eqb e a2 with
    | None, None => True | Some d1, Some d2 => Permutation d1 d2 /\ filter is_ident (vals d1) = filter is_ident (vals d2) | _, _ => False end.
  Definition same (a1 a2 : afeats) : Prop := like a1 a2 /\ (quiet -> forall e, dget String.eqb e a1 = dget String.eqb e a2).

  Lemma expand_total d : exists d', expand rels d = Ok d'.
  Proof.
    unfold expand. generalize d at 2 as acc. induction d as [|[n f] d IH]; intros acc; cbn [foldM]; [eauto|]. cbn [fst snd]. destruct (Nat.ltb_spec 1 (fnout f)) as [Ho|Ho]; [|cbn [bind]; apply IH].
    assert (forall l, (forall i, In i l -> i < fnout f) -> exists sl, mapM (fun i => mk_slice f i None) l = Ok sl) as Hl.
    { induction l as [|i l IHl]; intros Hl; cbn [mapM]; [eauto|]. unfold mk_slice at 1. destruct (IHl (fun j Hj => Hl j (or_intror Hj))) as (sl & ->). pose proof (Hl i (or_introl eq_refl)) as Hi.
      apply Nat.ltb_lt in Ho, Hi. rewrite Ho, Hi. cbn [andb bind]. eauto. }
    destruct (Hl (seq 0 (fnout f))) as (sl & ->); [intros i Hi; apply in_seq in Hi; lia|]. cbn [bind]. apply IH.
  Qed.
  Lemma expand_from d d' : expand rels d = Ok d' -> forall kv, In kv d' -> In kv d \/ exists g i, In g (vals d) /\ 1 < fnout g /\ i < fnout g /\ kv = (funique (FSlice g i None), FSlice g i None).
  Proof.
    unfold expand. apply (foldM_inv (fun d' => forall kv, In kv d' -> In kv d \/ exists g i, In g (vals d) /\ 1 < fnout g /\ i < fnout g /\ kv = (funique (FSlice g i None), FSlice g i None))); [|auto].
    intros acc kv acc' Hkv Ha. destruct (Nat.ltb_spec 1 (fnout (snd kv))) as [Ho|Ho]; [|intros [= <-]; exact Ha]. destruct (mapM _ _) as [sl|] eqn:Es; cbn [bind]; [|discriminate]. intros [= <-].
    assert (forall s, In s sl -> exists g i, In g (vals d) /\ 1 < fnout g /\ i < fnout g /\ s = FSlice g i None) as Hsl.
    { intros s Hs. destruct (mapM_In _ _ _ _ Es Hs) as (i & Hi & Ei). apply in_seq in Hi. unfold mk_slice in Ei. destruct (_ && _)%bool eqn:Eb; [|discriminate]. injection Ei as <-. exists (snd kv), i. split; [apply in_map; exact Hkv|]. repeat split; [exact Ho | lia]. }
    assert (forall kv', In kv' (ddel (fst kv) acc) -> In kv' d \/ exists g i, In g (vals d) /\ 1 < fnout g /\ i < fnout g /\ kv' = (funique (FSlice g i None), FSlice g i None)) as Hdel by (intros x Hx; apply filter_In in Hx as [Hx _]; apply Ha; exact Hx).
    revert Hdel. generalize (ddel (fst kv) acc). clear - Hsl. induction sl as [|s sl IH]; intros x Hx; cbn [fold_left]; [exact Hx|]. apply IH; [intros s' Hs'; apply Hsl; right; exact Hs'|].
    intros [n y] Hy. destruct (In_dset _ _ _ _ _ Hy) as [[-> ->]|Hy']; [|apply Hx; exact Hy']. right. destruct (Hsl s (or_introl eq_refl)) as (g & i & H1 & H2 & H3 & ->). exists g, i. auto.
  Qed.
  Lemma expand_mem all e d d' : inv_all all -> dget String.eqb e all = Some d -> expand rels d = Ok d' -> forall kv, In kv d' <-> exists f x, In f (vals d) /\ In x (outputs f) /\ kv = (funique x, x).
  Proof.
    intros Hi Hd He. destruct (dict_ok _ _ _ _ _ _ _ _ _ _ _ _ all e d Hi Hd) as (H1 & H2 & H3).
    assert (forall g, In g (vals d) -> gen g /\ fentity g = e) as Hg by (intros g Hg; apply in_map_iff in Hg as ([n g'] & E & Hk); cbn [snd] in E; subst g'; destruct (H2 _ Hk) as (_ & K2 & K3); split; assumption).
    intros kv. split.
    - intros Hk. pose proof (expand_single rels d d' H1 He kv Hk) as Hs. destruct (expand_from d d' He kv Hk) as [Hin|(g & i & Gg & Ho & Hi' & ->)].
      + exists (snd kv), (snd kv). split; [apply in_map; exact Hin|]. split; [|rewrite <- (H1 kv Hin); destruct kv; reflexivity]. unfold outputs. destruct (Nat.ltb_spec 1 (fnout (snd kv))); [lia | left; reflexivity].
      + exists g, (FSlice g i None). split; [exact Gg|]. split; [|reflexivity]. unfold outputs. destruct (Nat.ltb_spec 1 (fnout g)); [|lia]. apply in_map_iff. exists i. split; [reflexivity | apply in_seq; lia].
    - intros (f & x & Hf & Hx & ->). assert (gen x /\ fentity x = e /\ fnout x <= 1) as (Gx & Ex & Ox).
      { destruct (Hg f Hf) as [Gf Ef]. unfold outputs in Hx. destruct (Nat.ltb_spec 1 (fnout f)) as [Ho|Ho]; [|destruct Hx as [<-|[]]; auto]. apply in_map_iff in Hx as (i & <- & Hi'). apply in_seq in Hi'. split; [constructor; [exact Gf | exact Ho | lia]|]. split; [exact Ef | cbn; lia]. }
      eapply (expand_keeps rels d d' f x H1 He Hf Hx).
      + intros g Gg Ho Eu. destruct (Hg g Gg) as [Gg' Eg]. pose proof (gen_unique g x Gg' Gx (eq_trans Eg (eq_sym Ex)) Eu) as E. subst g. lia.
      + intros g i Gg Ho Hi' Eu. destruct (Hg g Gg) as [Gg' Eg]. apply gen_unique; [constructor; assumption | exact Gx | cbn [fentity]; congruence | exact Eu].
  Qed.
  Lemma deep_total md f : exists b, deep_enough rels A md f = Ok b.
  Proof. unfold deep_enough. destruct md as [m|]; [|eauto]. rewrite (pool_depth_eq rels A no_seeds). destruct (depth_total rels f) as (n & ->). cbn [bind]. eauto. Qed.
  Lemma filterM_perm p l1 l2 r1 : (forall f, exists b, p f = Ok b) -> Permutation l1 l2 -> filterM p l1 = Ok r1 -> exists r2, filterM p l2 = Ok r2 /\ Permutation r1 r2.
  Proof.
    intros Ht Hp. assert (forall l, filterM p l = Ok (filter (fun f => match p f with Ok b => b | Err _ => false end) l)) as Eq.
    { induction l as [|x l IH]; cbn [filterM filter]; [reflexivity|]. destruct (Ht x) as (b & ->). cbn [bind]. rewrite IH. cbn [bind]. destruct b; reflexivity. }
    rewrite !Eq. intros [= <-]. eexists. split; [reflexivity | apply filter_perm; exact Hp].
  Qed.
  Lemma by_type_same a1 a2 e md ts fs1 : inv_all a1 -> inv_all a2 -> same a1 a2 -> by_type a1 e md ts = Ok fs1 -> exists fs2, by_type a2 e md ts = Ok fs2 /\ Permutation fs1 fs2 /\ (quiet -> fs1 = fs2).
  Proof.
    intros I1 I2 [Hl Hq] H. cut (exists fs2, by_type a2 e md ts = Ok fs2 /\ Permutation fs1 fs2).
    { intros (fs2 & E2 & P2). exists fs2. split; [exact E2|]. split; [exact P2|]. intros Q. unfold features_by_type in *. rewrite (Hq Q e) in H. congruence. }
    unfold features_by_type in *. destruct (match md with Some m => Z.ltb m 0 | None => false end); [injection H as <-; eauto|]. specialize (Hl e). destruct (dget String.eqb e a1) as [d1|] eqn:E1, (dget String.eqb e a2) as [d2|] eqn:E2; try contradiction; [|injection H as <-; eauto].
    destruct Hl as [Hl _]. destruct (expand_total d1) as (d1' & X1). destruct (expand_total d2) as (d2' & X2). rewrite X1 in H. rewrite X2. cbn [bind] in *.
    assert (Permutation d1' d2') as Hp.
    { apply same_members.
      - destruct (dict_ok _ _ _ _ _ _ _ _ _ _ _ _ a1 e d1 I1 E1) as (_ & K2 & K3). destruct (expand_inv _ _ _ _ _ _ _ _ _ _ _ _ _ _ _ K2 K3 X1) as [_ K]. eapply NoDup_map_inv. exact K.
      - destruct (dict_ok _ _ _ _ _ _ _ _ _ _ _ _ a2 e d2 I2 E2) as (_ & K2 & K3). destruct (expand_inv _ _ _ _ _ _ _ _ _ _ _ _ _ _ _ K2 K3 X2) as [_ K]. eapply NoDup_map_inv. exact K.
      - intros kv. rewrite (expand_mem a1 e d1 d1' I1 E1 X1), (expand_mem a2 e d2 d2' I2 E2 X2). split; intros (f & x & Hf & Hx); exists f, x; (split; [|exact Hx]); eapply Permutation_in; try exact Hf; apply Permutation_map; [exact Hl | symmetry; exact Hl]. }
    eapply filterM_perm; [intros f; apply deep_total | | exact H]. apply filter_perm. apply Permutation_map. exact Hp.
  Qed.
  Lemma matching_same a1 a2 e md ts p direct flt ms : inv_all a1 -> inv_all a2 -> same a1 a2 -> In p (g_trans A ++ g_groups A ++ g_aggs A) ->
    matching ord1 a1 e md ts p direct flt = Ok ms -> matching ord2 a2 e md ts p direct flt = Ok ms.
  Proof.
    intros I1 I2 Hs Hp H. unfold get_matching_inputs in *. destruct (by_type a1 e md (Some ts)) as [fs1|] eqn:B1; cbn [bind] in H; [|discriminate].
    destruct (by_type_same _ _ _ _ _ _ I1 I2 Hs B1) as (fs2 & B2 & P2 & _). rewrite B2. cbn [bind].
    assert (pool_ok rels e fs1) as Hok by (destruct (by_type_pool _ _ _ _ _ _ _ _ _ _ _ _ a1 e md (Some ts) fs1 I1 B1) as (N1 & N2 & N3); split; [exact N1|]; split; [intros f Hf; apply (N3 f Hf) | exact N2]).
    assert (forall f, In f fs1 -> gen f /\ fentity f = e) as Hgen by (intros f Hf; destruct (features_by_type_inv _ _ _ _ _ _ _ _ _ _ _ _ a1 e md (Some ts) fs1 I1 B1 f Hf) as (K1 & K2 & _); split; assumption).
    destruct (match_inputs rels p_ret vtypes lower ord1 ts (filter flt fs1) (a_comm (attr p)) direct) as [ms1|] eqn:M1; cbn [bind] in H; [|discriminate].
    destruct (match_same rels p_ret vtypes lower ord1 ord2 ord1_perm ord2_perm e ts (filter flt fs1) (filter flt fs2) (a_comm (attr p)) direct ms1 (pool_filter rels e flt _ Hok) (filter_perm flt _ _ P2)) as (ms2 & M2 & Hm); [|exact M1|].
    { intros Hc f g Hf Hg. apply filter_In in Hf as [Hf _]. apply filter_In in Hg as [Hg _]. destruct (Hgen f Hf) as [Gf Ef], (Hgen g Hg) as [Gg Eg]. apply Hcase; [exists p; auto | exact Gf | exact Gg | congruence]. }
    rewrite M2. cbn [bind]. destruct Hok as (K1 & K2 & K3).
    assert (forall m, In m ms1 -> incl m fs1) as Hinc by (intros m Hm1 x Hx; pose proof (inputs_incl _ _ _ _ _ ord1_perm _ _ _ _ _ _ M1 Hm1 x Hx) as Hx'; apply filter_In in Hx' as [Hx' _]; exact Hx').
    eapply (kept_same rels p_ret vtypes e fs1); [exact K2 | exact K3 | | | exact H].
    - intros m Hm1. apply Hinc. destruct direct; [apply filter_In in Hm1 as [Hm1 _]; exact Hm1 | exact Hm1].
    - intros m. destruct direct; [|apply Hm]. rewrite !filter_In, Hm. reflexivity.
  Qed.

  (** ** Adding features *)
  Lemma handle_eq f all : handle f all = match dget String.eqb (fentity f) all with
    | None => Err KeyError
    | Some d => match dget String.eqb (funique f) d with Some _ => Ok all | None => Ok (dset String.eqb (fentity f) (d ++ [(funique f, f)]) all) end end.
  Proof.
    unfold handle_new_feature, seed_names. rewrite no_seeds. cbn [map mem_str existsb]. destruct (dget String.eqb (fentity f) all) as [d|]; [|reflexivity].
    destruct (dget String.eqb (funique f) d) eqn:E; cbn [negb]; [reflexivity|]. rewrite (dset_absent _ _ _ E). reflexivity.
  Qed.
  Lemma key_perm (d1 d2 : list (string * feat)) k : Permutation d1 d2 -> dget String.eqb k d1 = None <-> dget String.eqb k d2 = None.
  Proof. intros Hp. rewrite !(dget_None _ String.eqb_spec). split; intros H Hin; apply H; eapply Permutation_in; try exact Hin; apply Permutation_map; [symmetry; exact Hp | exact Hp]. Qed.
  Lemma like_refl a : like a a.
  Proof. intros e. destruct (dget String.eqb e a); auto. Qed.
  Lemma like_trans a b c : like a b -> like b c -> like a c.
  Proof.
    intros H1 H2 e. specialize (H1 e). specialize (H2 e). destruct (dget String.eqb e a), (dget String.eqb e b), (dget String.eqb e c); try contradiction; [|exact I]. destruct H1 as [P1 E1], H2 as [P2 E2]. split; [etransitivity; eassumption | congruence].
  Qed.
  Lemma dget_put {V} (k e : string) (v : V) d : dget String.eqb e (dset String.eqb k v d) = if String.eqb e k then Some v else dget String.eqb e d.
  Proof. destruct (String.eqb_spec e k) as [->|H]; [apply (dget_dset_same _ String.eqb_spec) | apply (dget_dset_other _ String.eqb_spec); exact H]. Qed.
  Lemma idents_app d n f : is_ident f = false -> filter is_ident (vals (d ++ [(n, f)])) = filter is_ident (vals d).
  Proof. intros H. rewrite map_app, filter_app. cbn [map filter snd]. rewrite H. apply app_nil_r. Qed.
  Lemma handle_like f a1 a2 a1' : like a1 a2 -> handle f a1 = Ok a1' -> exists a2', handle f a2 = Ok a2' /\ like a1' a2'.
  Proof.
    intros Hl H. rewrite handle_eq in *. pose proof (Hl (fentity f)) as He. destruct (dget String.eqb (fentity f) a1) as [d1|] eqn:E1; [|discriminate]. destruct (dget String.eqb (fentity f) a2) as [d2|] eqn:E2; [|contradiction]. destruct He as [Hp Hi].
    destruct (dget String.eqb (funique f) d1) eqn:K1.
    - injection H as <-. destruct (dget String.eqb (funique f) d2) eqn:K2; [eauto|]. apply (key_perm d1 d2 _ Hp) in K2. congruence.
    - injection H as <-. rewrite (proj1 (key_perm d1 d2 _ Hp) K1). eexists. split; [reflexivity|]. intros e. rewrite !dget_put. destruct (String.eqb e (fentity f)); [|apply Hl]. split; [apply Permutation_app_tail; exact Hp | rewrite !map_app, !filter_app, Hi; reflexivity].
  Qed.
  Lemma add_like fs : forall a1 a2 a1', like a1 a2 -> add_all fs a1 = Ok a1' -> exists a2', add_all fs a2 = Ok a2' /\ like a1' a2'.
  Proof. intros a1 a2 a1'. unfold M_DFS.add_all. apply (foldM_lock like). intros f b1 b2 b1' _. apply handle_like. Qed.
  Lemma handle_exact f a1 a2 a1' : (forall e, dget String.eqb e a1 = dget String.eqb e a2) -> handle f a1 = Ok a1' -> exists a2', handle f a2 = Ok a2' /\ forall e, dget String.eqb e a1' = dget String.eqb e a2'.
  Proof.
    intros Hl H. rewrite handle_eq in *. rewrite <- (Hl (fentity f)). destruct (dget String.eqb (fentity f) a1) as [d1|]; [|discriminate]. destruct (dget String.eqb (funique f) d1); injection H as <-; (eexists; split; [reflexivity|]); [exact Hl|]. intros e. rewrite !dget_put, Hl. reflexivity.
  Qed.
  Lemma add_exact fs : forall a1 a2 a1', (forall e, dget String.eqb e a1 = dget String.eqb e a2) -> add_all fs a1 = Ok a1' -> exists a2', add_all fs a2 = Ok a2' /\ forall e, dget String.eqb e a1' = dget String.eqb e a2'.
  Proof. intros a1 a2 a1'. unfold M_DFS.add_all. apply (foldM_lock (fun a b => forall e, dget String.eqb e a = dget String.eqb e b)). intros f b1 b2 b1' _. apply handle_exact. Qed.
  Lemma add_swap f g a1 b1 c1 : is_ident f = false -> is_ident g = false -> (fentity f = fentity g -> funique f = funique g -> f = g) -> handle f a1 = Ok b1 -> handle g b1 = Ok c1 ->
    exists b2 c2, handle g a1 = Ok b2 /\ handle f b2 = Ok c2 /\ like c1 c2.
  Proof.
    intros If Ig Hfg H1 H2. rewrite handle_eq in H1. destruct (dget String.eqb (fentity f) a1) as [d|] eqn:Ef; [|discriminate].
    destruct (String.eqb_spec (fentity f) (fentity g)) as [Ee|Ee].
    - destruct (dget String.eqb (funique f) d) as [x|] eqn:Kf; injection H1 as <-; rewrite handle_eq in H2; [rewrite <- Ee, Ef in H2 | rewrite dget_put, <- Ee, String.eqb_refl in H2].
      + destruct (dget String.eqb (funique g) d) as [y|] eqn:Kg; injection H2 as <-.
        * exists a1, a1. rewrite !handle_eq, <- Ee, Ef, Kg, Kf. split; [reflexivity|]. split; [reflexivity | apply like_refl].
        * exists (dset String.eqb (fentity f) (d ++ [(funique g, g)]) a1), (dset String.eqb (fentity f) (d ++ [(funique g, g)]) a1). rewrite !handle_eq, <- Ee, Ef, Kg. split; [reflexivity|]. rewrite dget_put, String.eqb_refl.
          assert (dget String.eqb (funique f) (d ++ [(funique g, g)]) <> None) as Hk by (rewrite (dget_None _ String.eqb_spec); intros Hn; apply Hn; rewrite map_app; apply in_or_app; left; apply (in_map fst) with (x := (funique f, x)); apply (dget_In _ String.eqb_spec); exact Kf).
          destruct (dget String.eqb (funique f) (d ++ [(funique g, g)])); [|contradiction]. split; [reflexivity | apply like_refl].
      + destruct (String.eqb_spec (funique f) (funique g)) as [Eu|Eu].
        * pose proof (Hfg Ee Eu) as <-. assert (dget String.eqb (funique f) (d ++ [(funique f, f)]) <> None) as Hk by (rewrite (dget_None _ String.eqb_spec); intros Hn; apply Hn; rewrite map_app; apply in_or_app; right; left; reflexivity).
          destruct (dget String.eqb (funique f) (d ++ [(funique f, f)])) eqn:Kff; [|contradiction]. injection H2 as <-. exists (dset String.eqb (fentity f) (d ++ [(funique f, f)]) a1), (dset String.eqb (fentity f) (d ++ [(funique f, f)]) a1).
          rewrite !handle_eq, Ef, Kf. split; [reflexivity|]. rewrite dget_put, String.eqb_refl, Kff. split; [reflexivity | apply like_refl].
        * assert (forall h h', funique h <> funique h' -> dget String.eqb (funique h) (d ++ [(funique h', h')]) = None <-> dget String.eqb (funique h) d = None) as Happ.
          { intros h h' Hne. rewrite !(dget_None _ String.eqb_spec), map_app. cbn [map fst]. split; intros Hn Hin; apply Hn; [apply in_or_app; left; exact Hin | apply in_app_or in Hin as [Hin|[E|[]]]; [exact Hin | congruence]]. }
          destruct (dget String.eqb (funique g) (d ++ [(funique f, f)])) as [y|] eqn:Kg; injection H2 as <-.
          -- assert (dget String.eqb (funique g) d <> None) as Kg' by (intros E; apply (Happ g f (not_eq_sym Eu)) in E; congruence). destruct (dget String.eqb (funique g) d) as [z|] eqn:Kgz; [|contradiction].
             exists a1, (dset String.eqb (fentity f) (d ++ [(funique f, f)]) a1). rewrite !handle_eq, <- Ee, Ef, Kgz, Kf. split; [reflexivity|]. split; [reflexivity | apply like_refl].
          -- apply (Happ g f (not_eq_sym Eu)) in Kg. exists (dset String.eqb (fentity f) (d ++ [(funique g, g)]) a1). eexists. rewrite !handle_eq, <- Ee, Ef, Kg. split; [reflexivity|]. rewrite dget_put, String.eqb_refl, (proj2 (Happ f g Eu) Kf). split; [reflexivity|].
             intros e. rewrite !dget_put. destruct (String.eqb e (fentity f)); [|apply like_refl]. split; [rewrite <- !app_assoc; apply Permutation_app_head; apply perm_swap | rewrite !idents_app by assumption; reflexivity].
    - assert (exists d', dget String.eqb (fentity g) a1 = Some d') as (d' & Eg).
      { rewrite handle_eq in H2. destruct (dget String.eqb (funique f) d); injection H1 as <-; [destruct (dget String.eqb (fentity g) a1); [eauto | discriminate]|]. rewrite dget_put in H2. destruct (String.eqb_spec (fentity g) (fentity f)); [congruence|]. destruct (dget String.eqb (fentity g) a1); [eauto | discriminate]. }
      rewrite (handle_eq g a1), Eg. destruct (dget String.eqb (funique f) d) eqn:Kf; injection H1 as <-; rewrite handle_eq in H2; [rewrite Eg in H2 | rewrite dget_put in H2; destruct (String.eqb_spec (fentity g) (fentity f)); [congruence|]; rewrite Eg in H2];
        (destruct (dget String.eqb (funique g) d') eqn:Kg; injection H2 as <-; eexists; eexists; (split; [reflexivity|])); rewrite handle_eq; rewrite ?dget_put; (destruct (String.eqb_spec (fentity f) (fentity g)); [congruence|]); rewrite Ef, Kf; (split; [reflexivity|]);
        intros e; rewrite ?dget_put; destruct (String.eqb_spec e (fentity f)) as [Hef|Hef], (String.eqb_spec e (fentity g)) as [Heg|Heg]; try congruence; try apply like_refl; try (split; [apply Permutation_refl | reflexivity]).
  Qed.
  Lemma add_perm fs1 fs2 : Permutation fs1 fs2 -> forall a1 a2 a1', (forall f, In f fs1 -> is_ident f = false) -> (forall f g, In f fs1 -> In g fs1 -> fentity f = fentity g -> funique f = funique g -> f = g) -> like a1 a2 -> add_all fs1 a1 = Ok a1' ->
    exists a2', add_all fs2 a2 = Ok a2' /\ like a1' a2'.
  Proof.
    induction 1 as [|x l l' Hp IH|x y l|l l' l'' H1 IH1 H2 IH2]; intros a1 a2 a1' Hi Hj Hl H.
    - cbn in *. injection H as <-. eauto.
    - unfold M_DFS.add_all in *. cbn [foldM] in *. destruct (handle x a1) as [b1|] eqn:E1; cbn [bind] in H; [|discriminate]. destruct (handle_like x a1 a2 b1 Hl E1) as (b2 & -> & Hb). cbn [bind].
      apply (IH b1 b2); [intros f Hf; apply Hi; right; exact Hf | intros f g Hf Hg; apply Hj; right; assumption | exact Hb | exact H].
    - unfold M_DFS.add_all in *. cbn [foldM] in *. destruct (handle y a1) as [b1|] eqn:E1; cbn [bind] in H; [|discriminate]. destruct (handle x b1) as [c1|] eqn:E2; cbn [bind] in H; [|discriminate].
      destruct (add_swap y x a1 b1 c1) as (b2 & c2 & F1 & F2 & Hc); [apply Hi; left; reflexivity | apply Hi; right; left; reflexivity | apply Hj; [left; reflexivity | right; left; reflexivity] | exact E1 | exact E2|].
      destruct (handle_like x a1 a2 b2 Hl F1) as (b3 & -> & Hb). cbn [bind]. destruct (handle_like y b2 b3 c2 Hb F2) as (c3 & -> & Hc3). cbn [bind].
      apply (add_like l c1 c3); [eapply like_trans; eassumption | exact H].
    - destruct (IH1 a1 a1 a1' Hi Hj (like_refl a1) H) as (b' & E1 & L1). destruct (IH2 a1 a2 b') as (c' & E2 & L2); [| | exact Hl | exact E1 |].
      + intros f Hf. apply Hi. eapply Permutation_in; [symmetry; exact H1 | exact Hf].
      + intros f g Hf Hg. apply Hj; (eapply Permutation_in; [symmetry; exact H1|]); assumption.
      + exists c'. split; [exact E2 | eapply like_trans; eassumption].
  Qed.
  Lemma add_same fs a1 a2 a1' : same a1 a2 -> add_all fs a1 = Ok a1' -> exists a2', add_all fs a2 = Ok a2' /\ same a1' a2'.
  Proof.
    intros [Hl Hq] H. destruct (add_like fs a1 a2 a1' Hl H) as (a2' & E2 & L2). exists a2'. split; [exact E2|]. split; [exact L2|]. intros Q. destruct (add_exact fs a1 a2 a1' (Hq Q) H) as (b & Eb & Hb). congruence.
  Qed.
  Lemma add_same_perm fs1 fs2 a1 a2 a1' : Permutation fs1 fs2 -> (quiet -> fs1 = fs2) -> (forall f, In f fs1 -> is_ident f = false) -> (forall f g, In f fs1 -> In g fs1 -> fentity f = fentity g -> funique f = funique g -> f = g) -> same a1 a2 -> add_all fs1 a1 = Ok a1' ->
    exists a2', add_all fs2 a2 = Ok a2' /\ same a1' a2'.
  Proof.
    intros Hp Hfq Hf Hj [Hl Hq] H. destruct (add_perm fs1 fs2 Hp a1 a2 a1' Hf Hj Hl H) as (a2' & E2 & L2). exists a2'. split; [exact E2|]. split; [exact L2|]. intros Q. destruct (add_exact fs1 a1 a2 a1' (Hq Q) H) as (b & Eb & Hb). rewrite (Hfq Q) in Eb. congruence.
  Qed.

  (** ** Steps of the search *)
  Definition simul (s1 s2 : state) : Prop := inv s1 /\ inv s2 /\ same (s_all s1) (s_all s2) /\ s_wheres s1 = s_wheres s2.
  Lemma trans_same a1 a2 e md direct p fs : In p (g_trans A) -> inv_all a1 -> inv_all a2 -> same a1 a2 ->
    trans_step vtypes rels p_ret p_inputs attr lower ord1 A G a1 e md direct p = Ok fs -> trans_step vtypes rels p_ret p_inputs attr lower ord2 A G a2 e md direct p = Ok fs.
  Proof.
    intros Hp I1 I2 Hs. unfold trans_step. destruct (ignore_entity_for_primitive _ _ _); [auto|]. destruct (dfs_types _ _) as [ts|]; cbn [bind]; [|discriminate].
    destruct (matching ord1 a1 e (lower_depth md) ts p direct (fun _ => true)) as [ms|] eqn:E; cbn [bind]; [|discriminate]. rewrite (matching_same a1 a2 _ _ _ _ _ _ ms I1 I2 Hs); [auto | apply in_or_app; left; exact Hp | exact E].
  Qed.
  Lemma group_same a1 a2 e md direct p fs : In p (g_groups A) -> inv_all a1 -> inv_all a2 -> same a1 a2 ->
    group_step vtypes rels p_ret p_inputs attr lower ord1 A G a1 e md direct p = Ok fs -> group_step vtypes rels p_ret p_inputs attr lower ord2 A G a2 e md direct p = Ok fs.
  Proof.
    intros Hp I1 I2 Hs. unfold group_step. destruct (ignore_entity_for_primitive _ _ _); [auto|]. destruct (dfs_types _ _) as [ts|]; cbn [bind]; [|discriminate].
    destruct (matching ord1 a1 e (lower_depth md) ts p false (fun _ => true)) as [ms|] eqn:E; cbn [bind]; [|discriminate]. rewrite (matching_same a1 a2 _ _ _ _ _ _ ms I1 I2 Hs); [|apply in_or_app; right; apply in_or_app; left; exact Hp | exact E]. cbn [bind].
    set (gts := if existsb _ _ then None else Some [YId]). destruct (by_type a1 e (lower_depth md) gts) as [gs1|] eqn:B1; cbn [bind]; [|discriminate]. destruct (by_type_same a1 a2 e (lower_depth md) gts gs1 I1 I2 Hs B1) as (gs2 & B2 & P2 & _). rewrite B2. cbn [bind].
    destruct (filter_matches_by_options rels p_ret vtypes (map (fun g => [g]) gs1) (opts p) true false) as [kept|] eqn:K; cbn [bind]; [|discriminate].
    pose proof (features_by_type_inv _ _ _ _ _ _ _ _ _ _ _ _ _ _ _ _ _ I1 B1) as Hgen.
    rewrite (kept_same rels p_ret vtypes e gs1 (map (fun g => [g]) gs1) (map (fun g => [g]) gs2) (opts p) true false kept); [auto | | | | | exact K].
    - intros f Hf. apply (Hgen f Hf).
    - intros f h Hf Hh En. destruct (Hgen f Hf) as (G1 & E1 & _), (Hgen h Hh) as (G2 & E2 & _). apply gen_names; congruence.
    - intros m Hm x Hx. apply in_map_iff in Hm as (g & <- & Hg). destruct Hx as [<-|[]]. exact Hg.
    - intros m. rewrite !in_map_iff. split; intros (g & Eg & Hg); exists g; (split; [exact Eg|]); eapply Permutation_in; try exact Hg; [exact P2 | symmetry; exact P2].
  Qed.
  Lemma mapM_same {X Y} (f g : X -> res Y) l r : (forall a y, In a l -> f a = Ok y -> g a = Ok y) -> mapM f l = Ok r -> mapM g l = Ok r.
  Proof.
    revert r. induction l as [|a l IH]; intros r H; cbn [mapM]; [auto|]. destruct (f a) as [y|] eqn:E; cbn [bind]; [|discriminate]. rewrite (H a y (or_introl eq_refl) E). cbn [bind].
    destruct (mapM f l) as [ys|] eqn:E2; cbn [bind]; [|discriminate]. rewrite (IH ys); [auto | intros b z Hb; apply H; right; exact Hb | reflexivity].
  Qed.
  Lemma transforms_lock e md direct s1 s2 s1' : mdle e md -> open_entity e -> simul s1 s2 -> transforms ord1 e md direct s1 = Ok s1' -> exists s2', transforms ord2 e md direct s2 = Ok s2' /\ simul s1' s2'.
  Proof.
    intros Hmd Ho (I1 & I2 & Hs & Hw) H. pose proof (transform_inv _ _ _ _ _ _ _ _ _ _ ord1 ord1_perm A G D e md direct s1 s1' I1 Hmd Ho H) as I1'. unfold build_transform_features in H.
    destruct (mapM (trans_step vtypes rels p_ret p_inputs attr lower ord1 A G (s_all s1) e md direct) (g_trans A)) as [t|] eqn:Et; cbn [bind] in H; [|discriminate].
    destruct (mapM (group_step vtypes rels p_ret p_inputs attr lower ord1 A G (s_all s1) e md direct) (g_groups A)) as [g|] eqn:Eg; cbn [bind] in H; [|discriminate].
    destruct (add_all (List.concat t ++ List.concat g) (s_all s1)) as [all|] eqn:Ea; cbn [bind] in H; [|discriminate]. injection H as <-.
    destruct (add_same _ _ _ _ Hs Ea) as (all2 & Ea2 & Hs').
    assert (transforms ord2 e md direct s2 = Ok (mkSt all2 (s_wheres s2))) as H2.
    { unfold build_transform_features. rewrite (mapM_same _ (trans_step vtypes rels p_ret p_inputs attr lower ord2 A G (s_all s2) e md direct) _ _ (fun p fs Hp => trans_same _ _ e md direct p fs Hp (proj1 I1) (proj1 I2) Hs) Et). cbn [bind].
      rewrite (mapM_same _ (group_step vtypes rels p_ret p_inputs attr lower ord2 A G (s_all s2) e md direct) _ _ (fun p fs Hp => group_same _ _ e md direct p fs Hp (proj1 I1) (proj1 I2) Hs) Eg). cbn [bind]. rewrite Ea2. reflexivity. }
    exists (mkSt all2 (s_wheres s2)). split; [exact H2|]. split; [exact I1'|]. split; [exact (transform_inv _ _ _ _ _ _ _ _ _ _ ord2 ord2_perm A G D e md direct s2 _ I2 Hmd Ho H2)|]. split; [exact Hs' | exact Hw].
  Qed.
  Lemma forwards_lock r md s1 s2 s1' : mdle (r_ce r) md -> In r rels -> open_entity (r_ce r) -> ~ In (r_pe r) (g_ign_e G) -> simul s1 s2 -> forwards [(true, r)] md s1 = Ok s1' -> exists s2', forwards [(true, r)] md s2 = Ok s2' /\ simul s1' s2'.
  Proof.
    intros Hmd Hr Ho Hp (I1 & I2 & Hs & Hw) H. pose proof (forward_inv _ _ _ _ _ _ _ _ _ A G D r md s1 s1' I1 Hmd Hr Ho Hp H) as I1'. unfold build_forward_features in H.
    destruct (by_type (s_all s1) (r_pe r) md None) as [fs1|] eqn:B1; cbn [bind] in H; [|discriminate]. destruct (by_type_same _ _ _ _ _ _ (proj1 I1) (proj1 I2) Hs B1) as (fs2 & B2 & P2 & Q2).
    destruct (mapM _ _) as [ds1|] eqn:M1 in H; cbn [bind] in H; [|discriminate]. destruct (add_all ds1 (s_all s1)) as [all|] eqn:Ea; cbn [bind] in H; [|discriminate]. injection H as <-.
    destruct (mapM_perm _ _ _ _ (filter_perm (fun f => negb (feature_in_relationship_path [(true, r)] f)) _ _ P2) M1) as (ds2 & M2 & P3).
    assert (forall f, In f ds1 -> gen f /\ is_ident f = false) as Hds.
    { intros f Hf. destruct (mapM_In _ _ _ _ M1 Hf) as (b & Hb & E). apply filter_In in Hb as [Hb Hlk]. apply negb_true_iff in Hlk. destruct (features_by_type_inv _ _ _ _ _ _ _ _ _ _ _ _ _ _ _ _ _ (proj1 I1) B1 b Hb) as (H1 & H2 & H3 & _).
      split; [eapply gen_direct; try eassumption; split; [eapply within_mono; [exact Hmd | exact H3] | exact Hlk] | apply mk_direct_eq in E as ->; reflexivity]. }
    destruct (add_same_perm ds1 ds2 (s_all s1) (s_all s2) all P3) as (all2 & Ea2 & Hs'); [intros Q; rewrite (Q2 Q) in M1; congruence | intros f Hf; apply (Hds f Hf) | intros f g Hf Hg; apply gen_unique; apply Hds; assumption | exact Hs | exact Ea|].
    assert (forwards [(true, r)] md s2 = Ok (mkSt all2 (s_wheres s2))) as H2 by (unfold build_forward_features; rewrite B2; cbn [bind]; rewrite M2; cbn [bind]; rewrite Ea2; reflexivity).
    exists (mkSt all2 (s_wheres s2)). split; [exact H2|]. split; [exact I1'|]. split; [exact (forward_inv _ _ _ _ _ _ _ _ _ A G D r md s2 _ I2 Hmd Hr Ho Hp H2)|]. split; [exact Hs' | exact Hw].
  Qed.

  Definition ready (p : prim) (e : string) (path : list relationship) (ce : string) (m : list feat) : Prop :=
    (is_valid_match rels p_ret vtypes (opts p) false m = true /\ takes vtypes p_ret p_inputs p m) /\
    forall b, In b m -> gen b /\ fentity b = ce /\ within rels A (lim A D e) 1 b /\ direct_of_entity b e = false /\ feature_in_relationship_path (map (fun r => (false, r)) path) b = false.
  Lemma quiet_wheres ws ce l : quiet -> inv_wheres variables vtypes interesting rels p_ret p_inputs attr subc eq_prim A G D ws -> dget String.eqb ce ws = Some l -> l = [].
  Proof. intros Q H E. destruct l as [|w l]; [reflexivity|]. destruct (H ce (w :: l) w E (or_introl eq_refl)) as (src & (v & nm & x & _ & Hx & _) & _). rewrite (Q ce v) in Hx. contradiction. Qed.
  Lemma one_lock p e path ce m s1 s2 s1' : In p (g_aggs A) -> open_entity e -> backward_chain rels e path ce -> path <> [] -> ~ In ce (g_ign_e G) -> ignore_entity_for_primitive (opts p) ce false = false -> ready p e path ce m ->
    simul s1 s2 -> one ord1 p path ce s1 m = Ok s1' -> exists s2', one ord2 p path ce s2 m = Ok s2' /\ simul s1' s2'.
  Proof.
    intros Hp Ho Hc Hne Hce Eig [Hv Hb] (I1 & I2 & Hs & Hw) E. unfold agg_one in *.
    destruct (check_stacking _ _ _ _) as [ok|] eqn:Ek; cbn [bind] in *; [|discriminate]. destruct ok; cbn [negb] in *; [|injection E as <-; exists s2; split; [reflexivity | split; [exact I1|]; split; [exact I2|]; split; assumption]].
    destruct (mk_agg p m path None None None) as [f|] eqn:Ef; cbn [bind] in *; [|discriminate]. destruct (handle f (s_all s1)) as [b1|] eqn:Ea; cbn [bind] in E; [|discriminate].
    assert (stored variables vtypes interesting rels p_ret p_inputs attr subc eq_prim A G D f) as Hf by (eapply stored_agg; [|exact Ef]; eapply gen_agg; eassumption).
    assert (exists b2, handle f (s_all s2) = Ok b2 /\ same b1 b2) as (b2 & Ea2 & Hs2).
    { destruct (add_same [f] (s_all s1) (s_all s2) b1 Hs) as (b2 & E2 & H2); [unfold M_DFS.add_all; cbn [foldM]; rewrite Ea; reflexivity|]. exists b2. split; [|exact H2]. unfold M_DFS.add_all in E2. cbn [foldM] in E2. destruct (handle f (s_all s2)); [exact E2 | discriminate]. }
    rewrite Ea2. cbn [bind]. assert (inv_all b1) as J1 by (eapply handle_inv; [apply (proj1 I1) | exact Hf | exact Ea]). assert (inv_all b2) as J2 by (eapply handle_inv; [apply (proj1 I2) | exact Hf | exact Ea2]).
    destruct (Nat.leb_spec (g_limit A) (count_wheres rels m)) as [Hl|Hl]; [injection E as <-; eexists; split; [reflexivity|]; split; [split; [exact J1 | apply I1]|]; split; [split; [exact J2 | apply I2]|]; split; assumption|].
    destruct (existsb _ (g_wheres A)) eqn:Eq; cbn [negb] in *; [|injection E as <-; eexists; split; [reflexivity|]; split; [split; [exact J1 | apply I1]|]; split; [split; [exact J2 | apply I2]|]; split; assumption].
    rewrite <- Hw. set (W := match dget String.eqb ce (s_wheres s1) with Some l => l | None => [] end) in *.
    assert (forall w, In w W -> exists src, is_where vtypes interesting p_ret p_inputs eq_prim ce w src /\ gen src) as HW.
    { intros w Hin. unfold W in Hin. destruct (dget String.eqb ce (s_wheres s1)) as [l|] eqn:El; [|contradiction]. exact (proj2 I1 _ _ _ El Hin). }
    destruct (mapM _ _) as [fs1|] eqn:M1 in E; cbn [bind] in E; [|discriminate]. destruct (add_all fs1 b1) as [c1|] eqn:Ec; cbn [bind] in E; [|discriminate]. injection E as <-.
    assert (Permutation (ord1 W) (ord2 W)) as PW by (etransitivity; [apply ord1_perm | symmetry; apply ord2_perm]).
    destruct (mapM_perm _ _ _ _ (filter_perm (fun w => negb (existsb (fun b => mem_str (funique b) (map funique m)) (fbases w))) _ _ PW) M1) as (fs2 & M2 & P2). rewrite M2. cbn [bind].
    assert (forall x, In x fs1 -> stored variables vtypes interesting rels p_ret p_inputs attr subc eq_prim A G D x) as Hfs.
    { intros x Hx. destruct (mapM_In _ _ _ _ M1 Hx) as (w & Hwf & Ex). apply filter_In in Hwf as [Hwf _]. apply (Permutation_in _ (ord1_perm _)) in Hwf. destruct (HW w Hwf) as (src & Hsrc & Hg).
      eapply stored_agg; [|exact Ex]. eapply gen_agg_where; try eassumption. apply existsb_exists in Eq as (q & Hq & Eq). exists q. auto. }
    destruct (add_same_perm fs1 fs2 b1 b2 c1 P2) as (c2 & Ec2 & Hs').
    - intros Q. assert (W = []) as EW by (unfold W; destruct (dget String.eqb ce (s_wheres s1)) as [l|] eqn:El; [exact (quiet_wheres _ _ _ Q (proj2 I1) El) | reflexivity]). rewrite EW in M1, M2.
      assert (ord1 [] = []) as O1 by (apply Permutation_nil; symmetry; apply ord1_perm). assert (ord2 [] = []) as O2 by (apply Permutation_nil; symmetry; apply ord2_perm). rewrite O1 in M1. rewrite O2 in M2. congruence.
    - intros x Hx. destruct (mapM_In _ _ _ _ M1 Hx) as (w & _ & Ex). destruct (mk_agg_flag _ _ _ _ _ e ce Hc Hne (fun b Hbm => proj1 (proj2 (Hb b Hbm))) Ex) as (_ & u & _ & ->). reflexivity.
    - intros x y Hx Hy. apply gen_unique; apply Hfs; assumption.
    - exact Hs2.
    - exact Ec.
    - rewrite Ec2. cbn [bind]. eexists. split; [reflexivity|]. split; [split; [eapply add_all_inv; [exact J1 | exact Hfs | exact Ec] | apply I1]|]. split; [split; [eapply add_all_inv; [exact J2 | | exact Ec2] | rewrite Hw; apply I2]|]; [|split; [exact Hs' | reflexivity]].
      intros x Hx. apply Hfs. eapply Permutation_in; [symmetry; exact P2 | exact Hx].
  Qed.
  Lemma aggs_lock e ce path md s1 s2 s1' : mdle e md -> open_entity e -> backward_chain rels e path ce -> path <> [] -> ~ In ce (g_ign_e G) -> simul s1 s2 ->
    aggs ord1 e ce (map (fun r => (false, r)) path) md s1 = Ok s1' -> exists s2', aggs ord2 e ce (map (fun r => (false, r)) path) md s2 = Ok s2' /\ simul s1' s2'.
  Proof.
    intros Hmd Ho Hc Hne Hce Hsim. unfold build_agg_features. apply (foldM_lock simul); [|exact Hsim]. clear s1 s2 s1' Hsim. intros p s1 s2 s1' Hp Hsim E. destruct (ignore_entity_for_primitive _ _ _) eqn:Eig; [injection E as <-; eauto|].
    destruct (dfs_types _ _) as [ts|] eqn:Edt; cbn [bind] in *; [|discriminate]. set (flt := fun f : feat => (negb _ && negb _)%bool) in *.
    destruct (matching ord1 (s_all s1) ce (lower_depth md) ts p false flt) as [ms|] eqn:Em; cbn [bind] in E; [|discriminate]. rewrite (matching_same _ (s_all s2) _ _ _ _ _ _ ms (proj1 (proj1 Hsim)) (proj1 (proj1 (proj2 Hsim))) (proj1 (proj2 (proj2 Hsim)))); [|apply in_or_app; right; apply in_or_app; right; exact Hp | exact Em]. cbn [bind].
    destruct (filter_matches_by_options _ _ _ _ _ _ _) as [ms'|] eqn:Ef; cbn [bind] in *; [|discriminate].
    assert (map snd (map (fun r : relationship => (false, r)) path) = path) as Epath by (rewrite map_map; apply map_id). rewrite Epath in *.
    assert (forall m, In m ms' -> ready p e path ce m) as Hms.
    { intros m Hm. destruct (filter_matches_In _ _ _ _ _ _ _ _ _ Ef Hm) as [Hv (m1 & Hm1 & Hi1)].
      destruct (matching_inv variables vtypes interesting rels p_ret p_inputs attr subc eq_prim lower ord1 ord1_perm A G D _ _ _ _ _ _ _ _ m1 (proj1 (proj1 Hsim)) Em Hm1) as [[_ (t0 & Ht0 & Ht1)] Hb1].
      split; [split; [exact Hv | eapply first_types; [exact Edt | exists t0; split; [etransitivity; [exact Ht0 | symmetry; exact Hi1] | exact Ht1]]]|]. intros b Hb. destruct (Hb1 b (Permutation_in _ Hi1 Hb)) as (H1 & H2 & H3 & H4).
      split; [exact H1|]. split; [exact H2|]. split; [eapply (within_mono _ _ _ e md); [exact Hmd | apply (within_lower _ _ md 0); exact H3]|]. apply andb_true_iff in H4 as [H4 H5]. apply negb_true_iff in H4, H5. split; assumption. }
    revert E. apply (foldM_lock simul); [|exact Hsim]. clear Hsim. intros m t1 t2 t1' Hm Hsim. apply (one_lock p e path ce m t1 t2 t1'); auto.
  Qed.
  Lemma wheres_lock e s1 s2 s1' : simul s1 s2 -> wheres_of e s1 = Ok s1' -> exists s2', wheres_of e s2 = Ok s2' /\ simul s1' s2'.
  Proof.
    intros (I1 & I2 & Hs & Hw) H. pose proof (where_inv _ _ _ _ _ _ _ _ _ A G D e s1 s1' I1 H) as I1'.
    assert (wheres_of e s2 = (do s <- wheres_of e s1; Ok (mkSt (s_all s2) (s_wheres s)))) as E.
    { unfold build_where_clauses. rewrite <- Hw. assert (filter (fun f => match f with FIdent _ _ _ => true | _ => false end) (map snd (match dget String.eqb e (s_all s2) with Some d => d | None => [] end)) = filter (fun f => match f with FIdent _ _ _ => true | _ => false end) (map snd (match dget String.eqb e (s_all s1) with Some d => d | None => [] end))) as ->.
      { destruct Hs as [Hl _]. specialize (Hl e). destruct (dget String.eqb e (s_all s1)), (dget String.eqb e (s_all s2)); try contradiction; [symmetry; apply Hl | reflexivity]. }
      destruct (mapM _ _); reflexivity. }
    rewrite H in E. cbn [bind] in E. eexists. split; [exact E|]. split; [exact I1'|]. split; [exact (where_inv _ _ _ _ _ _ _ _ _ A G D e s2 _ I2 E)|]. cbn [s_all s_wheres]. split; [|reflexivity].
    unfold build_where_clauses in H. destruct (mapM _ _) in H; cbn [bind] in H; [|discriminate]. injection H as <-. exact Hs.
  Qed.
  Lemma visited_same s1 s2 e : same (s_all s1) (s_all s2) -> M_DFS.visited s1 e = M_DFS.visited s2 e.
  Proof. intros [Hl _]. specialize (Hl e). unfold M_DFS.visited. destruct (dget String.eqb e (s_all s1)), (dget String.eqb e (s_all s2)); try contradiction; reflexivity. Qed.
  Lemma open_same e a1 a2 : same a1 a2 -> same (dset String.eqb e [] a1) (dset String.eqb e [] a2).
  Proof. intros [Hl Hq]. split; [intros x; rewrite !dget_put; destruct (String.eqb x e); [split; [constructor | reflexivity] | apply Hl] | intros Q x; rewrite !dget_put; destruct (String.eqb x e); [reflexivity | apply Hq; exact Q]]. Qed.
  Lemma identity_same e a1 a2 a1' : same a1 a2 -> add_identity_features variables vtypes rels A G e a1 = Ok a1' -> exists a2', add_identity_features variables vtypes rels A G e a2 = Ok a2' /\ same a1' a2'.
  Proof.
    intros Hs. unfold add_identity_features. destruct (mapM _ _) as [ids|]; cbn [bind]; [|discriminate]. destruct (add_all ids a1) as [b1|] eqn:E1; cbn [bind]; [|discriminate]. destruct (add_same _ _ _ _ Hs E1) as (b2 & -> & Hb). cbn [bind]. apply add_same. exact Hb.
  Qed.
  Lemma run_lock tf fuel : forall e path md s1 s2 s1', mdle e md -> open_entity e -> simul s1 s2 -> run ord1 tf fuel e path md s1 = Ok s1' -> exists s2', run ord2 tf fuel e path md s2 = Ok s2' /\ simul s1' s2'.
  Proof.
    induction fuel as [|fuel IH]; intros e path md s1 s2 s1' Hmd Ho Hsim; cbn [run_dfs]; destruct (match md with Some m => Z.ltb m 0 | None => false end) eqn:Emd; try (intros [= <-]; exists s2; split; [reflexivity | exact Hsim]); try discriminate.
    destruct (add_identity_features variables vtypes rels A G e (dset String.eqb e [] (s_all s1))) as [all|] eqn:Ea; cbn [bind]; [|discriminate].
    destruct (identity_same e _ _ _ (open_same e _ _ (proj1 (proj2 (proj2 Hsim)))) Ea) as (all2 & Ea2 & Hs2). rewrite Ea2. cbn [bind].
    assert (forall s x, inv s -> add_identity_features variables vtypes rels A G e (dset String.eqb e [] (s_all s)) = Ok x -> inv_all x) as Hid.
    { intros s x Hi Hx. eapply identity_inv; [|exact Ho | | exact Hx]; [|intros l Hl; unfold L_DFS.mdle in Hmd; rewrite Hl in Hmd; destruct Hmd as (m & -> & Hm); apply Z.ltb_ge in Emd; lia]. intros e' d Hd. rewrite dget_put in Hd. destruct (String.eqb_spec e' e) as [->|]; [injection Hd as <-; split; [exact Ho|]; split; [constructor | intros n f []] | apply (proj1 Hi); exact Hd]. }
    assert (simul (mkSt all (s_wheres s1)) (mkSt all2 (s_wheres s2))) as H0.
    { destruct Hsim as (I1 & I2 & Hs & Hw). split; [split; [exact (Hid s1 _ I1 Ea) | apply I1]|]. split; [split; [exact (Hid s2 _ I2 Ea2) | apply I2]|]. split; assumption. }
    assert (forall l t1 t2 t1', simul t1 t2 -> foldM (fun s (ep : string * list edge) => if M_DFS.visited s (fst ep) || skip_entity A G path ep then Ok s else run ord1 tf fuel (fst ep) (path ++ snd ep) (lower_depth md) s) l t1 = Ok t1' ->
      exists t2', foldM (fun s (ep : string * list edge) => if M_DFS.visited s (fst ep) || skip_entity A G path ep then Ok s else run ord2 tf fuel (fst ep) (path ++ snd ep) (lower_depth md) s) l t2 = Ok t2' /\ simul t1' t2') as Hvisit.
    { intros l t1 t2 t1' Ht. apply (foldM_lock simul); [|exact Ht]. clear t1 t2 t1' Ht. intros ep t1 t2 t1' _ Ht E. rewrite <- (visited_same t1 t2 (fst ep) (proj1 (proj2 (proj2 Ht)))). destruct (M_DFS.visited t1 (fst ep) || skip_entity A G path ep)%bool eqn:Ev; [injection E as <-; eauto|]. apply orb_false_iff in Ev as [_ Ev].
      apply (IH _ _ _ t1 t2 t1'); [apply (mdle_lower _ _ e); exact Hmd | right; exact (skip_false A G path ep Ev) | exact Ht | exact E]. }
    clear Ea Ea2 Hs2 Hid Hsim. destruct (get_backward_entities 1 rels e false) as [back|]; cbn [bind]; [|discriminate].
    match goal with |- bind ?m _ = _ -> _ => destruct m as [t1|] eqn:E1 end; cbn [bind]; [|discriminate]. destruct (Hvisit _ _ _ _ H0 E1) as (t1' & F1 & S1). rewrite F1. cbn [bind]. clear E1 F1 H0.
    destruct (get_backward_entities tf rels e true) as [deep|] eqn:Edeep; cbn [bind]; [|discriminate].
    match goal with |- bind ?m _ = _ -> _ => destruct m as [t2|] eqn:E2 end; cbn [bind]; [|discriminate].
    assert (exists t2', foldM (fun s (ep : string * list edge) => if skip_entity A G path ep then Ok s else aggs ord2 e (fst ep) (snd ep) md s) deep t1' = Ok t2' /\ simul t2 t2') as (t2' & F2 & S2).
    { revert E2. apply (foldM_lock simul); [|exact S1]. intros [ce pth] u1 u2 u1' Hin Hu E. destruct (skip_entity A G path (ce, pth)) eqn:Esk; [injection E as <-; eauto|]. apply skip_false in Esk. cbn [fst snd] in *.
      apply (related_In r_pe r_ce false rels _ e deep Edeep) in Hin as (q & -> & Hq & Hch). eapply aggs_lock; eassumption. }
    rewrite F2. cbn [bind]. clear E2 F2 S1. match goal with |- bind ?m _ = _ -> _ => destruct m as [t3|] eqn:E3 end; cbn [bind]; [|discriminate]. destruct (transforms_lock e md false t2 t2' t3 Hmd Ho S2 E3) as (t3' & F3 & S3). rewrite F3. cbn [bind]. clear E3 F3 S2.
    destruct (get_forward_entities 1 rels e false) as [fwd|] eqn:Efwd; cbn [bind]; [|discriminate].
    match goal with |- bind ?m _ = _ -> _ => destruct m as [t4|] eqn:E4 end; cbn [bind]; [|discriminate]. destruct (Hvisit _ _ _ _ S3 E4) as (t4' & F4 & S4). rewrite F4. cbn [bind]. clear E4 F4 S3.
    match goal with |- bind ?m _ = _ -> _ => destruct m as [t5|] eqn:E5 end; cbn [bind]; [|discriminate].
    assert (exists t5', foldM (fun s (ep : string * list edge) => if skip_entity A G path ep then Ok s else forwards (snd ep) md s) fwd t4' = Ok t5' /\ simul t5 t5') as (t5' & F5 & S5).
    { revert E5. apply (foldM_lock simul); [|exact S4]. intros ep u1 u2 u1' Hin Hu E. destruct (skip_entity A G path ep) eqn:Esk; [injection E as <-; eauto|]. apply skip_false in Esk. destruct (forward_one _ _ _ _ Efwd Hin) as (r & Hr & He & ->). cbn [fst snd] in *.
      eapply forwards_lock; [rewrite He; exact Hmd | exact Hr | rewrite He; exact Ho | exact Esk | exact Hu | exact E]. }
    rewrite F5. cbn [bind]. clear E5 F5 S4. match goal with |- bind ?m _ = _ -> _ => destruct m as [t6|] eqn:E6 end; cbn [bind]; [|discriminate]. destruct (transforms_lock e md true t5 t5' t6 Hmd Ho S5 E6) as (t6' & F6 & S6). rewrite F6. cbn [bind]. apply wheres_lock. exact S6.
  Qed.
End Step.
