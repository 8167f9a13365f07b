From Verif Require Import Base BaseFacts M_Schema M_Feature M_FeatureSet S_Plan S_Calc L_FeatureSet L_LastTime S_Group.

(** ** comparisons *)
Definition pre {A} (cmp : A -> A -> comparison) : Prop :=
  (forall x y, cmp y x = CompOpp (cmp x y)) /\
  (forall x y z, cmp x y <> Gt -> cmp y z <> Gt -> cmp x z <> Gt).

Lemma pre_lex {A} (c1 c2 : A -> A -> comparison) : pre c1 -> pre c2 -> pre (fun x y => lex (c1 x y) (c2 x y)).
Proof.
  intros [O1 T1] [O2 T2]. split.
  - intros x y. rewrite (O1 x y), (O2 x y). unfold lex. destruct (c1 x y), (c2 x y); reflexivity.
  - intros x y z Hxy Hyz. unfold lex in *.
    assert (c1 x y <> Gt) as Hxy1 by (destruct (c1 x y); congruence).
    assert (c1 y z <> Gt) as Hyz1 by (destruct (c1 y z); congruence).
    pose proof (T1 x y z Hxy1 Hyz1) as Hxz1.
    destruct (c1 x z) eqn:Exz; [|congruence|congruence].
    destruct (c1 x y) eqn:Exy; [| |congruence].
    + destruct (c1 y z) eqn:Eyz; [eapply T2; eassumption| |congruence].
      exfalso. assert (c1 z x = Eq) as Ezx by (rewrite (O1 x z), Exz; reflexivity).
      apply (T1 z x y); [rewrite Ezx; discriminate | rewrite Exy; discriminate|]. rewrite (O1 y z), Eyz. reflexivity.
    + exfalso. assert (c1 z x = Eq) as Ezx by (rewrite (O1 x z), Exz; reflexivity).
      apply (T1 y z x); [exact Hyz1 | rewrite Ezx; discriminate |]. rewrite (O1 x y), Exy. reflexivity.
Qed.

Lemma pre_string {A} (f : A -> string) : pre (fun x y => String.compare (f x) (f y)).
Proof.
  split.
  - intros x y. apply String.compare_antisym.
  - intros x y z H1 H2. pose proof (str_leb_trans (f x) (f y) (f z)) as H. unfold str_leb in H.
    destruct (String.compare (f x) (f y)); try congruence; destruct (String.compare (f y) (f z)); try congruence;
      destruct (String.compare (f x) (f z)); try congruence; specialize (H eq_refl eq_refl); discriminate.
Qed.
Lemma pre_Z {A} (f : A -> Z) : pre (fun x y => Z.compare (f x) (f y)).
Proof.
  split.
  - intros x y. apply Z.compare_antisym.
  - intros x y z. rewrite !Z.compare_le_iff. lia.
Qed.
Lemma pre_bool {A} (f : A -> bool) : pre (fun x y => bool_cmp (f x) (f y)).
Proof.
  split.
  - intros x y. destruct (f x), (f y); reflexivity.
  - intros x y z. destruct (f x), (f y), (f z); simpl; congruence.
Qed.

Lemma pre_key : pre key_cmp.
Proof.
  unfold key_cmp. repeat (apply pre_lex; [first [apply pre_Z | apply pre_string | apply pre_bool]|]). apply pre_string.
Qed.

Lemma lex_Eq a b : lex a b = Eq -> a = Eq /\ b = Eq.
Proof. destruct a; simpl; try discriminate; auto. Qed.

Lemma key_cmp_Eq a b : key_cmp a b = Eq <-> a = b.
Proof.
  split.
  - unfold key_cmp. intros H. repeat (apply lex_Eq in H as [? H]).
    destruct a as [d p c u v w fl g], b as [d' p' c' u' v' w' fl' g']. cbn [k_depth k_path k_class k_unit k_value k_where k_full k_groupby] in *.
    repeat match goal with
    | H : Z.compare _ _ = Eq |- _ => apply Z.compare_eq in H
    | H : String.compare _ _ = Eq |- _ => apply String.compare_eq_iff in H
    | H : bool_cmp ?x ?y = Eq |- _ => assert (x = y) by (destruct x, y; simpl in H; congruence); clear H
    end. congruence.
  - intros <-. pose proof (proj1 pre_key a a) as H. destruct (key_cmp a a); simpl in H; congruence.
Qed.

Lemma key_eqb_spec a b : key_eqb a b = true <-> a = b.
Proof. unfold key_eqb. rewrite <- key_cmp_Eq. destruct (key_cmp a b); split; congruence. Qed.

Lemma key_leb_total a b : key_leb a b = true \/ key_leb b a = true.
Proof. unfold key_leb. rewrite (proj1 pre_key a b). destruct (key_cmp a b); simpl; auto. Qed.
Lemma key_leb_trans a b c : key_leb a b = true -> key_leb b c = true -> key_leb a c = true.
Proof.
  unfold key_leb. intros H1 H2. pose proof (proj2 pre_key a b c) as H.
  destruct (key_cmp a b); try discriminate; destruct (key_cmp b c); try discriminate; destruct (key_cmp a c); try reflexivity;
    exfalso; apply H; congruence.
Qed.

Lemma key_depth_lt a b : (k_depth a < k_depth b)%Z -> key_cmp a b = Lt.
Proof. intros H. unfold key_cmp. rewrite (proj2 (Z.compare_lt_iff _ _) H). reflexivity. Qed.

(** ** groupby *)
Section GroupBy.
  Context {A : Type} (key : A -> gkey).

  Lemma group_concat l : List.concat (group_by_key key l) = l.
  Proof.
    induction l as [|a l IH]; cbn [group_by_key]; [reflexivity|].
    destruct (group_by_key key l) as [|[|b g] gs]; cbn [List.concat app] in *.
    - congruence.
    - congruence.
    - destruct (key_eqb (key a) (key b)); cbn [List.concat app]; congruence.
  Qed.

  Lemma group_nonempty l g : In g (group_by_key key l) -> g <> [].
  Proof.
    revert g. induction l as [|a l IH]; cbn [group_by_key]; [intros g []|]. intros g.
    destruct (group_by_key key l) as [|[|b g'] gs].
    - intros [<-|[]]; discriminate.
    - intros [<-|H]; [discriminate | apply IH; exact H].
    - destruct (key_eqb (key a) (key b)).
      + intros [<-|H]; [discriminate | apply IH; right; exact H].
      + intros [<-|H]; [discriminate | apply IH; exact H].
  Qed.

  Lemma group_same l g : In g (group_by_key key l) -> forall x y, In x g -> In y g -> key x = key y.
  Proof.
    revert g. induction l as [|a l IH]; cbn [group_by_key]; [intros g []|]. intros g.
    destruct (group_by_key key l) as [|[|b g'] gs].
    - intros [<-|[]] x y [<-|[]] [<-|[]]; reflexivity.
    - intros [<-|H]; [intros x y [<-|[]] [<-|[]]; reflexivity | apply IH; exact H].
    - destruct (key_eqb (key a) (key b)) eqn:E.
      + apply key_eqb_spec in E. intros [<-|H]; [|apply IH; right; exact H].
        pose proof (IH (b :: g') (or_introl eq_refl)) as Hs.
        intros x y [<-|Hx] [<-|Hy]; auto.
        * rewrite E. apply Hs; [left; reflexivity | exact Hy].
        * rewrite E. apply Hs; [exact Hx | left; reflexivity].
      + intros [<-|H]; [intros x y [<-|[]] [<-|[]]; reflexivity | apply IH; exact H].
  Qed.

  (** in a sorted list, an element with a smaller key is in an earlier group *)
  Lemma group_order l x y :
    StronglySorted (fun a b => key_leb (key a) (key b) = true) l -> In x l -> In y l -> key_cmp (key x) (key y) = Lt ->
    exists l1 g1 l2 g2 l3, group_by_key key l = l1 ++ g1 :: l2 ++ g2 :: l3 /\ In x g1 /\ In y g2.
  Proof.
    intros Hs Hx Hy Hlt.
    assert (forall gs, StronglySorted (fun a b => key_leb (key a) (key b) = true) (List.concat gs) ->
      (forall g, In g gs -> forall a b, In a g -> In b g -> key a = key b) ->
      In x (List.concat gs) -> In y (List.concat gs) ->
      exists l1 g1 l2 g2 l3, gs = l1 ++ g1 :: l2 ++ g2 :: l3 /\ In x g1 /\ In y g2) as H.
    { clear Hs Hx Hy. induction gs as [|g gs IH]; intros Hs Hsame Hx Hy; [destruct Hx|].
      cbn [List.concat] in *. apply in_app_iff in Hx, Hy.
      destruct Hx as [Hx|Hx], Hy as [Hy|Hy].
      - exfalso. rewrite (Hsame g (or_introl eq_refl) x y Hx Hy) in Hlt.
        rewrite (proj2 (key_cmp_Eq _ _) eq_refl) in Hlt. discriminate.
      - apply in_concat in Hy as (g2 & Hg2 & Hy). apply in_split in Hg2 as (l2 & l3 & ->).
        exists [], g, l2, g2, l3. auto.
      - exfalso. apply in_split in Hy as (y1 & y2 & ->). rewrite <- app_assoc in Hs. 
        assert (StronglySorted (fun a b => key_leb (key a) (key b) = true) (y :: (y2 ++ List.concat gs))) as Hs'.
        { clear - Hs. induction y1 as [|a y1 IH]; [exact Hs|]. inversion Hs; subst; auto. }
        inversion Hs' as [|? ? _ Hf]; subst. rewrite Forall_forall in Hf.
        assert (key_leb (key y) (key x) = true) as Hle by (apply Hf, in_app_iff; right; exact Hx).
        unfold key_leb in Hle. rewrite (proj1 pre_key (key x) (key y)), Hlt in Hle. discriminate.
      - destruct IH as (l1 & g1 & l2 & g2 & l3 & -> & H1 & H2).
        + clear - Hs. induction g as [|a g IH]; [exact Hs|]. inversion Hs; subst; auto.
        + intros g' Hg'. apply Hsame. right; exact Hg'.
        + exact Hx.
        + exact Hy.
        + exists (g :: l1), g1, l2, g2, l3. auto. }
    apply H; try (rewrite group_concat; assumption). apply group_same.
  Qed.
End GroupBy.

(** ** depths *)
Section Depths.
  Variables (rels : list relationship) (U : feat -> Prop).
  Notation funique := (funique rels).
  Hypothesis Udep : forall f d, U f -> In d (fdeps f) -> U d.
  Hypothesis Uinj : forall f g, U f -> U g -> funique f = funique g -> f = g.

  Lemma order_dset_same n z o : order_of (dset String.eqb n z o) n = z.
  Proof. unfold order_of. rewrite (dget_dset_same _ String.eqb_spec). reflexivity. Qed.
  Lemma order_dset_other n m z o : m <> n -> order_of (dset String.eqb n z o) m = order_of o m.
  Proof. intros H. unfold order_of. rewrite (dget_dset_other _ String.eqb_spec) by exact H. reflexivity. Qed.

  Lemma push_deps_spec n ds o :
    (forall d, In d ds -> funique d <> n) ->
    (forall m, order_of (push_deps rels n ds o) m <= order_of o m)%Z /\
    (forall d, In d ds -> order_of (push_deps rels n ds o) (funique d) <= order_of o n - 1)%Z /\
    order_of (push_deps rels n ds o) n = order_of o n.
  Proof.
    revert o. induction ds as [|d ds IH]; intros o Hne; cbn [push_deps].
    - split; [intros m; lia|]. split; [intros d []|reflexivity].
    - destruct (IH (push_dep rels (order_of o n) o d)) as (H1 & H2 & H3); [intros d' Hd'; apply Hne; right; exact Hd'|].
      assert (forall m, (order_of (push_dep rels (order_of o n) o d) m <= order_of o m)%Z) as Hle.
      { intros m. unfold push_dep. destruct (String.eqb_spec m (funique d)) as [->|Hm]; [rewrite order_dset_same; lia | rewrite order_dset_other by exact Hm; lia]. }
      assert (order_of (push_dep rels (order_of o n) o d) n = order_of o n) as Hn.
      { unfold push_dep. apply order_dset_other. intros E. apply (Hne d); [left; reflexivity | congruence]. }
      split; [|split].
      + intros m. specialize (H1 m). specialize (Hle m). lia.
      + intros d' [<-|Hd'].
        * specialize (H1 (funique d)). unfold push_dep in H1 at 2. rewrite order_dset_same in H1. lia.
        * specialize (H2 d' Hd'). rewrite Hn in H2. exact H2.
      + congruence.
  Qed.

  Definition dom (o : list (string * Z)) (f : feat) : Prop := In (funique f) (map fst o).

  Lemma dom_dset n z o f : dom (dset String.eqb n z o) f <-> dom o f \/ funique f = n.
  Proof.
    unfold dom. induction o as [|[k v] o IH]; simpl; [intuition|].
    destruct (String.eqb_spec n k) as [->|Hk]; simpl; [intuition congruence|]. rewrite IH. tauto.
  Qed.

  Definition dinv (queue : list feat) (order depths : list (string * Z)) : Prop :=
    forall f, U f -> fpath f = [] -> dom depths f -> forall d, In d (fdeps f) ->
      (order_of order (funique d) <= order_of depths (funique f) - 1)%Z /\
      (In d queue \/ (dom depths d /\ order_of depths (funique d) <= order_of depths (funique f) - 1)%Z).

  Lemma dep_neq f d : U f -> In d (fdeps f) -> funique d <> funique f.
  Proof.
    intros Hf Hd E. apply Uinj in E; [|eapply Udep; eassumption|exact Hf]. subst d. apply fsize_dep in Hd. lia.
  Qed.

  Definition final (depths : list (string * Z)) : Prop :=
    forall f, U f -> fpath f = [] -> dom depths f -> forall d, In d (fdeps f) ->
      dom depths d /\ (order_of depths (funique d) <= order_of depths (funique f) - 1)%Z.

  Lemma depths_loop_spec fuel : forall queue order depths res,
    (forall f, In f queue -> U f) -> dinv queue order depths ->
    depths_loop rels fuel queue order depths = Ok res ->
    final res /\ (forall f, In f queue \/ dom depths f -> dom res f).
  Proof.
    induction fuel as [|fuel IH]; intros [|f queue] order depths res HU Hinv; cbn [depths_loop]; try discriminate.
    - intros [= <-]. split; [|intros f [[]|H]; exact H].
      intros f Hf Hp Hd d Hin. destruct (Hinv f Hf Hp Hd d Hin) as [_ [[]|H]]; exact H.
    - intros [= <-]. split; [|intros f [[]|H]; exact H].
      intros f Hf Hp Hd d Hin. destruct (Hinv f Hf Hp Hd d Hin) as [_ [[]|H]]; exact H.
    - pose proof (HU f (or_introl eq_refl)) as Hf.
      set (n := funique f). set (depths' := dset String.eqb n (order_of order n) depths).
      assert (forall g, U g -> g <> f -> order_of depths' (funique g) = order_of depths (funique g)) as Hoth.
      { intros g Hg Hne. apply order_dset_other. intros E. apply Hne, Uinj; assumption. }
      assert (order_of depths' n = order_of order n) as Hself by apply order_dset_same.
      assert (forall order' queue', (forall m, order_of order' m <= order_of order m)%Z ->
        (forall g, In g queue -> In g queue') ->
        (fpath f = [] -> forall d, In d (fdeps f) -> (order_of order' (funique d) <= order_of order n - 1)%Z /\ In d queue') ->
        dinv queue' order' depths') as Hstep.
      { intros order' queue' Hle Hq Hfd g Hg Hpg Hdg d Hd.
        assert (U d) as HUd by (eapply Udep; eassumption).
        destruct (String.eqb_spec (funique g) n) as [E|E].
        - apply Uinj in E; [|exact Hg|exact Hf]. subst g. fold n. rewrite Hself. destruct (Hfd Hpg d Hd) as [H1 H2]. auto.
        - assert (g <> f) as Hgf by (intros ->; apply E; reflexivity). rewrite (Hoth g Hg Hgf).
          apply dom_dset in Hdg as [Hdg|Hdg]; [|contradiction].
          destruct (Hinv g Hg Hpg Hdg d Hd) as [H1 H2]. specialize (Hle (funique d)). split; [lia|].
          destruct (String.eqb_spec (funique d) n) as [Ed|Ed].
          + right. split; [apply dom_dset; right; exact Ed|]. rewrite Ed, Hself. rewrite Ed in H1. lia.
          + destruct H2 as [[->|H2]|[H2 H3]]; [exfalso; apply Ed; reflexivity|left; apply Hq; exact H2|].
            right. split; [apply dom_dset; left; exact H2|].
            rewrite (Hoth d HUd) by (intros ->; apply Ed; reflexivity). exact H3. }
      destruct (fpath f) eqn:Ep.
      + intros H. destruct (push_deps_spec n (fdeps f) order (fun d Hd => dep_neq f d Hf Hd)) as (P1 & P2 & P3).
        apply IH in H.
        * destruct H as [H1 H2]. split; [exact H1|]. intros g Hg. apply H2.
          destruct Hg as [[<-|Hg]|Hg]; [right; apply dom_dset; auto | left; apply in_app_iff; auto | right; apply dom_dset; auto].
        * intros g Hg. apply in_app_iff in Hg as [Hg|Hg]; [apply HU; right; exact Hg | eapply Udep; eassumption].
        * apply Hstep; [exact P1 | intros g Hg; apply in_app_iff; auto |].
          intros _ d Hd. split; [apply P2; exact Hd | apply in_app_iff; auto].
      + intros H. apply IH in H.
        * destruct H as [H1 H2]. split; [exact H1|]. intros g Hg. apply H2.
          destruct Hg as [[<-|Hg]|Hg]; [right; apply dom_dset; auto | auto | right; apply dom_dset; auto].
        * intros g Hg. apply HU; right; exact Hg.
        * apply Hstep; [intros m; lia | auto | discriminate].
  Qed.

  Lemma feature_depths_spec fs depths :
    (forall f, In f fs -> U f) -> feature_depths rels fs = Ok depths ->
    final depths /\ forall f, In f fs -> dom depths f.
  Proof.
    intros HU H. unfold feature_depths in H. apply depths_loop_spec in H; [|exact HU|].
    - destruct H as [H1 H2]. split; [exact H1|]. intros f Hf. apply H2. auto.
    - intros f _ _ [].
  Qed.
End Depths.

(** the loop always ends *)
Lemma fsize_deps f : list_sum (map fsize (fdeps f)) < fsize f.
Proof.
  destruct f as [e v nm|r b nm|p bs path u wh prev nm|p bs nm|p bs g nm|b n nm]; cbn [fdeps fbases fwhere app fsize].
  - cbn. lia.
  - cbn. lia.
  - rewrite map_app, list_sum_app. destruct wh as [w|]; [cbn [map]; change (list_sum [fsize w]) with (fsize w + 0) | cbn [map]; change (list_sum []) with 0]; lia.
  - rewrite app_nil_r. lia.
  - rewrite app_nil_r, map_app, list_sum_app. cbn [map]. change (list_sum [fsize g]) with (fsize g + 0). lia.
  - cbn. lia.
Qed.

Lemma depths_loop_total rels fuel : forall queue order depths,
  list_sum (map fsize queue) <= fuel -> exists d, depths_loop rels fuel queue order depths = Ok d.
Proof.
  induction fuel as [|fuel IH]; intros [|f queue] order depths H; cbn [depths_loop map list_sum fold_right] in *; eauto.
  - exfalso. destruct f; cbn [fsize] in H; lia.
  - pose proof (fsize_deps f) as Hd. destruct (fpath f).
    + apply IH. rewrite map_app, list_sum_app. unfold list_sum in *. lia.
    + apply IH. unfold list_sum in *. lia.
Qed.

Lemma feature_depths_total rels fs : exists d, feature_depths rels fs = Ok d.
Proof. unfold feature_depths. apply (depths_loop_total rels (depths_fuel fs) fs [] []). unfold depths_fuel. apply le_n. Qed.

(** ** group_features *)
Lemma reaches_trans f g h : reaches f g -> reaches g h -> reaches f h.
Proof. induction 1 as [f|f d g Hd Hr IH]; intros H; [exact H|]. eapply reaches_dep; [exact Hd | apply IH; exact H]. Qed.

Lemma needed_dep fs f d : needed fs f -> In d (fdeps f) -> needed fs d.
Proof.
  intros (f0 & Hf0 & Hr) Hd. exists f0. split; [exact Hf0|]. eapply reaches_trans; [exact Hr|].
  eapply reaches_dep; [exact Hd | apply reaches_refl].
Qed.
Lemma needed_self fs f : In f fs -> needed fs f.
Proof. intros H. exists f. split; [exact H | apply reaches_refl]. Qed.

Lemma funique_nonempty rels f : funique rels f <> ""%string.
Proof. unfold funique. destruct (fentity f); discriminate. Qed.

Definition lookup_names (by_name : list (string * feat)) (names : list string) : res (list feat) :=
  mapM (fun n => match dget String.eqb n by_name with Some f => Ok f | None => Err KeyError end) names.

Lemma group_features_spec rels by_name names feats :
  lookup_names by_name names = Ok feats ->
  exists groups depths,
    group_features rels by_name names = Ok groups /\ feature_depths rels feats = Ok depths /\
    Permutation (List.concat groups) feats /\
    (forall g, In g groups -> g <> []) /\
    (forall g f f', In g groups -> In f g -> In f' g -> key_of rels depths f = key_of rels depths f') /\
    (forall f d, In f feats -> In d feats ->
       (order_of depths (funique rels d) < order_of depths (funique rels f))%Z -> earlier groups d f).
Proof.
  intros Hl. destruct (feature_depths_total rels feats) as (depths & Hd).
  unfold group_features, lookup_names in *. rewrite Hl. cbn [bind]. rewrite Hd. cbn [bind].
  eexists. exists depths. split; [reflexivity|]. split; [reflexivity|].
  set (key := key_of rels depths).
  split; [rewrite group_concat; apply isort_perm|].
  split; [intros g Hg; eapply group_nonempty; exact Hg|].
  split; [intros g f f' Hg Hf Hf'; eapply group_same; eassumption|].
  intros f d Hf Hdn Hlt. unfold earlier.
  apply (group_order key).
  - apply (isort_sorted (fun a b => key_leb (key a) (key b))).
    + intros a b. apply key_leb_total.
    + intros a b c. apply key_leb_trans.
  - eapply Permutation_in; [symmetry; apply isort_perm | exact Hdn].
  - eapply Permutation_in; [symmetry; apply isort_perm | exact Hf].
  - apply key_depth_lt. exact Hlt.
Qed.


Lemma depths_reads rels feats depths f d :
  distinct_names rels feats -> feature_depths rels feats = Ok depths ->
  In f feats -> reads f d -> (In d (fdeps f) \/ fpath d = []) ->
  (order_of depths (funique rels d) < order_of depths (funique rels f))%Z.
Proof.
  intros Hn Hd Hf [Hp (s & Hs & Hsd)] Hcase.
  destruct (feature_depths_spec rels (needed feats)) with (fs := feats) (depths := depths) as [Hfin Hdom].
  - intros x y Hx Hy. eapply needed_dep; eassumption.
  - exact Hn.
  - intros x Hx. apply needed_self; exact Hx.
  - exact Hd.
  - assert (needed feats f) as Hnf by (apply needed_self; exact Hf).
    assert (forall d, In d (fdeps f) -> dom rels depths d /\ (order_of depths (funique rels d) <= order_of depths (funique rels f) - 1)%Z) as H1.
    { intros d' Hd'. apply Hfin; auto. }
    destruct Hcase as [Hc|Hc]; [specialize (proj2 (H1 d Hc)); lia|].
    destruct Hsd as [->|(n & nm & ->)]; [specialize (proj2 (H1 d Hs)); lia|].
    destruct (H1 _ Hs) as [Hds Hle].
    assert (needed feats (FSlice d n nm)) as Hns by (eapply needed_dep; eassumption).
    destruct (Hfin (FSlice d n nm) Hns Hc Hds d (or_introl eq_refl)) as [_ Hle2]. lia.
Qed.

Lemma group_features_good rels by_name names feats :
  lookup_names by_name names = Ok feats -> distinct_names rels feats ->
  exists groups,
    group_features rels by_name names = Ok groups /\
    Permutation (List.concat groups) feats /\
    (forall g, In g groups -> g <> []) /\
    (forall f d, In f feats -> In d feats -> reads f d -> In d (fdeps f) \/ fpath d = [] -> earlier groups d f) /\
    (forall g f f', In g groups -> In f g -> In f' g ->
       fclass f = fclass f' /\ fpath_name rels f = fpath_name rels f' /\ uses_full f = uses_full f' /\
       where_name rels f = where_name rels f' /\ groupby_name rels f = groupby_name rels f' /\
       (plain_window f -> plain_window f' -> same_window f f')).
Proof.
  intros Hl Hn. destruct (group_features_spec rels by_name names feats Hl) as (groups & depths & Hg & Hd & Hp & Hne & Hk & Ho).
  exists groups. split; [exact Hg|]. split; [exact Hp|]. split; [exact Hne|]. split.
  - intros f d Hf Hdn Hr Hc. apply Ho; auto. eapply depths_reads; eassumption.
  - intros g f f' Hgg Hf Hf'. pose proof (Hk g f f' Hgg Hf Hf') as E. unfold key_of in E. injection E as E1 E2 E3 E4 E5 E6 E7 E8.
    split; [exact E3|]. split; [exact E2|]. split; [exact E7|].
    unfold where_name, groupby_name. split; [|split].
    + destruct (fwhere f), (fwhere f'); cbn [option_map]; try congruence.
      * exfalso. exact (funique_nonempty rels _ E6).
      * exfalso. symmetry in E6. exact (funique_nonempty rels _ E6).
    + destruct (fgroupby f), (fgroupby f'); cbn [option_map]; try congruence.
      * exfalso. exact (funique_nonempty rels _ E8).
      * exfalso. symmetry in E8. exact (funique_nonempty rels _ E8).
    + unfold plain_window, same_window. unfold prev_key in *.
      destruct (fprev f) as [a|], (fprev f') as [b|]; auto.
      * intros (u & v & Ha & Hu) (u' & v' & Hb & Hu'). rewrite Ha, Hb in *. cbn [fst snd] in *. congruence.
      * intros (u & v & Ha & Hu) _. rewrite Ha in *. cbn [fst snd] in *. congruence.
      * intros _ (u & v & Ha & Hu). rewrite Ha in *. cbn [fst snd] in *. congruence.
Qed.
