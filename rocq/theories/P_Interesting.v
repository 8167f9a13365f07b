(** C72: the interesting values that are found. *)
From Coq Require Import Sorting.Permutation Sorting.Sorted.
From Verif Require Import Base BaseFacts M_Schema M_Table M_LastTime L_LastTime M_Entities S_Entities S_Calls.
From Verif Require Import P_Equality L_Entities L_Tables P_Relate P_Meta P_Tables L_Normalize P_Normalize P_Concat P_Describe M_Files S_Files L_Files.
From Verif Require Import P_Files M_Interesting S_Interesting.
Local Open Scope string_scope.
Local Open Scope list_scope.

Lemma sum_app a b : fold_right Nat.add 0%nat (a ++ b) = (fold_right Nat.add 0 a + fold_right Nat.add 0 b)%nat.
Proof. induction a as [|x a IH]; cbn; [reflexivity | rewrite IH; lia]. Qed.
Lemma sum_perm a b : Permutation a b -> fold_right Nat.add 0%nat a = fold_right Nat.add 0%nat b.
Proof. induction 1; cbn; lia. Qed.
Lemma sum_In a x : In x a -> (x <= fold_right Nat.add 0 a)%nat.
Proof. induction a as [|y a IH]; intros H; [destruct H|]. cbn. destruct H as [->|H]; [lia | specialize (IH H); lia]. Qed.

(** the counts of the different values add up to the number of values *)
Lemma count_sum l : forall ds, NoDup ds -> (forall v, In v l -> In v ds) -> fold_right Nat.add 0%nat (map (count_occ val_eq_dec l) ds) = List.length l.
Proof.
  induction l as [|x l IH]; intros ds Hn Hin.
  - cbn. induction ds as [|d ds IHd]; [reflexivity|]. cbn. inversion Hn; subst. apply IHd; [assumption | intros v []].
  - cbn [List.length]. rewrite <- (IH ds Hn) by (intros v Hv; apply Hin; right; exact Hv). specialize (Hin x (or_introl eq_refl)). clear IH. induction ds as [|d ds IHd]; [destruct Hin|]. inversion Hn as [|? ? Hd Hn']; subst. cbn [map fold_right].
    destruct (val_eq_dec x d) as [->|Hne].
    + assert (map (count_occ val_eq_dec (d :: l)) ds = map (count_occ val_eq_dec l) ds) as ->.
      { apply map_ext_in. intros w Hw. cbn. destruct (val_eq_dec d w) as [->|]; [contradiction | reflexivity]. }
      cbn [count_occ]. destruct (val_eq_dec d d); [lia | congruence].
    + destruct Hin as [->|Hin]; [congruence|]. rewrite (IHd Hn' Hin). cbn [count_occ]. destruct (val_eq_dec x d); [congruence | lia].
Qed.
Lemma count_filter col v : v <> VNull -> count_occ val_eq_dec (present col) v = count_occ val_eq_dec col v.
Proof.
  intros Hv. unfold present. induction col as [|x col IH]; [reflexivity|]. cbn [filter count_occ]. destruct (val_eqb_spec x VNull) as [->|Hx]; cbn [negb].
  - destruct (val_eq_dec VNull v); [congruence | exact IH].
  - cbn [count_occ]. destruct (val_eq_dec x v); [f_equal; exact IH | exact IH].
Qed.
Lemma occurs_present col v : occurs col v <-> In v (present col).
Proof. unfold occurs, present. rewrite filter_In. split; intros [H1 H2]; (split; [exact H1|]); destruct (val_eqb_spec v VNull); cbn in *; congruence. Qed.

(** sorting counts that are in order already changes nothing *)
Lemma ss_app_inv {A} (R : A -> A -> Prop) l l' : StronglySorted R (l ++ l') -> StronglySorted R l /\ (forall a b, In a l -> In b l' -> R a b).
Proof.
  induction l as [|a l IH]; intros H; [split; [constructor | intros a b []]|]. cbn in H. inversion H as [|? ? Hs Hf]; subst. destruct (IH Hs) as [H1 H2]. rewrite Forall_forall in Hf. split.
  - constructor; [exact H1|]. apply Forall_forall. intros x Hx. apply Hf. apply in_or_app. left. exact Hx.
  - intros x y [<-|Hx] Hy; [apply Hf; apply in_or_app; right; exact Hy | apply H2; assumption].
Qed.
Lemma ss_rev {A} (R : A -> A -> Prop) l : StronglySorted R l -> StronglySorted (fun a b => R b a) (rev l).
Proof.
  induction 1 as [|a l Hs IH Hf]; [constructor|]. cbn. rewrite Forall_forall in Hf.
  assert (forall m, StronglySorted (fun a b => R b a) m -> (forall x, In x m -> R a x) -> StronglySorted (fun a b => R b a) (m ++ [a])) as Hx.
  { induction 1 as [|b m Hm IHm Hb]; intros Hr; cbn; [repeat constructor|]. constructor; [apply IHm; intros x Hx; apply Hr; right; exact Hx|]. apply Forall_app. split; [exact Hb | constructor; [apply Hr; left; reflexivity | constructor]]. }
  apply Hx; [exact IH|]. intros x H. apply Hf. apply in_rev. exact H.
Qed.
Lemma sorted_unique l m : StronglySorted (fun a b => b <= a)%nat l -> StronglySorted (fun a b => b <= a)%nat m -> Permutation l m -> l = m.
Proof.
  intros Hl. revert m. induction Hl as [|a l Hl IH Ha]; intros m Hm Hp; [apply Permutation_nil in Hp; congruence|].
  destruct m as [|b m]; [apply Permutation_sym, Permutation_nil in Hp; discriminate|]. inversion Hm as [|? ? Hm' Hb]; subst. rewrite Forall_forall in *.
  assert (a = b) as ->.
  { assert (In a (b :: m)) as Hx by (apply (Permutation_in _ Hp); left; reflexivity). assert (In b (a :: l)) as Hy by (apply (Permutation_in _ (Permutation_sym Hp)); left; reflexivity).
    destruct Hx as [|Hx]; [congruence|]. destruct Hy as [|Hy]; [congruence|]. specialize (Ha b Hy). specialize (Hb a Hx). lia. }
  f_equal. apply IH; [exact Hm' | eapply Permutation_cons_inv; exact Hp].
Qed.
Lemma resorted_id cs : StronglySorted (fun a b : val * nat => snd b <= snd a)%nat cs -> resorted cs = cs.
Proof.
  intros H. unfold resorted. assert (rev (isort Nat.leb (map snd cs)) = map snd cs) as ->.
  - apply sorted_unique.
    + pose proof (isort_sorted Nat.leb) as Hs. assert (StronglySorted (fun x y => Nat.leb x y = true) (isort Nat.leb (map snd cs))) as H0.
      { apply Hs; [intros a b; destruct (Nat.leb_spec a b); [auto | right; apply Nat.leb_le; lia] | intros a b c Hab Hbc; apply Nat.leb_le in Hab, Hbc; apply Nat.leb_le; lia]. }
      apply ss_rev in H0. clear -H0. induction H0 as [|a l _ IH Hf]; constructor; [exact IH|]. eapply Forall_impl; [|exact Hf]. cbn. intros b Hb. apply Nat.leb_le. exact Hb.
    + clear -H. induction H as [|a l _ IH Hf]; cbn; constructor; [exact IH|]. apply Forall_forall. intros x Hx. apply in_map_iff in Hx as (y & <- & Hy). rewrite Forall_forall in Hf. apply Hf. exact Hy.
    + eapply Permutation_trans; [apply Permutation_sym; apply Permutation_rev | apply isort_perm].
  - clear. induction cs as [|[v c] cs IH]; cbn; [reflexivity | f_equal; exact IH].
Qed.

Section C72.
  Variable tie : list (val * nat) -> list (val * nat).
  Hypothesis tie_perm : forall l, Permutation (tie l) l.

  Lemma counts_perm col : Permutation (value_counts tie col) (map (fun v => (v, times col v)) (nodup val_eq_dec (present col))).
  Proof. unfold value_counts. eapply Permutation_trans; [apply isort_perm | apply tie_perm]. Qed.
  Lemma counts_sorted col : StronglySorted (fun a b : val * nat => snd b <= snd a)%nat (value_counts tie col).
  Proof.
    assert (StronglySorted (fun x y : val * nat => (snd y <=? snd x)%nat = true) (value_counts tie col)) as H.
    { apply isort_sorted; [intros a b; destruct (Nat.leb_spec (snd b) (snd a)); [auto | right; apply Nat.leb_le; lia] | intros a b c Hab Hbc; apply Nat.leb_le in Hab, Hbc; apply Nat.leb_le; lia]. }
    induction H as [|a l _ IH Hf]; constructor; [exact IH|]. eapply Forall_impl; [|exact Hf]. cbn. intros b Hb. apply Nat.leb_le. exact Hb.
  Qed.
  Lemma counts_total col : fold_right Nat.add 0%nat (map snd (value_counts tie col)) = List.length (present col).
  Proof.
    rewrite (sum_perm _ _ (Permutation_map snd (counts_perm col))), map_map. cbn [snd]. rewrite <- (count_sum (present col) (nodup val_eq_dec (present col))); [|apply NoDup_nodup | intros v Hv; apply nodup_In; exact Hv].
    f_equal. apply map_ext_in. intros v Hv. unfold times. apply nodup_In in Hv. symmetry. apply count_filter. apply occurs_present in Hv. apply Hv.
  Qed.
  Lemma counts_In col v c : In (v, c) (value_counts tie col) <-> occurs col v /\ c = times col v.
  Proof.
    split.
    - intros H. apply (Permutation_in _ (counts_perm col)) in H. apply in_map_iff in H as (w & E & Hw). injection E as -> <-. apply nodup_In in Hw. split; [apply occurs_present; exact Hw | reflexivity].
    - intros [Ho ->]. apply (Permutation_in _ (Permutation_sym (counts_perm col))). apply in_map_iff. exists v. split; [reflexivity|]. apply nodup_In. exact (proj1 (occurs_present col v) Ho).
  Qed.
  Lemma counts_NoDup col : NoDup (map fst (value_counts tie col)).
  Proof. eapply Permutation_NoDup; [apply Permutation_map; apply Permutation_sym; apply counts_perm|]. rewrite map_map. cbn [fst]. rewrite map_id. apply NoDup_nodup. Qed.

  Lemma pick_few total cs : pick true total cs = map fst cs.
  Proof. induction cs as [|[v c] cs IH]; cbn; [reflexivity | f_equal; exact IH]. Qed.
  (** what is picked is an initial part of the list; the part ends at a value that is not of moderate frequency *)
  Lemma pick_split few total cs : exists a b, cs = a ++ b /\ pick few total cs = map fst a /\
    (few = false -> (forall v c, In (v, c) a -> (total < 20 * c)%nat /\ (100 * c < 95 * total)%nat) /\ match b with [] => True | (v, c) :: _ => ~ ((total < 20 * c)%nat /\ (100 * c < 95 * total)%nat) end) /\ (few = true -> b = []).
  Proof.
    induction cs as [|[v c] cs (a & b & -> & Hp & H1 & H2)].
    - exists [], []. split; [reflexivity|]. split; [reflexivity|]. split; [intros _; split; [intros v c [] | exact I] | reflexivity].
    - cbn [pick]. destruct few.
      + exists ((v, c) :: a), b. split; [reflexivity|]. split; [cbn; rewrite Hp; reflexivity|]. split; [discriminate | exact H2].
      + destruct ((total <? 20 * c)%nat && (100 * c <? 95 * total)%nat) eqn:E.
        * apply andb_true_iff in E as [E1 E2]. apply Nat.ltb_lt in E1, E2. exists ((v, c) :: a), b. split; [reflexivity|]. split; [cbn [map fst]; rewrite Hp; reflexivity|]. split; [|discriminate]. intros _. destruct (H1 eq_refl) as [H3 H4]. split; [|exact H4].
          intros w x [Hw|Hw]; [injection Hw as <- <-; auto | apply (H3 w); exact Hw].
        * exists [], ((v, c) :: a ++ b). split; [reflexivity|]. split; [reflexivity|]. split; [|discriminate]. intros _. split; [intros w x []|]. intros [E1 E2]. apply Nat.ltb_lt in E1, E2. rewrite E1, E2 in E. discriminate.
  Qed.

  Lemma two_counts (cs : list (val * nat)) v c w x : NoDup (map fst cs) -> In (v, c) cs -> In (w, x) cs -> v <> w -> (c + x <= fold_right Nat.add 0 (map snd cs))%nat.
  Proof.
    induction cs as [|[u y] cs IH]; intros Hn Hv Hw Hne; [destruct Hv|]. cbn [map fst snd fold_right] in *. inversion Hn as [|? ? Hu Hn']; subst.
    destruct Hv as [E|Hv], Hw as [E'|Hw].
    - congruence.
    - injection E as -> ->. apply (in_map snd) in Hw. apply sum_In in Hw. cbn in Hw. lia.
    - injection E' as -> ->. apply (in_map snd) in Hv. apply sum_In in Hv. cbn in Hv. lia.
    - specialize (IH Hn' Hv Hw Hne). lia.
  Qed.

  (** the values chosen from a column *)
  Theorem C72_chosen max_values col : good_choice max_values col (chosen tie max_values col).
  Proof.
    unfold chosen. rewrite (resorted_id _ (counts_sorted col)), counts_total. set (cs := value_counts tie col). set (n := Nat.min max_values (List.length cs)).
    destruct (pick_split (List.length cs <? 25)%nat (List.length (present col)) (firstn n cs)) as (a & b & Hab & -> & Hmany & Hfew).
    assert (cs = a ++ (b ++ skipn n cs)) as Hcs by (rewrite app_assoc, <- Hab; symmetry; apply firstn_skipn).
    assert (forall v, In v (map fst a) -> In (v, times col v) a) as Ha.
    { intros v Hv. apply in_map_iff in Hv as ([w c] & E & Hin). cbn in E. subst w. assert (In (v, c) cs) as Hi by (rewrite Hcs; apply in_or_app; left; exact Hin). apply counts_In in Hi as [_ ->]. exact Hin. }
    assert (forall v c, In (v, c) a -> occurs col v /\ c = times col v) as Ha' by (intros v c Hin; apply counts_In; fold cs; rewrite Hcs; apply in_or_app; left; exact Hin).
    pose proof (counts_NoDup col) as Hnd. fold cs in Hnd. pose proof (counts_sorted col) as Hs. fold cs in Hs. rewrite Hcs in Hs.
    assert (List.length cs = List.length (nodup val_eq_dec (present col))) as Hlen by (unfold cs; rewrite (Permutation_length (counts_perm col)), map_length; reflexivity).
    assert (List.length a <= n)%nat as Hla by (pose proof (f_equal (@List.length _) Hab) as Hl; rewrite app_length, firstn_length in Hl; lia).
    split; [rewrite Hcs, map_app in Hnd; clear -Hnd; induction (map fst a) as [|x l IH]; [constructor|]; cbn in Hnd; inversion Hnd as [|? ? Hx Hn']; subst; constructor; [intros Hi; apply Hx; apply in_or_app; left; exact Hi | apply IH; exact Hn']|].
    split; [rewrite map_length; lia|]. split; [intros v Hv; apply Ha in Hv; apply (Ha' v _ Hv)|].
    split.
    { destruct (ss_app_inv _ _ _ Hs) as [Hsa _]. clear -Hsa Ha'. induction Hsa as [|[v c] a _ IH Hf]; cbn; constructor.
      - apply IH. intros v' c' Hin. apply Ha'. right. exact Hin.
      - apply Forall_forall. intros w Hw. apply in_map_iff in Hw as ([w' d] & <- & Hin). rewrite Forall_forall in Hf. specialize (Hf _ Hin). cbn in *. rewrite <- (proj2 (Ha' v c (or_introl eq_refl))), <- (proj2 (Ha' w' d (or_intror Hin))). exact Hf. }
    split.
    { intros v w Hv Ho Hn. assert (In (w, times col w) cs) as Hin by (apply counts_In; auto). rewrite Hcs in Hin. apply in_app_or in Hin as [Hin|Hin]; [apply (in_map fst) in Hin; contradiction|].
      exact (proj2 (ss_app_inv _ _ _ Hs) _ _ (Ha v Hv) Hin). }
    intros k (l & Hl & Hli & Hlk). assert (k = List.length cs) as ->.
    { rewrite Hlen, <- Hlk. apply Permutation_length. apply NoDup_Permutation; [exact Hl | apply NoDup_nodup|]. intros v. rewrite Hli, nodup_In. apply occurs_present. }
    split; intros Hk.
    - rewrite (proj2 (Nat.ltb_lt _ _) Hk) in Hfew. rewrite (Hfew eq_refl), app_nil_r in Hab. rewrite map_length, <- Hab, firstn_length. unfold n. lia.
    - rewrite (proj2 (Nat.ltb_ge _ _) Hk) in Hmany. destruct (Hmany eq_refl) as [H1 H2]. split.
      + intros v Hv. apply (H1 v). apply Ha. exact Hv.
      + intros w Ho Hm. assert (In (w, times col w) cs) as Hin by (apply counts_In; auto). destruct (in_dec val_eq_dec w (map fst a)) as [Hi|Hi]; [left; exact Hi|]. right.
        destruct b as [|[u c] b].
        * rewrite app_nil_r in Hab. rewrite map_length, <- Hab, firstn_length. destruct (Nat.le_gt_cases max_values (List.length cs)) as [Hle|Hgt]; [unfold n; lia|]. exfalso. apply Hi.
          assert (firstn n cs = cs) as Hall by (apply firstn_all2; unfold n; lia). rewrite <- Hab, Hall. apply (in_map fst) in Hin. exact Hin.
        * exfalso. assert (In (u, c) cs) as Hu by (rewrite Hcs; apply in_or_app; right; left; reflexivity). apply counts_In in Hu as [Hou ->].
          destruct (val_eq_dec u w) as [->|Hne]; [apply H2; exact Hm|].
          assert (times col w <= times col u)%nat as Hle.
          { rewrite Hcs in Hin. apply in_app_or in Hin as [Hin|Hin]; [apply (in_map fst) in Hin; contradiction|]. destruct Hin as [E|Hin]; [congruence|].
            assert (StronglySorted (fun x y : val * nat => snd y <= snd x)%nat ((u, times col u) :: b ++ skipn n cs)) as Hs2.
            { clear -Hs. revert Hs. cbn [app]. generalize ((u, times col u) :: b ++ skipn n cs). intros m. induction a as [|x a IH]; intros Hs; [exact Hs|]. apply IH. inversion Hs; assumption. }
            inversion Hs2 as [|? ? _ Hf]; subst. rewrite Forall_forall in Hf. exact (Hf _ Hin). }
          assert (In (u, times col u) cs) as Hu by (apply counts_In; auto). assert (In (w, times col w) cs) as Hw by (apply counts_In; auto).
          pose proof (two_counts cs u _ w _ Hnd Hu Hw Hne) as Hsum. unfold cs in Hsum at 1. rewrite counts_total in Hsum. destruct Hm as [M1 M2]. apply H2. lia.
  Qed.

  Lemma in_relationship_spec rels eid vid : in_relationship rels eid vid = true <-> linked_variable rels eid vid.
  Proof.
    unfold in_relationship, linked_variable. rewrite existsb_exists. split; intros (r & Hr & H); exists r; (split; [exact Hr|]).
    - apply orb_true_iff in H as [H|H]; apply andb_true_iff in H as [H1 H2]; apply String.eqb_eq in H1, H2; auto.
    - apply orb_true_iff. destruct H as [[<- <-]|[<- <-]]; [left | right]; rewrite !String.eqb_refl; reflexivity.
  Qed.
  Lemma is_discrete_spec ty : is_discrete_type ty = true <-> discrete ty.
  Proof. unfold discrete. destruct ty; cbn; split; intros H; try discriminate; auto; decompose [or] H; discriminate. Qed.

  Definition mark (max_values : nat) (rels : list relationship) (eid : string) (e : ent) : ent :=
    with_vars (map (fun v => if is_discrete_type (v_type v) then mkVar (v_id v) (v_type v) (if in_relationship rels eid (v_id v) then [] else chosen tie max_values (t_column (n_tab e) (v_id v))) (v_desc v) else v) (n_vars e)) e.
  Lemma mark_marked max_values rels eid e : Forall2 (marked max_values rels e eid) (n_vars e) (n_vars (mark max_values rels eid e)).
  Proof.
    cbn [mark with_vars n_vars]. induction (n_vars e) as [|v vs IH]; cbn [map]; constructor; [|exact IH]. unfold marked. pose proof (is_discrete_spec (v_type v)) as Hd. pose proof (in_relationship_spec rels eid (v_id v)) as Hr.
    destruct (is_discrete_type (v_type v)); cbn [v_id v_type v_desc v_values].
    - repeat (split; [reflexivity|]). split; [intros Hn; destruct Hn; apply Hd; reflexivity|]. destruct (in_relationship rels eid (v_id v)).
      + split; [reflexivity|]. intros _ Hn. destruct Hn. apply Hr. reflexivity.
      + split; [intros _ Hl; apply Hr in Hl; discriminate | intros _ _; apply C72_chosen].
    - repeat (split; [reflexivity|]). split; intros Hx; apply Hd in Hx; discriminate.
  Qed.

  Lemma entity_run max_values eid s e : dget String.eqb eid (s_ents s) = Some e ->
    entity_interesting tie max_values eid s = (with_meta None (with_ents (dset String.eqb eid (mark max_values (s_rels s) eid e) (s_ents s)) s), Ok tt).
  Proof.
    intros H. unfold entity_interesting, add_interesting_values, sbind, sget, slift, on_entity, sent. rewrite H. destruct s. reflexivity.
  Qed.

  Lemma entities_run max_values ids : forall s, NoDup ids -> (forall i, In i ids -> exists e, dget String.eqb i (s_ents s) = Some e) ->
    exists s', siter (entity_interesting tie max_values) ids s = (s', Ok tt) /\ s_id s' = s_id s /\ s_rels s' = s_rels s /\ s_kind s' = s_kind s /\ map fst (s_ents s') = map fst (s_ents s) /\
      forall i, dget String.eqb i (s_ents s') = (if in_dec String.string_dec i ids then option_map (mark max_values (s_rels s) i) (dget String.eqb i (s_ents s)) else dget String.eqb i (s_ents s)).
  Proof.
    induction ids as [|i ids IH]; intros s Hn Hex; cbn [siter]; [exists s; repeat split; reflexivity|]. inversion Hn as [|? ? Hi Hn']; subst. destruct (Hex i (or_introl eq_refl)) as (e & Ee). unfold sbind. rewrite (entity_run _ _ _ _ Ee).
    set (s1 := with_meta None (with_ents (dset String.eqb i (mark max_values (s_rels s) i e) (s_ents s)) s)).
    assert (forall j, dget String.eqb j (s_ents s1) = if String.eqb j i then Some (mark max_values (s_rels s) i e) else dget String.eqb j (s_ents s)) as Hg.
    { intros j. unfold s1. cbn [s_ents with_meta with_ents]. destruct (String.eqb_spec j i) as [->|Hne]; [apply (dget_dset_same _ String.eqb_spec) | apply (dget_dset_other _ String.eqb_spec); congruence]. }
    destruct (IH s1 Hn') as (s2 & E2 & A1 & A2 & A3 & A4 & A5).
    { intros j Hj. rewrite Hg. destruct (String.eqb j i); [eauto|]. apply Hex. right. exact Hj. }
    exists s2. split; [exact E2|]. split; [exact A1|]. split; [exact A2|]. split; [exact A3|]. split.
    { rewrite A4. unfold s1. cbn [s_ents with_meta with_ents]. clear -Ee. induction (s_ents s) as [|[k x] l IH]; [discriminate|]. cbn in Ee |- *. destruct (String.eqb_spec i k) as [->|]; cbn; [reflexivity | f_equal; apply IH; exact Ee]. }
    intros j. rewrite A5, Hg. change (s_rels s1) with (s_rels s). destruct (in_dec String.string_dec j ids) as [Hj|Hj], (in_dec String.string_dec j (i :: ids)) as [Hj'|Hj'].
    - destruct (String.eqb_spec j i) as [->|]; [contradiction | reflexivity].
    - destruct Hj'. right. exact Hj.
    - destruct Hj' as [<-|Hj']; [rewrite String.eqb_refl, Ee; reflexivity | contradiction].
    - destruct (String.eqb_spec j i) as [->|]; [destruct Hj'; left; reflexivity | reflexivity].
  Qed.

  (** C72: the whole entity set: only the interesting values of discrete variables change *)
  Theorem C72_interesting max_values s : NoDup (map fst (s_ents s)) ->
    exists s', set_interesting tie max_values s = (s', Ok tt) /\ s_id s' = s_id s /\ s_rels s' = s_rels s /\ s_kind s' = s_kind s /\ s_meta s' = None /\ map fst (s_ents s') = map fst (s_ents s) /\
      forall id e, dget String.eqb id (s_ents s) = Some e ->
        exists vs, dget String.eqb id (s_ents s') = Some (with_vars vs e) /\ Forall2 (marked max_values (s_rels s) e id) (n_vars e) vs.
  Proof.
    intros Hn. destruct (entities_run max_values (map fst (s_ents s)) s Hn) as (s1 & E1 & A1 & A2 & A3 & A4 & A5).
    { intros i Hi. apply in_map_iff in Hi as ([k e] & <- & Hin). exists e. apply (dget_NoDup_In _ String.eqb_spec); assumption. }
    exists (with_meta None s1). split; [unfold set_interesting, sbind at 1, sget at 1; unfold sbind; rewrite E1; reflexivity|]. split; [exact A1|]. split; [exact A2|]. split; [exact A3|]. split; [reflexivity|]. split; [exact A4|].
    intros id e He. exists (n_vars (mark max_values (s_rels s) id e)). split; [|apply mark_marked]. cbn [s_ents with_meta]. rewrite A5, He. destruct (in_dec String.string_dec id (map fst (s_ents s))) as [_|Hx]; [reflexivity|].
    destruct Hx. apply (dget_In _ String.eqb_spec) in He. apply (in_map fst) in He. exact He.
  Qed.

  (** doing it again changes nothing *)
  Theorem C72_again max_values s : NoDup (map fst (s_ents s)) -> forall s1 s2, set_interesting tie max_values s = (s1, Ok tt) -> set_interesting tie max_values s1 = (s2, Ok tt) ->
    forall id, dget String.eqb id (s_ents s2) = dget String.eqb id (s_ents s1).
  Proof.
    intros Hn s1 s2 H1 H2 id.
    assert (forall s s', NoDup (map fst (s_ents s)) -> set_interesting tie max_values s = (s', Ok tt) -> map fst (s_ents s') = map fst (s_ents s) /\ s_rels s' = s_rels s /\ forall i, dget String.eqb i (s_ents s') = option_map (mark max_values (s_rels s) i) (dget String.eqb i (s_ents s))) as Hrun.
    { clear. intros s s' Hn H. destruct (entities_run max_values (map fst (s_ents s)) s Hn) as (s1 & E1 & A1 & A2 & A3 & A4 & A5).
      { intros i Hi. apply in_map_iff in Hi as ([k e] & <- & Hin). exists e. apply (dget_NoDup_In _ String.eqb_spec); assumption. }
      unfold set_interesting, sbind at 1, sget at 1 in H. unfold sbind in H. rewrite E1 in H. unfold reset_meta, smod in H. injection H as <-. split; [exact A4|]. split; [exact A2|]. intros i. cbn [s_ents with_meta]. rewrite A5. destruct (in_dec _ i _) as [|Hx]; [reflexivity|].
      assert (dget String.eqb i (s_ents s) = None) as -> by (apply (dget_None _ String.eqb_spec); exact Hx). reflexivity. }
    destruct (Hrun s s1 Hn H1) as (K1 & R1 & G1). destruct (Hrun s1 s2) as (_ & _ & G2); [rewrite K1; exact Hn | exact H2|]. rewrite G2, G1, R1. destruct (dget String.eqb id (s_ents s)) as [e|]; [|reflexivity]. cbn [option_map]. f_equal. unfold mark. cbn [with_vars n_vars n_tab]. unfold with_vars. cbn [n_id n_tab n_vars n_index n_time n_sec n_lti n_created]. f_equal. rewrite map_map. apply map_ext. intros v. destruct (is_discrete_type (v_type v)) eqn:E; cbn [v_type v_id v_desc]; rewrite E; reflexivity.
  Qed.
End C72.

(** ** Concrete entity sets *)
Definition asis (l : list (val * nat)) : list (val * nat) := l.
(** products with labels, four of tea, two of milk, one of rice and one missing; the link of sales gets no values *)
Definition labelled : eset := after
  [Create "products" (prods [(1%Z, VStr "a", VStr "milk"); (2%Z, VStr "b", VStr "tea"); (3%Z, VStr "b", VStr "tea"); (4%Z, VStr "a", VNull); (5%Z, VStr "b", VStr "tea"); (6%Z, VStr "b", VStr "rice"); (7%Z, VStr "a", VStr "milk"); (8%Z, VStr "b", VStr "tea")])
     (Some "pid") [("code", TCategorical); ("label", TCategorical)] false None [] false;
   Create "sales" (mkTab [("sid", DInt); ("pid", DInt); ("shop", DObj)] [[("sid", VNum 1%Z); ("pid", VNum 2%Z); ("shop", VStr "x")]]) (Some "sid") [("pid", TId); ("shop", TCategorical)] false None [] false;
   Relate (mkRel "products" "pid" "sales" "pid")].
Example C72_nonvacuous : NoDup (map fst (s_ents labelled)) /\
  map (fun ie => (fst ie, map (fun v => (v_id v, v_type v, v_values v)) (n_vars (snd ie)))) (s_ents (fst (set_interesting asis 2 labelled))) =
    [("products", [("pid", TIndex, []); ("code", TCategorical, [VStr "b"; VStr "a"]); ("label", TCategorical, [VStr "tea"; VStr "milk"])]);
     ("sales", [("sid", TIndex, []); ("pid", TId, []); ("shop", TCategorical, [VStr "x"])])].
Proof. split; [apply nodupb_spec; reflexivity|]. vm_compute. reflexivity. Qed.
(** thirty different values: only the one of moderate frequency is chosen *)
Example C72_many : chosen asis 5 (repeat (VNum 0%Z) 10 ++ map (fun i => VNum (Z.of_nat i)) (seq 1 30)) = [VNum 0%Z] /\
  different (repeat (VNum 0%Z) 10 ++ map (fun i => VNum (Z.of_nat i)) (seq 1 30)) 31.
Proof.
  split; [vm_compute; reflexivity|]. exists (nodup val_eq_dec (present (repeat (VNum 0%Z) 10 ++ map (fun i => VNum (Z.of_nat i)) (seq 1 30)))). split; [apply NoDup_nodup|]. split; [|vm_compute; reflexivity]. intros v. rewrite nodup_In, occurs_present. reflexivity.
Qed.

Print Assumptions C72_chosen.
Print Assumptions C72_interesting.
Print Assumptions C72_again.
