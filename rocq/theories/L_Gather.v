(** Lemmas on which features are approximated (M_Approx.v). *)
From Verif Require Import Base BaseFacts M_Schema S_Schema M_Trie M_Table M_Query M_Feature M_FeatureSet M_Calc S_Calc S_Group
  S_Sem S_Approx M_Time M_CFM M_Approx L_Trie L_Frame L_FeatureSet L_Plan L_Value1 P_Serialize P_Value L_Group L_Schema.

(** ** features_by_name is complete *)
Lemma by_name_complete rels fs f : distinct_names rels fs -> needed fs f -> dget String.eqb (funique rels f) (features_by_name rels fs) = Some f.
Proof.
  intros Hd Hf.
  assert (dget String.eqb (funique rels f) (features_by_name rels fs) <> None) as Hn.
  { set (P := fun n (d : list (string * feat)) => dget String.eqb n d <> None).
    assert (forall n l d, (P n d \/ exists g, In g l /\ funique rels g = n) -> P n (fold_left (fun d g => dset String.eqb (funique rels g) g d) l d)) as Hl.
    { intros n. induction l as [|g l IH]; intros d H; cbn [fold_left]; [destruct H as [H|(g & [] & _)]; exact H|]. apply IH.
      destruct (string_dec (funique rels g) n) as [E|Hne].
      - left. unfold P. rewrite <- E, (dget_dset_same _ String.eqb_spec). discriminate.
      - destruct H as [H|(h & [<-|Hh] & E)]; [left; unfold P; rewrite (dget_dset_other _ String.eqb_spec) by congruence; exact H | contradiction | right; exists h; auto]. }
    unfold features_by_name. cbv zeta. destruct Hf as (f0 & Hf0 & Hr). apply (reaches_cases rels) in Hr.
    assert (forall n l d, (P n d \/ exists f1, In f1 l /\ exists g, In g (deep_deps rels [] f1) /\ funique rels g = n) ->
      P n (fold_left (fun d f1 => fold_left (fun d dep => dset String.eqb (funique rels dep) dep d) (deep_deps rels [] f1) d) l d)) as Hll.
    { intros n. induction l as [|f1 l IH]; intros d H; cbn [fold_left]; [destruct H as [H|(g & [] & _)]; exact H|]. apply IH.
      destruct H as [H|(f2 & [<-|Hin] & g & Hg & E)]; [left; apply Hl; left; exact H | left; apply Hl; right; exists g; auto | right; exists f2; split; [exact Hin | exists g; auto]]. }
    apply Hll. destruct Hr as [->|Hr]; [|right; exists f0; split; [exact Hf0 | exists f; auto]]. left. apply Hl. right. exists f0. auto. }
  destruct (dget String.eqb (funique rels f) (features_by_name rels fs)) as [g|] eqn:E; [|congruence].
  apply by_name_sound in E as [Hg E]. f_equal. apply Hd; assumption.
Qed.

(** ** feature_dependents *)
Section Dependents.
  Variables (rels : list relationship) (fs : list feat).
  Notation funique := (funique rels).
  Notation deep := (deep_deps rels []).
  Definition add_to (d : list (string * list string)) (kv : string * string) : list (string * list string) :=
    dset String.eqb (fst kv) (set_add (snd kv) (match dget String.eqb (fst kv) d with Some l => l | None => [] end)) d.
  Definition names_at (k : string) (d : list (string * list string)) : list string := match dget String.eqb k d with Some l => l | None => [] end.

  Lemma add_to_In k m l : forall d, In m (names_at k (fold_left add_to l d)) <-> In m (names_at k d) \/ In (k, m) l.
  Proof.
    induction l as [|[k0 m0] l IH]; intros d; cbn [fold_left]; [cbn [In]; tauto|]. rewrite IH. unfold add_to at 1, names_at. cbn [fst snd].
    destruct (string_dec k k0) as [<-|Hne].
    - rewrite (dget_dset_same _ String.eqb_spec), set_add_In. cbn [In]. split; [intros [[->|H]|H]; tauto | intros [H|[E|H]]; [tauto | injection E as <-; tauto | tauto]].
    - rewrite (dget_dset_other _ String.eqb_spec) by congruence. cbn [In]. split; [tauto | intros [H|[E|H]]; [tauto | congruence | tauto]].
  Qed.

  Definition dep_pairs : list (string * string) :=
    flat_map (fun f => flat_map (fun dep => (funique dep, funique f) :: map (fun sd => (funique sd, funique dep)) (deep dep)) (deep f)) fs.

  Lemma fold_left_flat_map {A B C} (g : A -> list B) (h : C -> B -> C) l : forall c, fold_left h (flat_map g l) c = fold_left (fun c a => fold_left h (g a) c) l c.
  Proof. induction l as [|a l IH]; intros c; cbn [flat_map fold_left]; [reflexivity|]. rewrite fold_left_app. apply IH. Qed.
  Lemma fold_left_map' {A B C} (g : A -> B) (h : C -> B -> C) l : forall c, fold_left h (map g l) c = fold_left (fun c a => h c (g a)) l c.
  Proof. induction l as [|a l IH]; intros c; cbn [map fold_left]; [reflexivity|]. apply IH. Qed.
  Lemma fold_left_ext' {A B} (g h : A -> B -> A) : forall l c, (forall c b, In b l -> g c b = h c b) -> fold_left g l c = fold_left h l c.
  Proof. induction l as [|b l IH]; intros c H; [reflexivity|]. cbn [fold_left]. rewrite H by (left; reflexivity). apply IH. intros c' b' Hb. apply H; right; exact Hb. Qed.

  Lemma feature_dependents_pairs : feature_dependents rels fs = fold_left add_to dep_pairs [].
  Proof.
    unfold feature_dependents, dep_pairs. cbv zeta. rewrite fold_left_flat_map. apply fold_left_ext'. intros c f _.
    rewrite fold_left_flat_map. apply fold_left_ext'. intros c' d _. cbn [fold_left]. rewrite fold_left_map'. reflexivity.
  Qed.

  Lemma dependent_names k m : In m (names_at k (feature_dependents rels fs)) <->
    exists g d, needed fs g /\ In d (deep g) /\ funique d = k /\ funique g = m.
  Proof.
    rewrite feature_dependents_pairs, add_to_In. unfold dep_pairs. split.
    - intros [[]|H]. apply in_flat_map in H as (f & Hf & H). apply in_flat_map in H as (d & Hd & [E|H]).
      + injection E as <- <-. exists f, d. split; [apply needed_self; exact Hf | auto].
      + apply in_map_iff in H as (sd & E & Hs). injection E as <- <-. exists d, sd. split; [exists f; split; [exact Hf | apply (reaches_cases rels); right; exact Hd] | auto].
    - intros (g & d & (f & Hf & Hr) & Hd & <- & <-). right. apply in_flat_map. exists f. split; [exact Hf|]. apply in_flat_map. apply (reaches_cases rels) in Hr as [->|Hr].
      + exists d. split; [exact Hd | left; reflexivity].
      + exists g. split; [exact Hr | right; apply in_map_iff; exists d; auto].
  Qed.

  Hypothesis Hdn : distinct_names rels fs.

  (** the features that rely on a feature *)
  Lemma dependents_In f g : needed fs f -> (In g (dependents rels fs f) <-> needed fs g /\ In f (deep g)).
  Proof.
    intros Hf. unfold dependents. cbv zeta. change (match dget String.eqb (funique f) (feature_dependents rels fs) with Some l => l | None => [] end) with (names_at (funique f) (feature_dependents rels fs)).
    rewrite in_flat_map. split.
    - intros (n & Hn & Hg). apply dependent_names in Hn as (h & d & Hh & Hd & E1 & E2).
      assert (d = f) as -> by (apply Hdn; [destruct Hh as (f0 & Hf0 & Hr); exists f0; split; [exact Hf0 | apply (reaches_trans _ h); [exact Hr | apply (reaches_cases rels); right; exact Hd]] | exact Hf | exact E1]).
      rewrite <- E2, (by_name_complete rels fs h Hdn Hh) in Hg. destruct Hg as [<-|[]]. auto.
    - intros [Hg Hd]. exists (funique g). split; [apply dependent_names; exists g, f; auto|]. rewrite (by_name_complete rels fs g Hdn Hg). left; reflexivity.
  Qed.

  Lemma uses_full_dep_false f : needed fs f -> (uses_full_or_dependent rels fs f = false <-> forall g, needed fs g -> reaches g f -> uses_full g = false).
  Proof.
    intros Hf. unfold uses_full_or_dependent. rewrite orb_false_iff. split.
    - intros [H1 H2] g Hg Hr. apply (reaches_cases rels) in Hr as [->|Hr]; [exact H1|].
      destruct (uses_full g) eqn:E; [|reflexivity]. assert (existsb uses_full (dependents rels fs f) = true) by (apply existsb_exists; exists g; split; [apply dependents_In; auto | exact E]). congruence.
    - intros H. split; [apply H; [exact Hf | constructor]|]. destruct (existsb uses_full (dependents rels fs f)) eqn:E; [|reflexivity].
      apply existsb_exists in E as (g & Hg & E). apply dependents_In in Hg as [Hg Hd]; [|exact Hf]. rewrite (H g Hg) in E; [discriminate|]. apply (reaches_cases rels); right; exact Hd.
  Qed.

  (** ** gather_approximate *)
  Lemma chain_end_leads f p a : (exists r b nm, f = FDirect r b nm) -> (chain_end f = (p, a) <-> leads f p a).
  Proof.
    assert (forall b, (forall r' b' nm', b <> FDirect r' b' nm') -> chain_end b = ([], b)) as Hb by (intros [] H; try reflexivity; exfalso; eapply H; reflexivity).
    revert p a. induction f as [| r b nm IH | | | |] using list_feat_ind; intros p0 a (r0 & b0 & nm0 & E); try discriminate E. clear r0 b0 nm0 E. cbn [chain_end].
    assert ((exists r' b' nm', b = FDirect r' b' nm') \/ (forall r' b' nm', b <> FDirect r' b' nm')) as [Hd|Hd] by (destruct b; try (right; intros; discriminate); left; eauto).
    - destruct (chain_end b) as [q e] eqn:Eb. assert (leads b q e) as Hl by (apply IH; [exact Hd | reflexivity]). split.
      + intros E. injection E as <- <-. apply leads_more. exact Hl.
      + intros H. inversion H as [? ? ? Hno|? ? ? p' ? Hl']; subst; [destruct Hd as (r' & b' & nm' & ->); exfalso; eapply Hno; reflexivity|]. apply IH in Hl'; [|exact Hd]. injection Hl' as <- <-. reflexivity.
    - rewrite (Hb b Hd). split.
      + intros E. injection E as <- <-. apply leads_one. exact Hd.
      + intros H. inversion H as [? ? ? Hno|? ? ? p' ? Hl']; subst; [reflexivity|]. inversion Hl'; subst; exfalso; eapply Hd; reflexivity.
  Qed.

  Lemma is_agg_iff a : is_agg a = true <-> is_aggregation a.
  Proof. destruct a; cbn; intuition discriminate. Qed.

  Definition gather_step (t : atrie) (f : feat) : atrie :=
    if uses_full_or_dependent rels fs f then t
    else match f with
         | FDirect _ _ _ =>
           let '(p, b) := chain_end f in
           if is_agg b then update_at edge_eqb [] p (fun s => TNode (set_add (funique b) (tvalue s)) (children s)) t else t
         | _ => t
         end.
  Lemma gather_fold : gather_approximate rels fs = fold_left gather_step fs (TNode [] []).
  Proof. reflexivity. Qed.

  Definition adds (f : feat) (p : list edge) (n : string) : Prop :=
    uses_full_or_dependent rels fs f = false /\ exists a, leads f p a /\ is_aggregation a /\ n = funique a.

  Lemma gather_step_spec t f p n : apx (gather_step t f) p n <-> apx t p n \/ adds f p n.
  Proof.
    unfold gather_step, adds. destruct (uses_full_or_dependent rels fs f); [intuition discriminate|].
    assert ((exists r b nm, f = FDirect r b nm) \/ (forall r b nm, f <> FDirect r b nm)) as [Hd|Hd] by (destruct f; try (right; intros; discriminate); left; eauto).
    2:{ assert (forall p a, ~ leads f p a) as Hno by (intros p' a H; inversion H; subst; eapply Hd; reflexivity).
        replace (match f with FDirect _ _ _ => _ | _ => t end) with t by (destruct f; try reflexivity; exfalso; eapply Hd; reflexivity).
        split; [tauto | intros [H|(_ & a & Hl & _)]; [exact H | destruct (Hno _ _ Hl)]]. }
    destruct (chain_end f) as [q b] eqn:Ec. pose proof Ec as Hl. apply chain_end_leads in Hl; [|exact Hd].
    assert (forall p a, leads f p a -> p = q /\ a = b) as Hu by (intros p' a H; apply chain_end_leads in H; [|exact Hd]; rewrite Ec in H; injection H as <- <-; auto).
    replace (match f with FDirect _ _ _ => _ | _ => t end) with (if is_agg b then update_at edge_eqb [] q (fun s => TNode (set_add (funique b) (tvalue s)) (children s)) t else t) by (destruct Hd as (r & b0 & nm & ->); reflexivity).
    destruct (is_agg b) eqn:Eb.
    - unfold apx. destruct (list_eq_dec (fun a b => match edge_eqb_spec a b with ReflectT _ e => left e | ReflectF _ e => right e end) p q) as [->|Hne].
      + rewrite (get_node_update_same edge_eqb edge_eqb_spec). cbn [tvalue]. rewrite set_add_In. split.
        * intros [->|H]; [right; split; [reflexivity|]; exists b; split; [exact Hl | split; [apply is_agg_iff; exact Eb | reflexivity]] | left; exact H].
        * intros [H|(_ & a & H & _ & ->)]; [right; exact H | left; f_equal; apply (Hu q a H)].
      + rewrite (tvalue_update_other edge_eqb edge_eqb_spec) by (try exact Hne; intros s; reflexivity). split; [tauto|]. intros [H|(_ & a & H & _)]; [exact H | exfalso; apply Hne, (Hu p a H)].
    - split; [tauto|]. intros [H|(_ & a & H & Ha & _)]; [exact H|]. rewrite (proj2 (Hu p a H)) in Ha. apply is_agg_iff in Ha. congruence.
  Qed.

  Lemma gather_In p n : apx (gather_approximate rels fs) p n <-> exists a, approximable fs p a /\ n = funique a.
  Proof.
    rewrite gather_fold. assert (forall l t, apx (fold_left gather_step l t) p n <-> apx t p n \/ exists f, In f l /\ adds f p n) as H.
    { induction l as [|f l IH]; intros t; cbn [fold_left]; [split; [tauto | intros [H|(f & [] & _)]; exact H]|]. rewrite IH, gather_step_spec. split.
      - intros [[H|H]|(g & Hg & H)]; [tauto | right; exists f; split; [left; reflexivity | exact H] | right; exists g; split; [right; exact Hg | exact H]].
      - intros [H|(g & [<-|Hg] & H)]; [tauto | tauto | right; exists g; auto]. }
    rewrite H. split.
    - intros [H0|(f & Hf & Hu & a & Hl & Ha & ->)]; [unfold apx in H0; change (@TNode edge (list string) [] []) with (@trie_new edge (list string) []) in H0; rewrite (get_node_new edge_eqb []) in H0; destruct H0|]. exists a. split; [|reflexivity]. split; [exact Ha|]. exists f. split; [exact Hf|]. split; [exact Hl|].
      apply uses_full_dep_false; [apply needed_self; exact Hf | exact Hu].
    - intros (a & (Ha & f & Hf & Hl & Hu) & ->). right. exists f. split; [exact Hf|]. split; [apply uses_full_dep_false; [apply needed_self; exact Hf | exact Hu]|]. exists a. auto.
  Qed.

  Lemma gather_twf : twf (gather_approximate rels fs).
  Proof.
    rewrite gather_fold. assert (forall l t, twf t -> twf (fold_left gather_step l t)) as H; [|apply H; split; [constructor | exact I]].
    induction l as [|f l IH]; intros t Ht; cbn [fold_left]; [exact Ht|]. apply IH. unfold gather_step. destruct (uses_full_or_dependent rels fs f); [exact Ht|].
    destruct f; try exact Ht. destruct (chain_end _) as [q b]. destruct (is_agg b); [|exact Ht]. apply (twf_update edge_eqb edge_eqb_spec); [|exact Ht].
    intros [v ch] Hs. cbn [children]. apply twf_unfold. apply twf_unfold in Hs. exact Hs.
  Qed.
End Dependents.
