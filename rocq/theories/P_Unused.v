(** C69: the warning about unused primitives. *)
From Coq Require Import Permutation Sorted.
From Verif Require Import Base BaseFacts M_Schema M_Feature M_Types M_Serialize M_Match M_DFS M_Unused S_Schema S_Calc S_Match S_DFS S_Unused L_FeatureSet L_DFS P_Match P_DFS P_DFSCase.
Local Open Scope string_scope.
Local Open Scope list_scope.

Lemma reaches_trans f g h : reaches f g -> reaches g h -> reaches f h.
Proof. intros H. revert h. induction H as [f|f d g Hd H IH]; intros h Hh; [exact Hh|]. eapply reaches_dep; [exact Hd | apply IH; exact Hh]. Qed.
Definition recorded (u : used) (r : role) : list string := match r with Transform => u_trans u | Aggregation => u_agg u | Groupby => u_group u | Where => u_where u end.
Section Unused.
  Variable rels : list relationship.
  Variable attr : prim -> pattr.
  Notation fname := (fname rels).
  Notation visit := (get_feature_data rels attr).
  Definition unslice (f : feat) : feat := match f with FSlice b _ _ => b | f => f end.
  Definition note (u : used) (f : feat) : used :=
    let u := match f with
      | FAgg p _ _ _ (Some _) _ _ => mkUsed (u_trans u) (u_agg u) (u_group u) (a_name (attr p) :: u_where u) (u_seen u)
      | FAgg p _ _ _ None _ _ => mkUsed (u_trans u) (a_name (attr p) :: u_agg u) (u_group u) (u_where u) (u_seen u)
      | FGroup p _ _ _ => mkUsed (u_trans u) (u_agg u) (a_name (attr p) :: u_group u) (u_where u) (u_seen u)
      | FTrans p _ _ => mkUsed (a_name (attr p) :: u_trans u) (u_agg u) (u_group u) (u_where u) (u_seen u)
      | _ => u
      end in mkUsed (u_trans u) (u_agg u) (u_group u) (u_where u) (fname f :: u_seen u).
  Lemma visit_eq fuel u f : visit (S fuel) u f = if mem_str (fname f) (u_seen u) then Ok u else foldM (visit fuel) (fdeps (unslice f)) (note u (unslice f)).
  Proof. reflexivity. Qed.
  Lemma note_spec u f : u_seen (note u f) = fname f :: u_seen u /\ forall r n, In n (recorded (note u f) r) <-> In n (recorded u r) \/ applies attr f r n.
  Proof.
    split; [destruct f as [| |p bs path un [w|] pr nm| | |]; reflexivity|]. intros r n. destruct f as [| |p bs path un [w|] pr nm| | |], r; cbn [note recorded u_trans u_agg u_group u_where In applies];
      (split; [intros H; repeat match goal with H : _ \/ _ |- _ => destruct H end; auto | intros [H|H]; auto; try (destruct H; congruence); auto]);
      try (left; assumption); try (right; split; congruence); try (destruct H as [-> _]; left; reflexivity); try (destruct H; discriminate); try contradiction.
  Qed.

  (** ** Growth and closure *)
  Definition le (u v : used) : Prop := incl (u_seen u) (u_seen v) /\ forall r, incl (recorded u r) (recorded v r).
  Definition covered (u : used) (f : feat) : Prop := In (fname f) (u_seen u) \/ (is_slice f = true /\ In (fname (unslice f)) (u_seen u)).
  Definition done (fs : list feat) (u : used) (c : feat) : Prop := needed fs c /\ (forall r n, applies attr c r n -> In n (recorded u r)) /\ forall d, In d (fdeps c) -> covered u d.
  Lemma le_refl u : le u u. Proof. split; [apply incl_refl | intros r; apply incl_refl]. Qed.
  Lemma le_trans u v w : le u v -> le v w -> le u w. Proof. intros [A1 A2] [B1 B2]. split; [eapply incl_tran; eassumption | intros r; eapply incl_tran; [apply A2 | apply B2]]. Qed.
  Lemma covered_le u v f : le u v -> covered u f -> covered v f. Proof. intros [H _] [Hc|[Hc Hd]]; [left | right; split; [exact Hc|]]; apply H; assumption. Qed.
  Lemma done_le fs u v c : le u v -> done fs u c -> done fs v c.
  Proof. intros H (A & B & C). split; [exact A|]. split; [intros r n Hn; apply H, B; exact Hn | intros d Hd; eapply covered_le; eauto]. Qed.
  Definition step_ok (fs : list feat) (u u' : used) : Prop := le u u' /\ (forall s, In s (u_seen u') -> In s (u_seen u) \/ exists c, fname c = s /\ done fs u' c).
  Lemma step_refl fs u : step_ok fs u u. Proof. split; [apply le_refl | auto]. Qed.
  Lemma step_trans fs u v w : step_ok fs u v -> step_ok fs v w -> step_ok fs u w.
  Proof. intros [A1 A2] [B1 B2]. split; [eapply le_trans; eassumption|]. intros s Hs. destruct (B2 s Hs) as [H|H]; [|auto]. destruct (A2 s H) as [H1|(c & E & Hc)]; [auto|]. right. exists c. split; [exact E | eapply done_le; eassumption]. Qed.
  Lemma unslice_needed fs f : needed fs f -> needed fs (unslice f).
  Proof. intros (x & Hx & Hr). exists x. split; [exact Hx|]. destruct f; try exact Hr. eapply reaches_trans; [exact Hr|]. eapply reaches_dep; [left; reflexivity | apply reaches_refl]. Qed.
  Lemma dep_needed fs f d : needed fs f -> In d (fdeps f) -> needed fs d.
  Proof. intros (x & Hx & Hr) Hd. exists x. split; [exact Hx|]. eapply reaches_trans; [exact Hr|]. eapply reaches_dep; [exact Hd | apply reaches_refl]. Qed.
  Lemma visits fs fuel : (forall f u u', needed fs f -> visit fuel u f = Ok u' -> step_ok fs u u' /\ covered u' f) ->
    forall l u u', (forall d, In d l -> needed fs d) -> foldM (visit fuel) l u = Ok u' -> step_ok fs u u' /\ forall d, In d l -> covered u' d.
  Proof.
    intros IH l. induction l as [|d l IHl]; intros u u' Hl; cbn [foldM]; [intros [= <-]; split; [apply step_refl | intros d []]|].
    destruct (visit fuel u d) as [v|] eqn:E; cbn [bind]; [|discriminate]. intros E'. destruct (IH d u v (Hl d (or_introl eq_refl)) E) as [S1 C1]. destruct (IHl v u' (fun x Hx => Hl x (or_intror Hx)) E') as [S2 C2].
    split; [eapply step_trans; eassumption|]. intros x [<-|Hx]; [eapply covered_le; [apply S2 | exact C1] | apply C2; exact Hx].
  Qed.
  Lemma visit_ok fs fuel : forall f u u', needed fs f -> visit fuel u f = Ok u' -> step_ok fs u u' /\ covered u' f.
  Proof.
    induction fuel as [|fuel IH]; intros f u u' Hf H.
    - cbn [get_feature_data] in H. destruct (mem_str (fname f) (u_seen u)) eqn:E; [|discriminate]. injection H as <-. split; [apply step_refl | left; apply mem_str_In; exact E].
    - rewrite visit_eq in H. destruct (mem_str (fname f) (u_seen u)) eqn:E; [injection H as <-; split; [apply step_refl | left; apply mem_str_In; exact E]|].
      set (g := unslice f) in *. pose proof (unslice_needed fs f Hf) as Hg. fold g in Hg. destruct (note_spec u g) as [N1 N2].
      destruct (visits fs fuel IH (fdeps g) (note u g) u' (fun d Hd => dep_needed fs g d Hg Hd) H) as [[S1 S2] C].
      assert (In (fname g) (u_seen u')) as Hin by (apply S1; rewrite N1; left; reflexivity).
      split; [|unfold covered; subst g; destruct f; cbn [unslice is_slice] in *; auto].
      split; [eapply le_trans; [|exact S1]; split; [rewrite N1; intros s Hs; right; exact Hs | intros r n Hn; apply N2; left; exact Hn]|].
      intros s Hs. destruct (S2 s Hs) as [H1|H1]; [|auto]. rewrite N1 in H1. destruct H1 as [<-|H1]; [|auto]. right. exists g. split; [reflexivity|]. split; [exact Hg|]. split; [intros r n Hn; apply S1, N2; right; exact Hn | exact C].
  Qed.
  (** nothing is recorded that is not used *)
  Lemma visit_sound fs fuel : forall f u u', needed fs f -> visit fuel u f = Ok u' -> (forall r n, In n (recorded u r) -> uses attr fs r n) -> forall r n, In n (recorded u' r) -> uses attr fs r n.
  Proof.
    induction fuel as [|fuel IH]; intros f u u' Hf H Hu; [cbn [get_feature_data] in H; destruct (mem_str _ _); [injection H as <-; exact Hu | discriminate]|].
    rewrite visit_eq in H. destruct (mem_str _ _); [injection H as <-; exact Hu|]. pose proof (unslice_needed fs f Hf) as Hg. destruct (note_spec u (unslice f)) as [_ N2].
    assert (forall r n, In n (recorded (note u (unslice f)) r) -> uses attr fs r n) as Hn by (intros r n Hn; apply N2 in Hn as [Hn|Hn]; [apply Hu; exact Hn | exists (unslice f); auto]).
    assert (forall d, In d (fdeps (unslice f)) -> needed fs d) as Hd by (intros d Hd; eapply dep_needed; eassumption). revert H Hn Hd. generalize (note u (unslice f)) as v. induction (fdeps (unslice f)) as [|d l IHl]; intros v H Hn Hd; cbn [foldM] in H; [injection H as <-; exact Hn|].
    destruct (visit fuel v d) as [v'|] eqn:E; cbn [bind] in H; [|discriminate]. apply (IHl v' H); [apply (IH d v v' (Hd d (or_introl eq_refl)) E Hn) | intros x Hx; apply Hd; right; exact Hx].
  Qed.
  Lemma categorize_covers fuel fs u : categorize_features rels attr fuel fs = Ok u -> (forall s, In s (u_seen u) -> exists c, fname c = s /\ done fs u c) /\ forall f, In f fs -> covered u f.
  Proof.
    intros H. destruct (visits fs fuel (visit_ok fs fuel) fs (mkUsed [] [] [] [] []) u) as [[_ S2] C]; [intros d Hd; exists d; split; [exact Hd | apply reaches_refl] | exact H|]. split; [|exact C]. intros s Hs. destruct (S2 s Hs) as [[]|H1]. exact H1.
  Qed.
  Theorem C69_only_used fuel fs u r n : categorize_features rels attr fuel fs = Ok u -> In n (recorded u r) -> uses attr fs r n.
  Proof.
    unfold categorize_features. intros H. assert (forall f, In f fs -> needed fs f) as Hf by (intros f Hf; exists f; split; [exact Hf | apply reaches_refl]). assert (forall r n, In n (recorded (mkUsed [] [] [] [] []) r) -> uses attr fs r n) as H0 by (intros [] ? []).
    revert H H0 Hf. generalize (mkUsed [] [] [] [] []) as v. generalize fs at 1 3 as l. induction l as [|d l IHl]; intros v H Hn Hd; cbn [foldM] in H; [injection H as <-; apply Hn|].
    destruct (visit fuel v d) as [v'|] eqn:E; cbn [bind] in H; [|discriminate]. apply (IHl v' H); [apply (visit_sound fs fuel d v v' (Hd d (or_introl eq_refl)) E Hn) | intros x Hx; apply Hd; right; exact Hx].
  Qed.
  Lemma covered_alike fs u d d' : names_tell rels attr fs -> (forall s, In s (u_seen u) -> exists c, fname c = s /\ done fs u c) -> needed fs d -> needed fs d' -> fname d = fname d' -> covered u d' -> covered u d.
  Proof.
    intros Ht Hs Hd Hd' E [H|[H1 H2]]; [left; rewrite E; exact H|]. destruct (Ht d d' Hd Hd' E) as (K & _ & M). right. rewrite K. split; [exact H1|]. rewrite H1 in K. destruct d; try discriminate K. destruct d'; try discriminate H1. cbn in M. injection M as M. cbn [unslice] in *. rewrite M. exact H2.
  Qed.
  Theorem C69_all_used fuel fs u r n : categorize_features rels attr fuel fs = Ok u -> names_tell rels attr fs -> uses attr fs r n -> In n (recorded u r).
  Proof.
    intros H Ht (g & (f & Hf & Hr) & Hg). destruct (categorize_covers _ _ _ H) as [Hs Hc].
    assert (needed fs f) as Hn by (exists f; split; [exact Hf | apply reaches_refl]). assert (covered u f) as Hcf by (apply Hc; exact Hf). clear Hf. induction Hr as [g|f d g Hd Hr IH].
    - destruct Hcf as [Hin|[K _]]; [|exfalso; destruct g; try discriminate K; contradiction]. destruct (Hs _ Hin) as (c & E & (Hc1 & Hc2 & _)). apply Hc2. apply (Ht c g Hc1 Hn E). exact Hg.
    - pose proof (dep_needed fs f d Hn Hd) as Hdn. apply IH; [exact Hg | exact Hdn|]. destruct Hcf as [Hin|[K Hin]].
      + destruct (Hs _ Hin) as (c & E & (Hc1 & _ & Hc3)). destruct (Ht c f Hc1 Hn E) as (_ & _ & M). assert (In (fname d) (map fname (fdeps c))) as Hd' by (rewrite M; apply in_map; exact Hd). apply in_map_iff in Hd' as (d' & E' & Hd'). eapply covered_alike; [exact Ht | exact Hs | exact Hdn | eapply dep_needed; [exact Hc1 | exact Hd'] | symmetry; exact E' | apply Hc3; exact Hd'].
      + destruct f as [| | | | |b i nm]; try discriminate K. cbn in Hd. destruct Hd as [<-|[]]. left. exact Hin.
  Qed.

  (** the features are always looked through to the end *)
  Lemma visit_fuel fuel : forall f u, fsize f < fuel -> exists u', visit fuel u f = Ok u'.
  Proof.
    induction fuel as [|fuel IH]; intros f u Hf; [lia|]. rewrite visit_eq. destruct (mem_str _ _); [eauto|]. assert (forall d, In d (fdeps (unslice f)) -> fsize d < fuel) as Hd. { intros d Hd. apply fsize_dep in Hd. assert (fsize (unslice f) <= fsize f) as H by (destruct f; cbn [unslice fsize]; lia). lia. }
    revert Hd. generalize (note u (unslice f)) as v. induction (fdeps (unslice f)) as [|d l IHl]; intros v Hd; cbn [foldM]; [eauto|]. destruct (IH d v (Hd d (or_introl eq_refl))) as (v' & ->). cbn [bind]. apply IHl. intros x Hx. apply Hd. right. exact Hx.
  Qed.
  Theorem C69_returns fuel fs : (forall f, In f fs -> fsize f < fuel) -> exists u, categorize_features rels attr fuel fs = Ok u.
  Proof.
    intros H. unfold categorize_features. generalize (mkUsed [] [] [] [] []) as v. induction fs as [|d l IHl]; intros v; cbn [foldM]; [eauto|]. destruct (visit_fuel fuel d v (H d (or_introl eq_refl))) as (v' & ->). cbn [bind]. apply IHl. intros x Hx. apply H. right. exact Hx.
  Qed.
End Unused.

(** ** The lists in the warning *)
Lemma unused_spec l u n : In n (get_unused l u) <-> In n l /\ ~ In n u.
Proof.
  unfold get_unused. split.
  - intros H. apply (Permutation_in _ (isort_perm str_leb _)), dedup_In in H; [|exact String.eqb_spec]. destruct H as [H _]. apply filter_In in H as [H1 H2]. split; [exact H1|]. apply negb_true_iff, mem_str_nIn in H2. exact H2.
  - intros [H1 H2]. apply (Permutation_in _ (Permutation_sym (isort_perm str_leb _))), dedup_In; [exact String.eqb_spec|]. split; [|intros []]. apply filter_In. split; [exact H1|]. apply negb_true_iff, mem_str_nIn. exact H2.
Qed.
Definition before (x y : string) : Prop := String.compare x y = Lt.
Lemma unused_sorted l u : StronglySorted before (get_unused l u).
Proof.
  unfold get_unused. set (d := dedup_by _ _ _). assert (NoDup (isort str_leb d)) as Hn by (eapply Permutation_NoDup; [apply Permutation_sym, isort_perm | apply dedup_NoDup; exact String.eqb_spec]).
  pose proof (isort_sorted str_leb str_leb_total str_leb_trans d) as Hs. induction Hs as [|a m Hs IH Hf]; [constructor|]. inversion Hn as [|? ? Ha Hm]; subst. constructor; [apply IH; exact Hm|]. rewrite Forall_forall in *. intros x Hx. specialize (Hf x Hx). unfold str_leb in Hf. unfold before.
  destruct (String.compare a x) eqn:E; [|reflexivity|discriminate]. apply String.compare_eq_iff in E. subst x. contradiction.
Qed.

Section Warning.
  Variable rels : list relationship.
  Variable attr : prim -> pattr.
  Variable lower : string -> string.
  Variable known : list (string * prim).
  Variables trans agg groupby where_ : option (list parg).
  Definition given (r : role) : list parg := match match r with Transform => trans | Aggregation => agg | Groupby => groupby | Where => where_ end with Some l => l | None => [] end.
  Definition listed (un : list (list string)) (r : role) : list string := nth (match r with Transform => 0 | Aggregation => 1 | Groupby => 2 | Where => 3 end) un [].
  Lemma listed_spec u r n : In n (listed (unused_primitives attr trans agg groupby where_ u) r) <-> (exists a, In a (given r) /\ specified_name attr a = n) /\ ~ In n (recorded u r).
  Proof.
    assert (forall g us, In n (unused_of attr g us) <-> (exists a, In a (match g with Some l => l | None => [] end) /\ specified_name attr a = n) /\ ~ In n us) as H.
    { intros [l|] us; cbn [unused_of]; [|split; [intros []|intros [(a & [] & _) _]]]. rewrite unused_spec, in_map_iff. split; intros [(a & H1 & H2) H]; (split; [exists a; split; assumption | exact H]). }
    destruct r; cbn [listed unused_primitives nth given recorded]; apply H.
  Qed.
  (** For every list of returned features in which a name tells how the feature is made: the warning names exactly the specified
      names under which no returned feature uses a primitive in that role, each once and in alphabetical order, and it is shown
      exactly when there is one. *)
  Theorem C69_warning fuel fs : names_tell rels attr fs -> (forall f, In f fs -> fsize f < fuel) ->
    exists u, categorize_features rels attr fuel fs = Ok u /\
      let un := unused_primitives attr trans agg groupby where_ u in
      (forall r n, In n (listed un r) <-> (exists a, In a (given r) /\ specified_name attr a = n) /\ ~ uses attr fs r n) /\
      (forall r, StronglySorted before (listed un r)) /\
      (warns un = true <-> exists r a, In a (given r) /\ ~ uses attr fs r (specified_name attr a)).
  Proof.
    intros Ht Hf. destruct (C69_returns rels attr fuel fs Hf) as (u & Hu). exists u. split; [exact Hu|].
    assert (forall r n, In n (listed (unused_primitives attr trans agg groupby where_ u) r) <-> (exists a, In a (given r) /\ specified_name attr a = n) /\ ~ uses attr fs r n) as Hl.
    { intros r n. rewrite listed_spec. split; intros [H1 H2]; (split; [exact H1|]); intros H; apply H2; [exact (C69_all_used rels attr fuel fs u r n Hu Ht H) | exact (C69_only_used rels attr fuel fs u r n Hu H)]. }
    cbn zeta. split; [exact Hl|]. split.
    - assert (forall g us, StronglySorted before (unused_of attr g us)) as H by (intros [l|] us; [apply unused_sorted | constructor]). intros r. destruct r; apply H.
    - assert (warns (unused_primitives attr trans agg groupby where_ u) = true <-> exists r n, In n (listed (unused_primitives attr trans agg groupby where_ u) r)) as ->.
      { unfold warns. rewrite existsb_exists. split.
        - intros ([|n l] & H & E); [discriminate|]. cbn [unused_primitives In] in H. destruct H as [H|[H|[H|[H|[]]]]]; [exists Transform|exists Aggregation|exists Groupby|exists Where]; exists n; cbn [listed nth unused_primitives]; rewrite H; left; reflexivity.
        - intros (r & n & H). exists (listed (unused_primitives attr trans agg groupby where_ u) r). split; [destruct r; cbn [listed nth unused_primitives In]; auto|]. destruct (listed _ r); [destruct H | reflexivity]. }
      split.
      + intros (r & n & H). apply Hl in H as ((a & Ha & <-) & H). exists r, a. split; assumption.
      + intros (r & a & Ha & H). exists r, (specified_name attr a). apply Hl. split; [exists a; split; [exact Ha | reflexivity] | exact H].
  Qed.
  (** Without any condition on names: a primitive the warning leaves out is used *)
  Theorem C69_not_listed_used fuel fs u r a p : categorize_features rels attr fuel fs = Ok u -> In a (given r) ->
    resolve lower known a = Ok p -> specified_name attr a = a_name (attr p) ->
    ~ In (a_name (attr p)) (listed (unused_primitives attr trans agg groupby where_ u) r) -> uses attr fs r (a_name (attr p)).
  Proof.
    intros Hu Ha _ Hs Hn. apply (C69_only_used rels attr fuel fs u r _ Hu). destruct (in_dec string_dec (a_name (attr p)) (recorded u r)) as [H|H]; [exact H|]. exfalso. apply Hn, listed_spec. split; [exists a; split; assumption | exact H].
  Qed.
End Warning.

(** ** A run *)
Definition u_known : list (string * prim) := [("sum", w_sum); ("absolute", w_abs); ("two", w_two)].
(** enough of str.lower for the names above *)
Definition u_lower (s : string) : string := if String.eqb s "Sum" then "sum" else s.
Definition u_unused rels trans agg groupby where_ (r : res (list feat)) : res (list (list string)) :=
  do fs <- r; do u <- categorize_features rels w_attr 20 fs; Ok (unused_primitives w_attr trans agg groupby where_ u).
(** Two is not used, and nothing is computed within groups *)
Example C69_nonvacuous :
  u_unused d_rels (Some [ByName "two"; ByPrim w_abs; ByName "two"]) (Some [ByName "sum"]) (Some [ByPrim w_two; ByPrim w_abs]) (Some [ByPrim w_sum]) (d_run (d_args 1) None) = Ok [["two"]; []; ["absolute"; "two"]; []] /\
  u_unused d_rels (Some [ByPrim w_abs]) (Some [ByName "sum"]) None (Some [ByPrim w_sum]) (d_run (d_args 2) (Some default_types)) = Ok [[]; []; []; []].
Proof. split; vm_compute; reflexivity. Qed.
(** features with different names satisfy the hypothesis of C69_warning *)
Lemma names_tell_distinct rels attr fs l : incl fs l -> (forall f d, In f l -> In d (fdeps f) -> In d l) -> NoDup (map (fname rels) l) -> names_tell rels attr fs.
Proof.
  intros Hi Hc Hn. assert (forall g, needed fs g -> In g l) as H. { intros g (f & Hf & Hr). apply Hi in Hf. induction Hr as [f|f d g Hd Hr IH]; [exact Hf|]. apply IH. apply (Hc f); assumption. }
  intros f g Hf Hg E. apply H in Hf, Hg. assert (f = g) as ->. { clear - Hn Hf Hg E. induction l as [|x l IH]; [destruct Hf|]. cbn [map] in Hn. inversion Hn as [|? ? Hx Hl]; subst. destruct Hf as [->|Hf], Hg as [->|Hg]; [reflexivity| | |apply IH; assumption]; exfalso; apply Hx; [rewrite E | rewrite <- E]; apply in_map; assumption. }
  split; [reflexivity|]. split; [intros; reflexivity | reflexivity].
Qed.
Definition t_age := FIdent "customers" "age" None.
Definition t_x := FIdent "sessions" "x" None.
Definition t_sum := FAgg w_sum [FTrans w_abs [t_x] None] [mkRel "customers" "id" "sessions" "cid"] true None None None.
Example C69_names_tell : names_tell d_rels w_attr [t_age; t_sum; FTrans w_two [t_age] None; FSlice (FTrans w_two [t_age] None) 1 None].
Proof.
  apply (names_tell_distinct _ _ _ [t_age; t_sum; FTrans w_two [t_age] None; FSlice (FTrans w_two [t_age] None) 1 None; FTrans w_abs [t_x] None; t_x]).
  - intros f Hf. cbn [In] in *. tauto.
  - intros f d Hf Hd. cbn [In] in Hf. destruct Hf as [<-|[<-|[<-|[<-|[<-|[<-|[]]]]]]]; cbv [fdeps t_age t_sum t_x app] in Hd; cbn [In] in Hd; repeat (destruct Hd as [<-|Hd]); try (destruct Hd); cbn [In]; repeat (first [left; reflexivity | right]).
  - set (l := map _ _). vm_compute in l. subst l. repeat constructor; cbn [In]; intuition discriminate.
Qed.
(** ** C69 as stated is false: a name in capitals is accepted and used, and yet reported *)
Theorem C69_capitals_refuted :
  resolve u_lower u_known (ByName "Sum") = Ok w_sum /\
  (exists fs, d_run (d_args 1) None = Ok fs /\ uses w_attr fs Aggregation (a_name (w_attr w_sum))) /\
  u_unused d_rels (Some [ByPrim w_abs]) (Some [ByName "Sum"]) None None (d_run (d_args 1) None) = Ok [[]; ["Sum"]; []; []].
Proof.
  split; [reflexivity|]. split; [|vm_compute; reflexivity].
  eexists. split; [vm_compute; reflexivity|]. eexists. split; [eexists; split; [right; left; reflexivity | constructor]|]. cbn [applies]. split; reflexivity.
Qed.
(** ... and a variable called like a feature hides it *)
Definition h_schema := [("sessions", [("id", YIndex); ("cid", YId); ("ABSOLUTE(age)", YNumeric)]); ("customers", [("id", YIndex); ("age", YNumeric)])].
Definition h_rels := [mkRel "customers" "id" "sessions" "cid"].
Definition h_run := w_dfs ["sessions"; "customers"] (w_vars h_schema) (w_types h_schema) (fun _ _ => []) h_rels (w_args "customers" [w_sum] [w_abs] [] 1 [] [] []) None 4 6.
Theorem C69_name_refuted :
  deepest h_rels h_run = Ok [("age", Ok 0); ("SUM(sessions.ABSOLUTE(age))", Ok 1); ("ABSOLUTE(age)", Ok 1)] /\
  u_unused h_rels (Some [ByName "absolute"]) (Some [ByName "sum"]) None None h_run = Ok [["absolute"]; []; []; []] /\
  exists fs, h_run = Ok fs /\ uses w_attr fs Transform "absolute".
Proof.
  split; [vm_compute; reflexivity|]. split; [vm_compute; reflexivity|].
  eexists. split; [vm_compute; reflexivity|]. eexists. split; [eexists; split; [right; right; left; reflexivity | constructor]|]. cbn [applies]. split; reflexivity.
Qed.

Print Assumptions C69_only_used.
Print Assumptions C69_all_used.
Print Assumptions C69_returns.
Print Assumptions C69_warning.
Print Assumptions C69_not_listed_used.
Print Assumptions C69_capitals_refuted.
Print Assumptions C69_name_refuted.
