(** C41, C42: equality of entity sets. *)
From Verif Require Import Base BaseFacts M_Schema M_Table M_LastTime M_Entities S_Entities.
Local Open Scope string_scope.
Local Open Scope list_scope.

Lemma vtype_eqb_spec a b : reflect (a = b) (vtype_eqb a b).
Proof. unfold vtype_eqb. destruct (vtype_eq_dec a b); constructor; assumption. Qed.
Lemma dtype_eqb_spec a b : reflect (a = b) (dtype_eqb a b).
Proof. unfold dtype_eqb. destruct (dtype_eq_dec a b); constructor; assumption. Qed.
Lemma strs_eqb_spec a b : reflect (a = b) (strs_eqb a b).
Proof. unfold strs_eqb. destruct (list_eq_dec String.string_dec a b); constructor; assumption. Qed.
Lemma opt_str_eqb_spec a b : reflect (a = b) (opt_str_eqb a b).
Proof. destruct a as [a|], b as [b|]; cbn; try (constructor; congruence). destruct (String.eqb_spec a b); constructor; congruence. Qed.
Lemma rel_eqb_spec' a b : reflect (a = b) (rel_eqb a b).
Proof.
  destruct a as [a1 a2 a3 a4], b as [b1 b2 b3 b4]. unfold rel_eqb. cbn.
  destruct (String.eqb_spec a1 b1), (String.eqb_spec a3 b3), (String.eqb_spec a2 b2), (String.eqb_spec a4 b4); cbn; constructor; congruence.
Qed.

Lemma keys_same_length {V W} (a : list (string * V)) (b : list (string * W)) :
  NoDup (map fst a) -> NoDup (map fst b) -> List.length a = List.length b -> incl (map fst a) (map fst b) -> incl (map fst b) (map fst a).
Proof. intros Ha Hb Hl Hi. apply NoDup_length_incl; [exact Ha | rewrite !map_length; lia | exact Hi]. Qed.

Lemma dict_eqb_iff a b : NoDup (map fst a) -> NoDup (map fst b) ->
  dict_eqb a b = true <-> forall k, dget String.eqb k a = dget String.eqb k b.
Proof.
  intros Ha Hb. unfold dict_eqb. rewrite andb_true_iff, Nat.eqb_eq, forallb_forall. split.
  - intros [Hl Hf] k.
    assert (forall k v, dget String.eqb k a = Some v -> dget String.eqb k b = Some v) as H.
    { intros k0 v H. apply (dget_In _ String.eqb_spec) in H. specialize (Hf _ H). cbn in Hf. destruct (dget String.eqb k0 b) as [w|]; [|discriminate].
      destruct (strs_eqb_spec v w); congruence. }
    destruct (dget String.eqb k a) as [v|] eqn:E; [symmetry; auto|]. symmetry. apply (dget_None _ String.eqb_spec). apply (dget_None _ String.eqb_spec) in E.
    intros Hin. apply E. apply (keys_same_length a b Ha Hb Hl); [|exact Hin].
    intros x Hx. apply in_map_iff in Hx as ([x' v] & <- & Hx). apply (dget_NoDup_In _ String.eqb_spec) in Hx; [|exact Ha]. apply H in Hx.
    apply (dget_In _ String.eqb_spec) in Hx. apply (in_map fst) in Hx. exact Hx.
  - intros H. split.
    + apply Nat.le_antisymm; rewrite <- (map_length fst a), <- (map_length fst b); apply NoDup_incl_length; try assumption; intros x Hx.
      * destruct (dget String.eqb x b) as [v|] eqn:E; [apply (dget_In _ String.eqb_spec) in E; apply (in_map fst) in E; exact E|].
        rewrite <- H in E. apply (dget_None _ String.eqb_spec) in E. contradiction.
      * destruct (dget String.eqb x a) as [v|] eqn:E; [apply (dget_In _ String.eqb_spec) in E; apply (in_map fst) in E; exact E|].
        rewrite H in E. apply (dget_None _ String.eqb_spec) in E. contradiction.
    + intros [k v] Hin. cbn. rewrite <- H, (dget_NoDup_In _ String.eqb_spec k v a Ha Hin). destruct (strs_eqb_spec v v); congruence.
Qed.

Lemma var_eqb_iff a b v w : var_eqb a b v w = true <-> v_type v = v_type w /\ v_id v = v_id w /\ a = b.
Proof. unfold var_eqb. destruct (vtype_eqb_spec (v_type v) (v_type w)), (String.eqb_spec (v_id v) (v_id w)), (String.eqb_spec a b); cbn; intuition congruence. Qed.

Lemma ent_eqb_iff a b : NoDup (map fst (n_sec a)) -> NoDup (map fst (n_sec b)) -> NoDup (map v_id (n_vars a)) -> NoDup (map v_id (n_vars b)) ->
  n_id a = n_id b -> ent_eqb a b = true <-> same_entity a b.
Proof.
  intros Ha Hb Hva Hvb Hid. unfold ent_eqb, vars_eqb, same_entity. rewrite !andb_true_iff, dict_eqb_iff by assumption.
  assert (opt_str_eqb (n_time a) (n_time b) = true <-> n_time a = n_time b) as -> by (destruct (opt_str_eqb_spec (n_time a) (n_time b)); intuition congruence).
  rewrite String.eqb_eq, Nat.eqb_eq, !forallb_forall. split.
  - intros [[[H1 H2] H3] [[H4 H5] H6]]. repeat split; auto; intros (v & Hv & Hi & Ht).
    + specialize (H5 v Hv). apply existsb_exists in H5 as (w & Hw & E). apply var_eqb_iff in E as (E1 & E2 & _). exists w. repeat split; [exact Hw | congruence | congruence].
    + specialize (H6 v Hv). apply existsb_exists in H6 as (w & Hw & E). apply var_eqb_iff in E as (E1 & E2 & _). exists w. repeat split; [exact Hw | congruence | congruence].
  - intros (H1 & H2 & H3 & H4). repeat split; auto.
    + apply Nat.le_antisymm; rewrite <- (map_length v_id (n_vars a)), <- (map_length v_id (n_vars b)); apply NoDup_incl_length; try assumption; intros x Hx;
        apply in_map_iff in Hx as (v & <- & Hv).
      * destruct (proj1 (H4 (v_id v) (v_type v))) as (w & Hw & E & _); [exists v; auto|]. rewrite <- E. apply in_map. exact Hw.
      * destruct (proj2 (H4 (v_id v) (v_type v))) as (w & Hw & E & _); [exists v; auto|]. rewrite <- E. apply in_map. exact Hw.
    + intros v Hv. destruct (proj1 (H4 (v_id v) (v_type v))) as (w & Hw & E & E'); [exists v; auto|]. apply existsb_exists. exists w. split; [exact Hw|]. apply var_eqb_iff. auto.
    + intros v Hv. destruct (proj2 (H4 (v_id v) (v_type v))) as (w & Hw & E & E'); [exists v; auto|]. apply existsb_exists. exists w. split; [exact Hw|]. apply var_eqb_iff. auto.
Qed.

Section Eq.
  Variables (a b : eset).
  Hypotheses (da : dicts a) (db : dicts b).

  (** C41: a == b is true exactly when the entities have the same schema and every relationship of [a] is one of [b] *)
  Theorem C41_equal_exact : eset_eqb a b = true <-> same_entities a b /\ incl (s_rels a) (s_rels b).
  Proof.
    destruct da as [Hka Hea], db as [Hkb Heb]. unfold eset_eqb, eset_eqb_with, same_entities. rewrite !andb_true_iff, Nat.eqb_eq, !forallb_forall.
    assert (forall id x y, dget String.eqb id (s_ents a) = Some x -> dget String.eqb id (s_ents b) = Some y -> ent_eqb x y = true <-> same_entity x y) as He.
    { intros id x y Hx Hy. apply (dget_In _ String.eqb_spec) in Hx, Hy. destruct (Hea _ _ Hx) as (E1 & S1 & V1), (Heb _ _ Hy) as (E2 & S2 & V2). apply ent_eqb_iff; congruence. }
    assert ((forall r, In r (s_rels a) -> existsb (rel_eqb r) (s_rels b) = true) <-> incl (s_rels a) (s_rels b)) as Hr.
    { split; intros H r Hin.
      - apply H in Hin. apply existsb_exists in Hin as (r' & Hr' & E). destruct (rel_eqb_spec' r r'); congruence.
      - apply existsb_exists. exists r. split; [apply H; exact Hin|]. destruct (rel_eqb_spec' r r); congruence. }
    rewrite Hr. split.
    - intros [[Hl Hf] Hrels]. split; [|exact Hrels]. intros id.
      assert (forall id x, dget String.eqb id (s_ents a) = Some x -> exists y, dget String.eqb id (s_ents b) = Some y /\ same_entity x y) as H.
      { intros id0 x Hx. pose proof Hx as Hx'. apply (dget_In _ String.eqb_spec) in Hx'. specialize (Hf _ Hx'). cbn in Hf.
        destruct (dget String.eqb id0 (s_ents b)) as [y|] eqn:Ey; [|discriminate]. exists y. split; [reflexivity|]. apply (He id0); assumption. }
      destruct (dget String.eqb id (s_ents a)) as [x|] eqn:Ex.
      + destruct (H id x Ex) as (y & -> & Hs). exact Hs.
      + destruct (dget String.eqb id (s_ents b)) as [y|] eqn:Ey; [|exact I]. apply (dget_None _ String.eqb_spec) in Ex. apply Ex.
        apply (keys_same_length (s_ents a) (s_ents b) Hka Hkb Hl).
        * intros k Hk. apply in_map_iff in Hk as ([k' x] & <- & Hk). apply (dget_NoDup_In _ String.eqb_spec) in Hk; [|exact Hka]. destruct (H _ _ Hk) as (y' & Hy' & _).
          apply (dget_In _ String.eqb_spec) in Hy'. apply (in_map fst) in Hy'. exact Hy'.
        * apply (dget_In _ String.eqb_spec) in Ey. apply (in_map fst) in Ey. exact Ey.
    - intros [H Hrels]. split; [|exact Hrels]. split.
      + apply Nat.le_antisymm; rewrite <- (map_length fst (s_ents a)), <- (map_length fst (s_ents b)); apply NoDup_incl_length; try assumption; intros x Hx; specialize (H x).
        * destruct (dget String.eqb x (s_ents b)) as [v|] eqn:E; [apply (dget_In _ String.eqb_spec) in E; apply (in_map fst) in E; exact E|].
          destruct (dget String.eqb x (s_ents a)) eqn:E'; [contradiction|]. apply (dget_None _ String.eqb_spec) in E'. contradiction.
        * destruct (dget String.eqb x (s_ents a)) as [v|] eqn:E; [apply (dget_In _ String.eqb_spec) in E; apply (in_map fst) in E; exact E|].
          destruct (dget String.eqb x (s_ents b)) eqn:E'; [contradiction|]. apply (dget_None _ String.eqb_spec) in E'. contradiction.
      + intros [id x] Hin. cbn. pose proof (dget_NoDup_In _ String.eqb_spec id x _ Hka Hin) as Ex. specialize (H id). rewrite Ex in H.
        destruct (dget String.eqb id (s_ents b)) as [y|] eqn:Ey; [|contradiction]. apply (He id x y Ex Ey). exact H.
  Qed.
End Eq.

Lemma same_entity_refl e : same_entity e e.
Proof. unfold same_entity. intuition. Qed.
Lemma same_entity_sym a b : same_entity a b -> same_entity b a.
Proof. intros (H1 & H2 & H3 & H4). repeat split; auto; intros H; apply H4; exact H. Qed.
Lemma same_entities_sym a b : same_entities a b -> same_entities b a.
Proof. intros H id. specialize (H id). destruct (dget String.eqb id (s_ents a)), (dget String.eqb id (s_ents b)); auto using same_entity_sym. Qed.

Theorem C41_reflexive s : dicts s -> eset_eqb s s = true.
Proof.
  intros H. apply C41_equal_exact; auto. split; [|intros r Hr; exact Hr]. intros id. destruct (dget String.eqb id (s_ents s)); [apply same_entity_refl | exact I].
Qed.
(** symmetric when both have the same number of relationships, without repetition *)
Theorem C41_symmetric_partial a b : dicts a -> dicts b -> NoDup (s_rels a) -> List.length (s_rels a) = List.length (s_rels b) ->
  eset_eqb a b = true -> eset_eqb b a = true.
Proof.
  intros Ha Hb Hn Hl H. apply C41_equal_exact in H as [H1 H2]; auto. apply C41_equal_exact; auto. split; [apply same_entities_sym; exact H1|].
  apply NoDup_length_incl; [exact Hn | lia | exact H2].
Qed.
Theorem C41_transitive a b c : dicts a -> dicts b -> dicts c -> eset_eqb a b = true -> eset_eqb b c = true -> eset_eqb a c = true.
Proof.
  intros Ha Hb Hc H H'. apply C41_equal_exact in H as [H1 H2], H' as [H3 H4]; auto. apply C41_equal_exact; auto. split; [|intros r Hr; auto].
  intros id. specialize (H1 id). specialize (H3 id). destruct (dget String.eqb id (s_ents a)), (dget String.eqb id (s_ents b)), (dget String.eqb id (s_ents c)); try contradiction; auto.
  destruct H1 as (A1 & A2 & A3 & A4), H3 as (B1 & B2 & B3 & B4). split; [congruence|]. split; [congruence|]. split; [intros k; congruence|].
  intros i ty. rewrite A4. apply B4.
Qed.

(** ** Concrete entity sets *)
Definition eq_cust (v : Z) : ent :=
  mkEnt "customers" (mkTab [("id", DInt); ("age", DInt)] [[("id", VNum 1); ("age", VNum v)]])
    [mkVar "id" TIndex [] None; mkVar "age" TNumeric [] None] "id" None [] None None.
Definition eq_sess : ent :=
  mkEnt "sessions" (mkTab [("sid", DInt); ("cid", DInt)] [[("sid", VNum 1); ("cid", VNum 1)]])
    [mkVar "sid" TIndex [] None; mkVar "cid" TId [] None] "sid" None [] None None.
Definition eq_rel : relationship := mkRel "customers" "id" "sessions" "cid".
Definition eq_es (v : Z) (rels : list relationship) : eset := mkSet "es" [("customers", eq_cust v); ("sessions", eq_sess)] rels None None.

Lemma eq_es_dicts v rels : dicts (eq_es v rels).
Proof.
  split; [cbn; repeat (constructor; [cbn; intuition discriminate|]); constructor|].
  intros id e [E|[E|[]]]; injection E as <- <-; cbn; repeat split; repeat (constructor; [cbn; intuition discriminate|]); constructor.
Qed.
Example C41_nonvacuous : dicts (eq_es 1 [eq_rel]) /\ eset_eqb (eq_es 1 [eq_rel]) (eq_es 2 [eq_rel]) = true /\ eset_eqb (eq_es 1 [eq_rel]) (mkSet "es" [] [] None None) = false.
Proof. split; [apply eq_es_dicts | split; reflexivity]. Qed.

(** equality is not symmetric: the left side may have fewer relationships *)
Theorem C41_symmetric_refuted : exists a b, dicts a /\ dicts b /\ eset_eqb a b = true /\ eset_eqb b a = false /\ s_rels a <> s_rels b.
Proof. exists (eq_es 1 []), (eq_es 1 [eq_rel]). split; [apply eq_es_dicts|]. split; [apply eq_es_dicts|]. split; [reflexivity|]. split; [reflexivity | discriminate]. Qed.

(** ** C42: the deep comparison never looks at the values of tables that have rows *)
Theorem C42_data_never_compared : forall t1 t2, t_rows t1 <> [] -> t_rows t2 <> [] -> tables_eqb t1 t2 = true.
Proof. intros [c1 [|r1 l1]] [c2 [|r2 l2]] H1 H2; try contradiction. reflexivity. Qed.
Theorem C42_deep_equality_refuted : exists a b, dicts a /\ dicts b /\ eset_deep_eqb a b = true /\ ~ same_data a b.
Proof.
  exists (eq_es 1 [eq_rel]), (eq_es 2 [eq_rel]). split; [apply eq_es_dicts|]. split; [apply eq_es_dicts|]. split; [vm_compute; reflexivity|].
  intros H. specialize (H "customers" (eq_cust 1) (eq_cust 2) eq_refl eq_refl). discriminate.
Qed.

(** what deep equality does guarantee, for entity sets whose tables all have rows *)
Lemma series_eqb_iff a b : series_eqb a b = true <-> a = b.
Proof.
  destruct a as [a|], b as [b|]; cbn; try (split; intros; congruence). rewrite andb_true_iff, Nat.eqb_eq. revert b.
  induction a as [|[x y] a IH]; intros [|[x' y'] b]; cbn [List.length combine forallb fst snd]; try (split; [intros [H _]; discriminate | intros; congruence]).
  - split; auto.
  - rewrite andb_true_iff. specialize (IH b). destruct (val_eqb_spec x x'), (val_eqb_spec y y'); cbn [andb]; split.
    1: { intros [H1 [_ H2]]. assert (Some a = Some b) by (apply IH; split; [lia | exact H2]). congruence. }
    1: { intros H. injection H as <- <- <-. split; [reflexivity|]. split; [reflexivity|]. apply IH. reflexivity. }
    all: intros H; try (destruct H as [_ [H _]]; discriminate); congruence.
Qed.
Theorem C42_deep_equality_partial a b : dicts a -> dicts b ->
  (forall id e, In (id, e) (s_ents a ++ s_ents b) -> t_rows (n_tab e) <> []) ->
  eset_deep_eqb a b = true ->
  same_entities a b /\ incl (s_rels a) (s_rels b) /\
  forall id x y, dget String.eqb id (s_ents a) = Some x -> dget String.eqb id (s_ents b) = Some y ->
    n_lti x = n_lti y /\
    forall v, In v (n_vars x) -> exists w, In w (n_vars y) /\ v_id w = v_id v /\ v_type w = v_type v /\ forall z, In z (v_values v) <-> In z (v_values w).
Proof.
  intros Ha Hb Hrows H.
  assert (forall id x y, dget String.eqb id (s_ents a) = Some x -> dget String.eqb id (s_ents b) = Some y -> ent_deep_eqb x y = true) as Hd.
  { intros id x y Hx Hy. unfold eset_deep_eqb, eset_eqb_with in H. rewrite !andb_true_iff, !forallb_forall in H. destruct H as [[_ H] _].
    apply (dget_In _ String.eqb_spec) in Hx. specialize (H _ Hx). cbn in H. rewrite Hy in H. exact H. }
  assert (eset_eqb a b = true) as He.
  { unfold eset_deep_eqb, eset_eqb, eset_eqb_with in *. rewrite !andb_true_iff in *. destruct H as [[H1 H2] H3]. split; [split|]; auto. rewrite forallb_forall in *.
    intros ie Hin. specialize (H2 ie Hin). destruct (dget String.eqb (fst ie) (s_ents b)); [|discriminate]. unfold ent_deep_eqb in H2. rewrite !andb_true_iff in H2. apply H2. }
  apply C41_equal_exact in He as [H1 H2]; auto. split; [exact H1|]. split; [exact H2|]. intros id x y Hx Hy. specialize (Hd id x y Hx Hy).
  unfold ent_deep_eqb in Hd. rewrite !andb_true_iff in Hd. destruct Hd as [[[Hd1 Hd2] Hd3] Hd4]. split; [apply series_eqb_iff; exact Hd2|].
  rewrite forallb_forall in Hd4. intros v Hv. specialize (Hd4 v Hv). destruct (find _ (n_vars y)) as [w|] eqn:Ef; [|discriminate]. apply find_some in Ef as [Hw E]. apply var_eqb_iff in E as (E1 & E2 & _).
  exists w. repeat split; auto; rewrite andb_true_iff, !forallb_forall in Hd4; destruct Hd4 as [D1 D2]; intros Hz; apply mem_val_In; auto.
Qed.
Example C42_nonvacuous : eset_deep_eqb (eq_es 1 [eq_rel]) (eq_es 1 [eq_rel]) = true /\ (forall id e, In (id, e) (s_ents (eq_es 1 [eq_rel]) ++ s_ents (eq_es 1 [eq_rel])) -> t_rows (n_tab e) <> []).
Proof. split; [vm_compute; reflexivity|]. intros id e H. cbn in H. destruct H as [E|[E|[E|[E|[]]]]]; injection E as <- <-; discriminate. Qed.

Print Assumptions C41_equal_exact.
Print Assumptions C41_reflexive.
Print Assumptions C41_symmetric_partial.
Print Assumptions C41_transitive.
Print Assumptions C41_symmetric_refuted.
Print Assumptions C42_data_never_compared.
Print Assumptions C42_deep_equality_refuted.
Print Assumptions C42_deep_equality_partial.
