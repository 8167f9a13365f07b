(** C44: what holds of the relationships of an entity set after any calls of add_relationship *)
From Verif Require Import Base BaseFacts M_Schema M_Table M_LastTime M_Entities S_Entities P_Equality L_Entities.
Local Open Scope string_scope.
Local Open Scope list_scope.

Lemma find_iff id vs : (exists v, get_var id vs = Ok v) <-> exists v, In v vs /\ v_id v = id.
Proof.
  unfold get_var. split.
  - intros (v & H). destruct (find _ vs) as [w|] eqn:E; [|discriminate]. apply find_some in E as [E1 E2]. apply String.eqb_eq in E2. eauto.
  - intros (v & H1 & H2). destruct (find (fun v0 => v_id v0 =? id) vs) as [w|] eqn:E; [eauto|]. apply (find_none _ _ E) in H1. apply String.eqb_neq in H1. congruence.
Qed.
Lemma replace_first_ids id v' vs : v_id v' = id -> map v_id (replace_first id v' vs) = map v_id vs.
Proof. intros H. induction vs as [|v vs IH]; [reflexivity|]. cbn [replace_first]. destruct (String.eqb_spec (v_id v) id) as [E|]; cbn [map]; congruence. Qed.

Section C44.
  Variables to_numeric to_datetime : list val -> res (dtype * list val).
  Notation relate := (relate to_numeric to_datetime).
  Notation add_relationship := (add_relationship to_numeric to_datetime).
  Notation ensure_type := (ensure_type to_numeric to_datetime).

  (** [calls rs s]: the entity set after the calls, whether they succeeded or not *)
  Definition calls (rs : list relationship) (s : eset) : eset := fold_left (fun s r => fst (relate r s)) rs s.

  (** variable ids are kept *)
  Definition ids_kept (s s' : eset) : Prop := forall id e e', dget String.eqb id (s_ents s) = Some e -> dget String.eqb id (s_ents s') = Some e' -> map v_id (n_vars e') = map v_id (n_vars e).
  Lemma ensure_ids eid vid ty s s' r : ensure_type eid vid ty s = (s', r) -> ids_kept s s'.
  Proof.
    intros H. unfold M_Entities.ensure_type in H. unfold sbind, sget, slift in H.
    destruct (sent eid s) as [e|x] eqn:E; [|injection H as <- _; intros id e1 e2 A B; congruence].
    destruct (get_var vid (n_vars e)) as [v|] eqn:Ev; [|injection H as <- _; intros id e1 e2 A B; congruence].
    destruct (vtype_eqb (v_type v) ty); [unfold sret in H; injection H as <- _; intros id e1 e2 A B; congruence|].
    unfold on_entity in H. rewrite E in H. unfold convert_variable_type, sbind, eget, sret, slift, emod in H. cbn in H. rewrite Ev in H. cbn in H.
    injection H as <- _. intros id e1 e2 A B. cbn in B. apply sent_In in E. destruct (String.eqb_spec id eid) as [Hd|Hd].
    - subst id. rewrite (dget_dset_same _ String.eqb_spec) in B. injection B as <-. rewrite E in A. injection A as <-. cbn. apply replace_first_ids. cbn.
      unfold get_var in Ev. destruct (find _ _) as [w|] eqn:Ef in Ev; [|discriminate]. injection Ev as <-. apply find_some in Ef as [_ Ef]. apply String.eqb_eq in Ef. exact Ef.
    - rewrite (dget_dset_other _ String.eqb_spec) in B by congruence. congruence.
  Qed.
  Lemma ids_kept_trans a b c : vars_only a b -> ids_kept a b -> ids_kept b c -> ids_kept a c.
  Proof. intros Hv H1 H2 id e e' A C. destruct (vars_only_get _ _ _ _ Hv A) as (vs & B). rewrite (H2 _ _ _ B C). apply (H1 _ _ _ A B). Qed.

  Lemma vars_types s s' : vars_only s s' -> ids_kept s s' -> types_only s s'.
  Proof.
    intros (H1 & H2 & H3 & H4 & H5) Hi. repeat split; auto. intros id. specialize (H5 id). specialize (Hi id).
    destruct (dget String.eqb id (s_ents s)) as [e|], (dget String.eqb id (s_ents s')) as [e'|]; auto.
    assert (map v_id (n_vars e') = map v_id (n_vars e)) as Hm by (apply Hi; reflexivity). rewrite H5 in *. cbn in *. repeat split; auto.
  Qed.

  (** a direct computation of add_relationship when the link is valid or not *)
  Lemma ensure_Ok eid vid ty s e v : dget String.eqb eid (s_ents s) = Some e -> get_var vid (n_vars e) = Ok v ->
    exists s', ensure_type eid vid ty s = (s', Ok tt).
  Proof.
    intros E Ev. unfold M_Entities.ensure_type, sbind, sget, slift, sent. rewrite E, Ev. destruct (vtype_eqb (v_type v) ty); [unfold sret; eauto|].
    unfold on_entity, sent. rewrite E. unfold convert_variable_type, sbind, eget, sret, slift, emod. cbn. rewrite Ev. eauto.
  Qed.

  Lemma linked_vars_only s s' r : vars_only s s' -> linked s r -> linked s' r.
  Proof.
    intros Hv (ce & pe & d & A & B & C1 & C2 & C3 & C4). destruct (vars_only_get _ _ _ _ Hv A) as (va & A'), (vars_only_get _ _ _ _ Hv B) as (vb & B').
    exists (with_vars va ce), (with_vars vb pe), d. cbn. auto 10.
  Qed.
  Lemma linked_rels s r x y : linked s r -> linked (with_meta x (with_rels y s)) r.
  Proof. intros H. exact H. Qed.

  Lemma NoDup_snoc {A} (l : list A) a : NoDup l -> ~ In a l -> NoDup (l ++ [a]).
  Proof. intros H Hn. induction H as [|b l Hb H IH]; cbn; [repeat constructor; auto|]. constructor; [rewrite in_app_iff; cbn in *; intuition congruence | apply IH; cbn in Hn; tauto]. Qed.

  (** *** One call *)
  Theorem C44_call_partial r s s' x : all_have_rows s -> good_rels s -> relate r s = (s', x) -> all_have_rows s' /\ good_rels s'.
  Proof.
    intros Hw [Hn Hl] H. unfold M_Entities.relate in H. apply sbind_any in H as [(u & s1 & E & H)|(e & E & _)]; [|apply make_relationship_state in E as ->; split; [exact Hw | split; [exact Hn | exact Hl]]].
    apply make_relationship_Ok in E as (-> & pe0 & ce0 & Ep & Ec & _ & _ & Ei). apply sent_In in Ep, Ec.
    apply add_relationship_cases in H as [(_ & -> & _)|[(_ & _ & Hv)|(Hnew & _ & s1 & ce & pe & d & Hv & -> & Ce & Pe & Cn & Cd & Pd)]]; [| | |exact (Hw (r_ce r))].
    - split; [exact Hw | split; assumption].
    - split; [eapply with_rows_vars_only; eassumption|]. destruct Hv as (h1 & h2 & hr). split; rewrite h2; [exact Hn|].
      eapply Forall_impl; [|exact Hl]. intros r'. apply linked_vars_only. split; [exact h1 | split; [exact h2 | exact hr]].
    - split; [exact (with_rows_vars_only _ _ Hv Hw)|]. split; cbn [with_meta with_rels s_rels].
      + apply NoDup_snoc; assumption.
      + apply Forall_app. split.
        * eapply Forall_impl; [|exact Hl]. intros r' Hr. apply linked_rels. exact (linked_vars_only _ _ _ Hv Hr).
        * constructor; [|constructor]. apply linked_rels. exists ce, pe, d. repeat split; auto.
          destruct (vars_only_get' _ _ _ _ Hv Pe) as (e0 & E0 & ->). rewrite Ep in E0. injection E0 as <-. cbn. exact Ei.
  Qed.

  (** *** Any calls.  Missing from the full property: entities without rows (see the refutation below). *)
  Theorem C44_history_partial rs s : all_have_rows s -> good_rels s -> good_rels (calls rs s).
  Proof.
    revert s. induction rs as [|r rs IH]; intros s Hw Hg; [exact Hg|]. unfold calls in *. cbn [fold_left].
    destruct (relate r s) as [s' x] eqn:E. cbn [fst]. destruct (C44_call_partial _ _ _ _ Hw Hg E) as [Hw' Hg']. apply IH; assumption.
  Qed.

  (** *** A rejected call keeps everything but the types of two variables *)
  Theorem C44_rejected_partial r s s' x : all_have_rows s -> relate r s = (s', Err x) -> types_only s s'.
  Proof.
    intros Hw H. assert (types_only s s) as Hrefl.
    { repeat split. intros id. destruct (dget String.eqb id (s_ents s)); [repeat split | exact I]. }
    unfold M_Entities.relate in H. apply sbind_any in H as [(u & s1 & E & H)|(e & E & _)]; [|apply make_relationship_state in E as ->; exact Hrefl].
    apply make_relationship_state in E as ->.
    pose proof (add_relationship_cases to_numeric to_datetime _ _ _ _ (Hw (r_ce r)) H) as [(_ & -> & _)|[(_ & _ & Hv)|(_ & Hx & _)]]; [exact Hrefl | | discriminate].
    apply vars_types; [exact Hv|]. unfold M_Entities.add_relationship in H. unfold sbind at 1 in H. unfold sget at 1 in H.
    destruct (existsb (rel_eqb r) (s_rels s)); [unfold sret in H; discriminate|].
    assert (forall a, ids_kept a a) as Hrf by (intros a id e e' A B; congruence).
    apply sbind_any in H as [(ce & s1 & E & H)|(e & E & _)]; [|apply slift_state in E as ->; apply Hrf]. apply slift_state in E as ->.
    apply sbind_any in H as [(u1 & s1 & E & H)|(e & E & _)]; [|apply sguard_state in E as ->; apply Hrf]. apply sguard_state in E as ->.
    apply sbind_any in H as [(pe & s1 & E & H)|(e & E & _)]; [|apply slift_state in E as ->; apply Hrf]. apply slift_state in E as ->.
    apply sbind_any in H as [(u2 & s1 & E & H)|(e & E & _)]; [|exact (ensure_ids _ _ _ _ _ _ E)].
    pose proof (ensure_ids _ _ _ _ _ _ E) as K1. apply ensure_type_vars in E as V1.
    apply sbind_any in H as [(u3 & s2 & E2 & H)|(e & E2 & _)]; [|exact (ids_kept_trans _ _ _ V1 K1 (ensure_ids _ _ _ _ _ _ E2))].
    pose proof (ids_kept_trans _ _ _ V1 K1 (ensure_ids _ _ _ _ _ _ E2)) as K2. apply ensure_type_vars in E2 as V2.
    pose proof (vars_only_trans _ _ _ V1 V2) as V.
    apply sbind_any in H as [(s3 & s4 & E5 & H)|(e & E5 & _)]; [|unfold sget in E5; discriminate]. unfold sget in E5. injection E5 as <- <-.
    apply sbind_any in H as [(ce' & s4 & E5 & H)|(e & E5 & _)]; [|apply slift_state in E5 as ->; exact K2]. apply slift_Ok in E5 as [E5 ->].
    apply sbind_any in H as [(cd & s4 & E6 & H)|(e & E6 & _)]; [|apply slift_state in E6 as ->; exact K2]. apply slift_Ok in E6 as [E6 ->].
    apply sbind_any in H as [(pe' & s4 & E7 & H)|(e & E7 & _)]; [|apply slift_state in E7 as ->; exact K2]. apply slift_Ok in E7 as [E7 ->].
    apply sbind_any in H as [(pd & s4 & E8 & H)|(e & E8 & _)]; [|apply slift_state in E8 as ->; exact K2]. apply slift_Ok in E8 as [E8 ->].
    apply sent_In in E5. assert (t_rows (n_tab ce') <> []) as Hrows by (apply (with_rows_vars_only _ _ V Hw (r_ce r)); exact E5).
    cbv zeta in H. destruct (t_rows (n_tab ce')) as [|r0 l0] eqn:Er; [contradiction|]. cbv iota in H.
    apply sbind_any in H as [(u4 & s4 & E9 & H)|(e & E9 & _)]; [|unfold sret in E9; discriminate]. unfold sret in E9. injection E9 as <- _.
    apply sbind_any in H as [(u5 & s5 & E10 & H)|(e & E10 & _)]; [|apply sguard_state in E10 as ->; exact K2].
    unfold sbind, smod, reset_meta in H. discriminate.
  Qed.

  (** *** A call is accepted exactly when the link is acceptable (or known already) *)
  Theorem C44_accepted_iff_partial r s : all_have_rows s -> ~ In r (s_rels s) ->
    ((exists s', relate r s = (s', Ok tt)) <-> acceptable s r).
  Proof.
    intros Hw Hnew. split.
    - intros (s' & H). unfold M_Entities.relate in H. apply sbind_Ok in H as (u & s1 & E & H).
      apply make_relationship_Ok in E as (-> & pe0 & ce0 & Ep & Ec & Gp & Gc & Ei). apply sent_In in Ep, Ec. apply find_iff in Gp as (vp & Gp), Gc as (vc & Gc).
      apply add_relationship_cases in H as [(H & _)|[(_ & (e & H) & _)|(_ & _ & s1 & ce & pe & d & Hv & -> & Ce & Pe & Cn & Cd & Pd)]]; [contradiction | discriminate | | exact (Hw (r_ce r))].
      destruct (vars_only_get' _ _ _ _ Hv Pe) as (e0 & E0 & Q0). rewrite Ep in E0. injection E0 as <-.
      destruct (vars_only_get' _ _ _ _ Hv Ce) as (e1 & E1 & Q1). rewrite Ec in E1. injection E1 as <-. rewrite Q0 in Pd. rewrite Q1 in Cn, Cd. cbn in Pd, Cn, Cd.
      split; [exists ce0, pe0, d; repeat split; auto | split; [exists ce0, vc | exists pe0, vp]; tauto].
    - intros ((ce & pe & d & Ce & Pe & Ei & Cn & Cd & Pd) & (ce2 & vc & Ce2 & Gc) & (pe2 & vp & Pe2 & Gp)).
      rewrite Ce in Ce2. injection Ce2 as <-. rewrite Pe in Pe2. injection Pe2 as <-.
      assert (exists v, get_var (r_cv r) (n_vars ce) = Ok v) as (wc & Wc) by (apply find_iff; eauto).
      assert (exists v, get_var (r_pv r) (n_vars pe) = Ok v) as (wp & Wp) by (apply find_iff; eauto).
      unfold M_Entities.relate, make_relationship, sbind at 1. unfold sbind, sget, slift. unfold sent. rewrite Pe, Wp, Ce, Wc. unfold sguard. rewrite (proj2 (String.eqb_eq _ _) Ei).
      unfold M_Entities.add_relationship, sbind at 1. unfold sget at 1.
      destruct (existsb (rel_eqb r) (s_rels s)) eqn:Ed.
      { exfalso. apply existsb_exists in Ed as (r' & Hr & E). destruct (rel_eqb_spec' r r'); [subst; auto | discriminate]. }
      destruct (ensure_Ok (r_ce r) (r_cv r) TId s ce wc Ce Wc) as (s1 & E1).
      pose proof (ensure_type_vars _ _ _ _ _ _ _ _ E1) as V1. pose proof (ensure_ids _ _ _ _ _ _ E1) as K1.
      destruct (vars_only_get _ _ _ _ V1 Pe) as (vs1 & P1). pose proof (K1 _ _ _ Pe P1) as I1. cbn in I1.
      assert (exists v, get_var (r_pv r) vs1 = Ok v) as (wp1 & Wp1).
      { apply find_iff. destruct Gp as [Gp1 Gp2]. assert (In (r_pv r) (map v_id vs1)) as Hin by (rewrite I1, <- Gp2; apply in_map; exact Gp1).
        apply in_map_iff in Hin as (v & Hv1 & Hv2). eauto. }
      destruct (ensure_Ok (r_pe r) (r_pv r) TIndex s1 _ wp1 P1 Wp1) as (s2 & E2).
      pose proof (vars_only_trans _ _ _ V1 (ensure_type_vars _ _ _ _ _ _ _ _ E2)) as V.
      destruct (vars_only_get _ _ _ _ V Pe) as (vp2 & P2). destruct (vars_only_get _ _ _ _ V Ce) as (vc2 & C2).
      unfold sbind, slift, sent, sguard. rewrite Ce. rewrite (proj2 (String.eqb_neq (n_index ce) (r_cv r))) by congruence. cbn [negb]. rewrite Pe, E1, E2. unfold sget. rewrite C2. cbn [n_tab with_vars].
      rewrite Cd, P2. cbn [n_tab with_vars]. rewrite Pd. destruct (t_rows (n_tab ce)) as [|r0 l0] eqn:Er; [destruct (Hw _ _ Ce Er)|].
      cbn. destruct (dtype_eqb_spec d d); [|congruence]. unfold smod, reset_meta. cbn. eexists; reflexivity.
  Qed.

  (** adding a known relationship again changes nothing *)
  Theorem C44_again r s : In r (s_rels s) -> fst (relate r s) = s.
  Proof.
    intros Hin. unfold M_Entities.relate. destruct (sbind _ _ s) as [s' x] eqn:H. cbn. apply sbind_any in H as [(u & s1 & E & H)|(e & E & _)]; [|exact (make_relationship_state _ _ _ _ E)].
    apply make_relationship_state in E as ->. unfold M_Entities.add_relationship in H. unfold sbind at 1 in H. unfold sget at 1 in H.
    assert (existsb (rel_eqb r) (s_rels s) = true) as Ht by (apply existsb_exists; exists r; split; [exact Hin | destruct (rel_eqb_spec' r r); congruence]).
    rewrite Ht in H. unfold sret in H. congruence.
  Qed.
End C44.

(** ** Concrete entity sets *)
Definition nr (l : list val) : res (dtype * list val) := Ok (DFloat, l).
Definition dt (l : list val) : res (dtype * list val) := Ok (DDate, l).
Definition vr (i : string) (t : vtype) : variable := mkVar i t [] None.
Definition sess_e (d : dtype) (rows : list row) : ent :=
  mkEnt "sessions" (mkTab [("id", DInt); ("cid", d); ("x", DFloat)] rows) [vr "id" TIndex; vr "cid" TNumeric; vr "x" TNumeric] "id" None [] None None.
Definition cust_e : ent :=
  mkEnt "customers" (mkTab [("id", DInt); ("y", DObj)] [[("id", VNum 7); ("y", VNum 1)]]) [vr "id" TIndex; vr "y" TCategorical] "id" None [] None None.
Definition link_set (d : dtype) (rows : list row) : eset := mkSet "es" [("sessions", sess_e d rows); ("customers", cust_e)] [] None None.
Definition one_row : list row := [[("id", VNum 1); ("cid", VNum 7); ("x", VNum 3)]].
Definition link : relationship := mkRel "customers" "id" "sessions" "cid".

Example C44_nonvacuous :
  all_have_rows (link_set DInt one_row) /\ good_rels (link_set DInt one_row) /\ acceptable (link_set DInt one_row) link /\
  s_rels (calls nr dt [link; mkRel "customers" "id" "sessions" "x"; link; mkRel "sessions" "id" "customers" "id"] (link_set DInt one_row)) = [link].
Proof.
  split; [|split; [|split]].
  - intros id e H. cbn in H. destruct (id =? "sessions"); [injection H as <-; cbn; discriminate|]. destruct (id =? "customers"); [injection H as <-; cbn; discriminate | discriminate].
  - split; constructor.
  - split; [|split].
    + exists (sess_e DInt one_row), cust_e, DInt. repeat split; cbn; auto; discriminate.
    + exists (sess_e DInt one_row), (vr "cid" TNumeric). cbn. auto.
    + exists cust_e, (vr "id" TIndex). cbn. auto.
  - vm_compute. reflexivity.
Qed.

(** A rejected call is not without effect: the types of the two variables stay changed. *)
Theorem C44_rejected_refuted :
  exists s r s', all_have_rows s /\ good_rels s /\ relate nr dt r s = (s', Err ValueError) /\
    exists v, dget String.eqb "sessions" (s_ents s') = Some v /\ get_var "x" (n_vars v) = Ok (vr "x" TId) /\
    exists v0, dget String.eqb "sessions" (s_ents s) = Some v0 /\ get_var "x" (n_vars v0) = Ok (vr "x" TNumeric).
Proof.
  exists (link_set DInt one_row), (mkRel "customers" "id" "sessions" "x"), (fst (relate nr dt (mkRel "customers" "id" "sessions" "x") (link_set DInt one_row))). split; [apply C44_nonvacuous|]. split; [apply C44_nonvacuous|].
  split; [vm_compute; reflexivity|]. eexists. split; [vm_compute; reflexivity|]. split; [reflexivity|]. eexists. split; reflexivity.
Qed.

(** With an empty child, the object column of an accepted relationship is converted when a second relationship uses it, and
    the first one is left between columns of different dtypes. *)
Definition obj_e : ent := mkEnt "tags" (mkTab [("tag", DObj)] [[("tag", VStr "a")]]) [vr "tag" TIndex] "tag" None [] None None.
Theorem C44_empty_child_refuted :
  exists s r1 r2 s1 s2, good_rels s /\ relate nr dt r1 s = (s1, Ok tt) /\ good_rels s1 /\ relate nr dt r2 s1 = (s2, Ok tt) /\ ~ good_rels s2.
Proof.
  set (s := mkSet "es" [("sessions", sess_e DObj []); ("customers", cust_e); ("tags", obj_e)] [] None None).
  set (r1 := mkRel "tags" "tag" "sessions" "cid"). set (s1 := fst (relate nr dt r1 s)).
  exists s, r1, link, s1, (fst (relate nr dt link s1)). split; [split; constructor|]. split; [vm_compute; reflexivity|].
  split; [|split; [vm_compute; reflexivity|]]; vm_compute.
  - split; [repeat constructor; intros [] |]. constructor; [|constructor]. do 3 eexists. split; [reflexivity|]. split; [reflexivity|]. cbn. repeat split; discriminate.
  - intros [_ H]. inversion H as [|x l (ce & pe & d & A & B & _ & _ & C & D)]; subst. cbn in A, B. injection A as <-. injection B as <-. cbn in C, D. congruence.
Qed.

Print Assumptions C44_history_partial.
Print Assumptions C44_rejected_partial.
Print Assumptions C44_accepted_iff_partial.
Print Assumptions C44_again.
Print Assumptions C44_rejected_refuted.
Print Assumptions C44_empty_child_refuted.
