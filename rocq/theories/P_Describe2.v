(** C54, continued: the entities of the rebuilt entity set that have a last time index. *)
From Coq Require Import Sorting.Permutation Sorting.Sorted.
From Verif Require Import Base BaseFacts M_Schema M_Table M_LastTime L_LastTime M_Entities S_Entities S_Calls.
From Verif Require Import P_Equality L_Entities L_Tables P_Relate P_Meta P_Tables L_Normalize P_Normalize P_Normalize2 P_Describe.
Local Open Scope string_scope.
Local Open Scope list_scope.

Section LastTimes.
  Variables to_numeric to_datetime : list val -> res (dtype * list val).
  Variable obj_kind : val -> res (option tkind).
  Variable infer : table -> string -> vtype.
  Variable touched : list relationship -> list string -> list string.
  Variable last_times : eset -> string -> list (val * val).
  Notation description_to_entityset := (description_to_entityset to_numeric to_datetime obj_kind infer touched last_times).

  Definition no_lti (s : eset) : Prop := forall id e, dget String.eqb id (s_ents s) = Some e -> n_lti e = None.
  Lemma no_lti_vars s s' : vars_only s s' -> no_lti s -> no_lti s'.
  Proof. intros Hv H id e E. destruct (vars_only_get' _ _ _ _ Hv E) as (e0 & E0 & ->). apply (H id e0 E0). Qed.
  Lemma create_no_lti id t i given mk time sec srt : keeps no_lti (entity_from_dataframe to_numeric to_datetime obj_kind infer id t i given mk time sec srt).
  Proof.
    unfold entity_from_dataframe. apply keeps_bind; [apply keeps_guard|]. intros _. apply keeps_bind; [apply keeps_guard|]. intros _.
    intros s s' r Hs H. apply sbind_any in H as [(e & s1 & E & H)|(x & E & _)].
    - destruct (new_entity _ _ _ _ _ _ _ _ _ _ _ _ _) as [k x] eqn:En in E. injection E as <- ->. apply new_entity_Ok in En as (cr & i' & t1 & vt & t2 & _ & _ & _ & _ & _ & Hin). apply init_Ok in Hin as (_ & _ & _ & Hl & _). cbn in Hl.
      unfold sbind, smod, reset_meta in H. injection H as <- _. intros id' e'. cbn. destruct (String.eqb_spec id' id) as [->|Hd].
      + rewrite (dget_dset_same _ String.eqb_spec). intros H. injection H as <-. exact Hl.
      + rewrite (dget_dset_other _ String.eqb_spec) by congruence. apply Hs.
    - destruct (new_entity _ _ _ _ _ _ _ _ _ _ _ _ _) as [k y]. injection E as <- _. exact Hs.
  Qed.
  Lemma relate_no_lti r : keeps no_lti (relate to_numeric to_datetime r).
  Proof.
    unfold relate, add_relationship, make_relationship. unfold reset_meta.
    assert (forall eid vid ty, keeps no_lti (ensure_type to_numeric to_datetime eid vid ty)) as He by (intros eid vid ty s s' x Hs H; apply ensure_type_vars in H; eapply no_lti_vars; eassumption).
    assert (forall f, (forall s, s_ents (f s) = s_ents s) -> keeps no_lti (smod f)) as Hm by (intros f Hf s s' x Hs H; unfold smod in H; injection H as <- _; intros id e; rewrite Hf; apply Hs).
    repeat first [apply keeps_guard | apply keeps_lift | apply keeps_get | apply keeps_ret | apply He | apply keeps_bind; [|intros ?] | apply Hm; reflexivity | match goal with |- keeps _ (if ?b then _ else _) => destruct b end].
    all: try (match goal with |- keeps _ (let _ := _ in _) => cbv zeta end).
    all: repeat first [apply keeps_guard | apply keeps_lift | apply keeps_get | apply keeps_ret | apply He | apply keeps_bind; [|intros ?] | apply Hm; reflexivity | match goal with |- keeps _ (if ?b then _ else _) => destruct b end].
    all: intros s s' x Hs H; unfold on_entity in H; destruct (sent (r_ce r) s) as [e0|] eqn:E0; [|injection H as <- _; exact Hs]; unfold emod in H; cbn in H; injection H as <- _; intros id e; cbn; (destruct (String.eqb_spec id (r_ce r)) as [->|Hd];
      [rewrite (dget_dset_same _ String.eqb_spec); intros H; injection H as <-; cbn; apply sent_In in E0; apply (Hs _ _ E0) | rewrite (dget_dset_other _ String.eqb_spec) by congruence; apply Hs]).
  Qed.

  Theorem C54_last_times s s' : dicts s -> description_to_entityset (describe s) = Ok s' ->
    let had := fun id => exists e, dget String.eqb id (s_ents s) = Some e /\ n_lti e <> None in
    (* an entity that had a last time index has one again *)
    ((forall rels ids, incl ids (touched rels ids)) -> forall id e', had id -> dget String.eqb id (s_ents s') = Some e' -> n_lti e' <> None) /\
    (* the others have one only when the recalculation for those reaches them *)
    (forall id e', dget String.eqb id (s_ents s') = Some e' -> n_lti e' <> None -> exists ids, ids <> [] /\ (forall i, In i ids <-> had i) /\ In id (touched (s_rels s') ids)).
  Proof.
    intros [Hk He] H had. unfold M_Entities.description_to_entityset in H. destruct (rebuild _ _ _ _ _ _ _ _) as [s9 [u|]] eqn:E; [|discriminate]. injection H as <-.
    unfold rebuild in E. apply sbind_Ok in E as ([] & s1 & E1 & E). apply sbind_Ok in E as ([] & s2 & E2 & E).
    assert (no_lti s1) as H1.
    { revert E1. apply (keeps_iter no_lti); [|intros id e Hx; discriminate]. intros d _. unfold rebuild_entity. apply keeps_bind; [apply create_no_lti|]. intros _ z z' x Hz Hx.
      apply on_entity_vars in Hx; [eapply no_lti_vars; eassumption|]. intros k e z0 r0 Hy. unfold emod in Hy. cbn in Hy. injection Hy as <- _. eauto. }
    assert (no_lti s2) as H2 by (revert E2; apply (keeps_iter no_lti); [intros; apply relate_no_lti | exact H1]).
    set (ids := map d_id (filter d_lti (d_ents (describe s)))) in *.
    assert (forall i, In i ids <-> had i) as Hids.
    { intros i. unfold ids. cbn [describe d_ents]. rewrite in_map_iff. split.
      - intros (d & <- & Hd). apply filter_In in Hd as [Hd Hl]. apply in_map_iff in Hd as (e & <- & Hin). apply (Permutation_in _ (isort_perm _ _)) in Hin. apply in_map_iff in Hin as ([k e0] & He0 & Hin). cbn in He0. subst e0.
        destruct (He k e Hin) as (Hid & _). exists e. cbn [describe_entity d_id d_lti] in *. rewrite Hid. split; [apply (dget_NoDup_In _ String.eqb_spec); assumption|]. destruct (n_lti e); [discriminate | discriminate].
      - intros (e & Hg & Hl). apply (dget_In _ String.eqb_spec) in Hg. destruct (He i e Hg) as (Hid & _). exists (describe_entity e). split; [exact Hid|]. apply filter_In. split.
        + apply in_map. apply (Permutation_in _ (Permutation_sym (isort_perm _ _))). apply in_map_iff. exists (i, e). auto.
        + cbn [describe_entity d_lti]. destruct (n_lti e); [reflexivity | congruence]. }
    destruct ids as [|i0 ids0] eqn:Ei.
    - unfold sret in E. injection E as <- _. split.
      + intros _ id e' Hh _. apply Hids in Hh. destruct Hh.
      + intros id e' Hg Hl. destruct Hl. apply (H2 id e' Hg).
    - unfold add_last_time_indexes in E. unfold sbind at 1 in E. unfold sget at 1 in E. cbv zeta in E. unfold sbind, smod, reset_meta in E. injection E as <- _. cbn [s_ents s_rels with_ents with_meta].
      set (tch := touched (s_rels s2) (i0 :: ids0)).
      assert (forall id e', dget String.eqb id (map (fun ie => if mem_str (fst ie) tch then (fst ie, with_lti (Some (last_times s2 (fst ie))) (snd ie)) else ie) (s_ents s2)) = Some e' -> (n_lti e' <> None <-> In id tch)) as Hd.
      { intros id e'. unfold no_lti in H2. intros Hg.
        assert (exists e, dget String.eqb id (s_ents s2) = Some e /\ e' = if mem_str id tch then with_lti (Some (last_times s2 id)) e else e) as (e & G & ->).
        { clear -Hg. revert Hg. unfold dget. induction (s_ents s2) as [|[k e] l IH]; cbn [map find fst]; [discriminate|]. destruct (mem_str k tch) eqn:Em; cbn [fst]; destruct (String.eqb_spec id k) as [->|Hne]; try exact IH; cbn [option_map snd]; intros H; injection H as <-; exists e; rewrite Em; auto. }
        destruct (mem_str id tch) eqn:Em.
        - apply mem_str_In in Em. cbn. split; [auto | discriminate].
        - apply mem_str_nIn in Em. rewrite (H2 id e G). split; [congruence | contradiction]. }
      split.
      + intros Hinc id e' Hh Hg. apply (Hd id e' Hg). apply Hinc. apply Hids. exact Hh.
      + intros id e' Hg Hl. exists (i0 :: ids0). split; [discriminate|]. split; [exact Hids|]. apply (Hd id e' Hg). exact Hl.
  Qed.
End LastTimes.

(** the entities of C54_nonvacuous, with the last time indexes of "events" only *)
Lemma dicts_lti f s : dicts s -> dicts (with_ents (map (fun ie => (fst ie, with_lti (f (fst ie)) (snd ie))) (s_ents s)) s).
Proof.
  intros [H1 H2]. split; change (s_ents (with_ents ?x s)) with x.
  - rewrite map_map. exact H1.
  - intros id e Hin. apply in_map_iff in Hin as ([k e0] & Heq & Hin). injection Heq as <- <-. destruct (H2 _ _ Hin) as (A & B & C). split; [exact A|]. split; [exact B | exact C].
Qed.
Definition told_lti : eset := with_ents (map (fun ie => (fst ie, with_lti (if String.eqb (fst ie) "events" then Some [] else None) (snd ie))) (s_ents told)) told.
Definition told_back : eset := match description_to_entityset nr dt okd infd (fun _ l => l) lts (describe told_lti) with Ok x => x | Err _ => told end.
Example C54_last_times_nonvacuous : exists s', dicts told_lti /\ description_to_entityset nr dt okd infd (fun _ l => l) lts (describe told_lti) = Ok s' /\
  map (fun ie => (fst ie, match n_lti (snd ie) with Some _ => true | None => false end)) (s_ents s') = [("customers", false); ("events", true)].
Proof.
  exists told_back. split; [|split; [vm_compute; reflexivity | vm_compute; reflexivity]].
  exact (dicts_lti (fun id => if String.eqb id "events" then Some [] else None) told (proj1 C54_nonvacuous)).
Qed.
Print Assumptions C54_last_times.
