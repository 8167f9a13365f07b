(** C71, continued: last time indexes are not stored; they are computed again from the data that was read. *)
From Coq Require Import Sorting.Permutation Sorting.Sorted.
From Verif Require Import Base BaseFacts M_Schema M_Table M_LastTime L_LastTime M_Entities S_Entities S_Calls.
From Verif Require Import P_Equality L_Entities L_Tables P_Relate P_Meta P_Tables L_Normalize P_Normalize P_Normalize2 P_Concat P_Describe P_Describe2 M_Files S_Files L_Files P_Files.
Local Open Scope string_scope.
Local Open Scope list_scope.

Lemma with_lti_None e : n_lti e = None -> with_lti None e = e.
Proof. destruct e. cbn. intros ->. reflexivity. Qed.

Section LastTimes.
  Variables to_numeric to_datetime : list val -> res (dtype * list val).
  Variable obj_kind : val -> res (option tkind).
  Variable infer : table -> string -> vtype.
  Variable touched : list relationship -> list string -> list string.
  Variable last_times : eset -> string -> list (val * val).
  Notation read_entityset := (read_entityset to_numeric to_datetime obj_kind infer touched last_times).

  (** [loaded] is the entity set that was read, without last time indexes *)
  Theorem C71_last_times f before s s' : dicts s -> read_entityset (save f s before) = Ok s' ->
    let had := fun id => exists e, dget String.eqb id (s_ents s) = Some e /\ n_lti e <> None in
    exists loaded ids, s_rels loaded = s_rels s' /\ (forall id, dget String.eqb id (s_ents loaded) = option_map (with_lti None) (dget String.eqb id (s_ents s'))) /\
      (forall i, In i ids <-> had i) /\
      forall id e', dget String.eqb id (s_ents s') = Some e' ->
        n_lti e' = (if match ids with [] => false | _ => mem_str id (touched (s_rels s') ids) end then Some (last_times loaded id) else None).
  Proof.
    intros [Hk He] H had. assert (map n_id (map snd (s_ents s)) = map fst (s_ents s)) as Hnid.
    { rewrite map_map. apply map_ext_in. intros [id e] Hin. apply He in Hin as (Hid & _). exact Hid. }
    assert (NoDup (map fst (saves f s))) as Hops by (apply saves_NoDup; rewrite Hnid; exact Hk).
    unfold M_Files.read_entityset in H. unfold save at 1 in H. rewrite (write_all_get before (saves f s) description_file (FDescription (d_name (describe s)) (map (fun d => mkStored d (location f (d_id d)) f) (d_ents (describe s))) (d_rels (describe s))) Hops) in H; [|unfold saves; apply in_or_app; right; left; reflexivity].
    destruct (M_Files.load _ _ _ _ _ _ _ _ _ _) as [s9 [u|]] eqn:E; [|discriminate]. injection H as <-.
    unfold M_Files.load in E. apply sbind_Ok in E as ([] & s1 & E1 & E). apply sbind_Ok in E as ([] & s2 & E2 & E).
    assert (forall X, map st_descr (map (fun d => mkStored d (location f (d_id d)) f) X) = X) as Hst by (intros X; rewrite map_map; apply map_id). rewrite Hst in E.
    assert (no_lti s1) as H1.
    { revert E1. apply (keeps_iter no_lti); [|intros id e Hx; discriminate]. intros d _. unfold load_entity. apply keeps_bind; [apply keeps_lift|]. intros t. unfold load_frame. apply keeps_bind; [apply create_no_lti|]. intros _ z z' x Hz Hx.
      apply on_entity_vars in Hx; [eapply no_lti_vars; eassumption|]. intros k e z0 r0 Hy. unfold emod in Hy. cbn in Hy. injection Hy as <- _. eauto. }
    assert (no_lti s2) as H2 by (revert E2; apply (keeps_iter no_lti); [intros; apply relate_no_lti | exact H1]).
    set (ids := map d_id (filter d_lti (d_ents (describe s)))) in *.
    assert (forall i, In i ids <-> had i) as Hids.
    { intros i. unfold ids. cbn [describe d_ents]. rewrite in_map_iff. split.
      - intros (d & <- & Hd). apply filter_In in Hd as [Hd Hl]. apply in_map_iff in Hd as (e & <- & Hin). apply (Permutation_in _ (isort_perm _ _)) in Hin. apply in_map_iff in Hin as ([k e0] & He0 & Hin). cbn in He0. subst e0.
        destruct (He k e Hin) as (Hid & _). exists e. cbn [describe_entity d_id d_lti] in *. rewrite Hid. split; [apply (dget_NoDup_In _ String.eqb_spec); assumption|]. destruct (n_lti e); [discriminate | discriminate].
      - intros (e & Hg & Hl). apply (dget_In _ String.eqb_spec) in Hg. destruct (He i e Hg) as (Hid & _). exists (describe_entity e). split; [exact Hid|]. apply filter_In. split.
        + apply in_map. apply (Permutation_in _ (Permutation_sym (isort_perm _ _))). apply in_map_iff. exists (i, e). auto.
        + cbn [describe_entity d_lti]. destruct (n_lti e); [reflexivity | congruence]. }
    destruct ids as [|i0 ids0] eqn:Ei.
    - unfold sret in E. injection E as <- _. exists s2, []. split; [reflexivity|]. split; [|split; [exact Hids | intros id e' Hg; apply (H2 id e' Hg)]].
      intros id. destruct (dget String.eqb id (s_ents s2)) as [e|] eqn:G; [|reflexivity]. cbn. rewrite with_lti_None; [reflexivity | apply (H2 id e G)].
    - unfold add_last_time_indexes in E. unfold sbind at 1 in E. unfold sget at 1 in E. cbv zeta in E. unfold sbind, smod, reset_meta in E. injection E as <- _. cbn [s_ents s_rels with_ents with_meta].
      set (tch := touched (s_rels s2) (i0 :: ids0)).
      assert (forall id, dget String.eqb id (map (fun ie => if mem_str (fst ie) tch then (fst ie, with_lti (Some (last_times s2 (fst ie))) (snd ie)) else ie) (s_ents s2)) =
                option_map (fun e => if mem_str id tch then with_lti (Some (last_times s2 id)) e else e) (dget String.eqb id (s_ents s2))) as Hd.
      { intros id. clear. unfold dget. induction (s_ents s2) as [|[k e] l IH]; cbn [map find fst]; [reflexivity|]. destruct (mem_str k tch) eqn:Em; cbn [fst]; destruct (String.eqb_spec id k) as [->|Hne]; try exact IH; cbn [option_map snd]; rewrite Em; reflexivity. }
      exists s2, (i0 :: ids0). split; [reflexivity|]. split; [|split; [exact Hids|]].
      + intros id. rewrite Hd. destruct (dget String.eqb id (s_ents s2)) as [e|] eqn:G; [|reflexivity]. cbn. f_equal. pose proof (H2 id e G) as Hn. destruct (mem_str id tch); [|rewrite with_lti_None; auto]. destruct e. cbn in *. subst. reflexivity.
      + intros id e' Hg. rewrite Hd in Hg. destruct (dget String.eqb id (s_ents s2)) as [e|] eqn:G; [|discriminate]. cbn in Hg. injection Hg as <-. fold tch. destruct (mem_str id tch); [reflexivity | apply (H2 id e G)].
  Qed.
End LastTimes.

(** the entity set of C54_last_times_nonvacuous *)
Example C71_last_times_nonvacuous : exists s', dicts told_lti /\ read_entityset nr dt okd infd (fun _ l => l) lts (save Pickle told_lti junk) = Ok s' /\
  map (fun ie => (fst ie, match n_lti (snd ie) with Some _ => true | None => false end)) (s_ents s') = [("customers", false); ("events", true)].
Proof.
  destruct (read_entityset nr dt okd infd (fun _ l => l) lts (save Pickle told_lti junk)) as [s'|x] eqn:E; [|vm_compute in E; discriminate]. exists s'.
  split; [exact (dicts_lti (fun id => if String.eqb id "events" then Some [] else None) told (proj1 C54_nonvacuous))|]. split; [reflexivity|]. vm_compute in E. injection E as <-. reflexivity.
Qed.
Print Assumptions C71_last_times.
