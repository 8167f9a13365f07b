(** C31: the options of all primitives combined with the global ignore lists. *)
From Verif Require Import Base BaseFacts M_Schema M_Feature M_Types M_Match S_Options P_DFS.

Section Options.
  Variable attr : prim -> pattr.
  Variable arity_of : okey -> option nat.
  Variables (ign_e : list string) (ign_v : edict).
  Hypothesis Hnd : NoDup (map fst ign_v).

  Lemma included_spec os e : In e (included_entities os) <-> exists o, In o os /\ names_entity o e.
  Proof.
    unfold included_entities. rewrite in_flat_map. split; intros (o & Ho & H); exists o; (split; [exact Ho|]).
    - apply in_app_iff in H as [H|H].
      + left. destruct (o_inc_e o) as [l|]; [exists l; auto | destruct H].
      + right. destruct (o_inc_v o) as [d|]; [|destruct H]. apply in_map_iff in H as ((e' & l) & He & Hl). cbn [fst] in He. subst e'. exists d, l; auto.
    - apply in_app_iff. destruct H as [(l & -> & H)|(d & l & -> & H)]; [left; exact H|]. right. apply (in_map fst) in H. exact H.
  Qed.

  Lemma diff_In e a b : In e (diff a b) <-> In e a /\ ~ In e b.
  Proof. unfold diff. rewrite filter_In. split; intros [H1 H2]; (split; [exact H1|]); [intros H; apply mem_str_In in H; rewrite H in H2; discriminate | apply mem_str_nIn in H2; rewrite H2; reflexivity]. Qed.

  (** the variables of one dict after L82-92 *)
  Definition add_vars (inc : list string) (d : edict) (ev : string * list string) : edict :=
    match dget String.eqb (fst ev) d with
    | Some l => dset String.eqb (fst ev) (l ++ snd ev) d
    | None => if mem_str (fst ev) inc then d else dset String.eqb (fst ev) (snd ev) d
    end.

  Lemma add_vars_other inc d ev e : e <> fst ev -> dget String.eqb e (add_vars inc d ev) = dget String.eqb e d.
  Proof.
    intros H. unfold add_vars. destruct (dget String.eqb (fst ev) d); [apply (dget_dset_other _ String.eqb_spec); exact H|].
    destruct (mem_str (fst ev) inc); [reflexivity | apply (dget_dset_other _ String.eqb_spec); exact H].
  Qed.

  Lemma add_vars_fold inc : forall vs d, NoDup (map fst vs) -> forall e,
    dget String.eqb e (fold_left (add_vars inc) vs d) =
    match dget String.eqb e vs with
    | None => dget String.eqb e d
    | Some l => match dget String.eqb e d with
                | Some l0 => Some (l0 ++ l)
                | None => if mem_str e inc then None else Some l
                end
    end.
  Proof.
    induction vs as [|[e1 l1] vs IH]; intros d Hn e; cbn [fold_left]; [cbn [dget]; destruct (dget _ e d); reflexivity|].
    inversion Hn as [|x l Hx Hl]; subst. rewrite (IH _ Hl). cbn [dget fst snd].
    destruct (String.eqb_spec e e1) as [E|E].
    - subst e1. assert (dget String.eqb e vs = None) as -> by (apply (dget_None _ String.eqb_spec); exact Hx).
      unfold add_vars. cbn [fst snd]. destruct (dget String.eqb e d) eqn:Ed; [apply (dget_dset_same _ String.eqb_spec)|].
      destruct (mem_str e inc); [exact Ed | apply (dget_dset_same _ String.eqb_spec)].
    - rewrite add_vars_other by exact E. reflexivity.
  Qed.

  Lemma add_globals_vars inc o : o_ign_v (add_globals inc ign_e ign_v o) = fold_left (add_vars inc) ign_v (o_ign_v o).
  Proof. reflexivity. Qed.

  Lemma names_add inc o e : names_entity (add_globals inc ign_e ign_v o) e <-> names_entity o e.
  Proof. reflexivity. Qed.

  Lemma dget_key {V} e (d : list (string * V)) : (exists l, In (e, l) d) <-> exists l, dget String.eqb e d = Some l.
  Proof.
    split; intros (l & H).
    - destruct (dget String.eqb e d) as [l'|] eqn:E; [eauto|]. apply (dget_None _ String.eqb_spec) in E. exfalso. apply E. apply (in_map fst) in H. exact H.
    - exists l. apply (dget_In _ String.eqb_spec). exact H.
  Qed.

  Lemma honours_add os : honours ign_e ign_v (map (add_globals (included_entities os) ign_e ign_v) os).
  Proof.
    intros o Ho. apply in_map_iff in Ho as (o0 & <- & Ho).
    assert (forall e, (forall o', In o' (map (add_globals (included_entities os) ign_e ign_v) os) -> ~ names_entity o' e) -> ~ In e (included_entities os)) as Hi.
    { intros e H Hc. apply included_spec in Hc as (o' & Ho' & Hn). apply (H (add_globals (included_entities os) ign_e ign_v o')); [apply in_map; exact Ho' | exact Hn]. }
    split.
    - intros e He Hn. cbn [add_globals o_ign_e]. apply in_app_iff. right. apply diff_In. split; [exact He | apply Hi; exact Hn].
    - intros e v vs Hev Hv Hc. rewrite add_globals_vars in *. 
      assert (dget String.eqb e ign_v = Some vs) as Eg by (apply (dget_NoDup_In _ String.eqb_spec); assumption).
      rewrite (add_vars_fold _ _ _ Hnd), Eg. destruct (dget String.eqb e (o_ign_v o0)) as [l0|] eqn:E0.
      + exists (l0 ++ vs). split; [reflexivity | apply in_app_iff; right; exact Hv].
      + destruct Hc as [Hc|Hc].
        * apply Hi in Hc. apply mem_str_nIn in Hc. rewrite Hc. eauto.
        * apply dget_key in Hc as (l & Hl). rewrite (add_vars_fold _ _ _ Hnd), Eg, E0 in Hl. destruct (mem_str e (included_entities os)); [discriminate | eauto].
  Qed.

  Lemma honours_default : honours ign_e ign_v [mkPo None ign_e None ign_v None None None None].
  Proof.
    intros o [<-|[]]. split; [intros e He _; exact He|]. intros e v vs Hev Hv _. exists vs. split; [apply (dget_NoDup_In _ String.eqb_spec); assumption | exact Hv].
  Qed.

  (** lookups after a step *)
  Lemma gen_step_dget s p k : dget okey_eqb k (g_opts (gen_step attr ign_e ign_v s p)) = dget okey_eqb k (g_opts s) \/
    exists os, dget okey_eqb k (g_opts (gen_step attr ign_e ign_v s p)) = Some os /\ honours ign_e ign_v os.
  Proof.
    unfold gen_step. destruct (prim_key attr (g_opts s) p) as [k'|]; cbn [g_opts].
    - destruct (okey_eqb_spec k k') as [->|Hk]; [right; eexists; split; [apply (dget_dset_same _ okey_eqb_spec) | apply honours_add] | left; apply (dget_dset_other _ okey_eqb_spec); exact Hk].
    - destruct (okey_eqb_spec k (KInst (a_id (attr p)))) as [->|Hk]; [right; eexists; split; [apply (dget_dset_same _ okey_eqb_spec) | apply honours_default] | left; apply (dget_dset_other _ okey_eqb_spec); exact Hk].
  Qed.

  Definition at_key (s : gopts) (k : okey) : Prop := exists os, dget okey_eqb k (g_opts s) = Some os /\ honours ign_e ign_v os.
  Definition served (s : gopts) (p : prim) : Prop :=
    at_key s (KInst (a_id (attr p))) \/ (dget okey_eqb (KInst (a_id (attr p))) (g_opts s) = None /\ at_key s (KName (a_name (attr p)))).

  Lemma at_key_step s p k : at_key s k -> at_key (gen_step attr ign_e ign_v s p) k.
  Proof. intros (os & H1 & H2). destruct (gen_step_dget s p k) as [E|H]; [exists os; rewrite E; auto | exact H]. Qed.

  Lemma served_step s p q : served s q -> served (gen_step attr ign_e ign_v s p) q.
  Proof.
    intros [H|[H1 H2]]; [left; apply at_key_step; exact H|].
    destruct (gen_step_dget s p (KInst (a_id (attr q)))) as [E|H]; [right; split; [congruence | apply at_key_step; exact H2] | left; exact H].
  Qed.

  Lemma served_self s p : served (gen_step attr ign_e ign_v s p) p.
  Proof.
    unfold gen_step. destruct (prim_key attr (g_opts s) p) as [k|] eqn:Ek; cbn [g_opts]; unfold served, at_key; cbn [g_opts].
    - unfold prim_key in Ek. destruct (dget okey_eqb (KInst (a_id (attr p))) (g_opts s)) eqn:E1.
      + injection Ek as <-. left. eexists. split; [apply (dget_dset_same _ okey_eqb_spec) | apply honours_add].
      + destruct (dget okey_eqb (KName (a_name (attr p))) (g_opts s)) eqn:E2; [|discriminate]. injection Ek as <-. right.
        split; [rewrite (dget_dset_other _ okey_eqb_spec) by discriminate; exact E1|]. eexists. split; [apply (dget_dset_same _ okey_eqb_spec) | apply honours_add].
    - left. eexists. split; [apply (dget_dset_same _ okey_eqb_spec) | apply honours_default].
  Qed.

  Lemma served_fold prims s p : In p prims \/ served s p -> served (fold_left (gen_step attr ign_e ign_v) prims s) p.
  Proof.
    revert s. induction prims as [|q prims IH]; intros s H; cbn [fold_left]; [destruct H as [[]|H]; exact H|].
    apply IH. destruct H as [[->|H]|H]; [right; apply served_self | left; exact H | right; apply served_step; exact H].
  Qed.

  (** Whatever options the user gave and in whatever order the primitives come, the options used for each primitive
      honour the global ignore_entities and ignore_variables. *)
  Theorem C31_globals_honoured prims u s p :
    generate_all_primitive_options attr arity_of prims u ign_e ign_v = Ok s -> In p prims ->
    honours ign_e ign_v (options_of attr (g_opts s) p).
  Proof.
    unfold generate_all_primitive_options. intros H Hp. apply bind_Ok in H as (os & _ & H). injection H as <-.
    destruct (served_fold prims (mkGo os ign_e ign_v) p (or_introl Hp)) as [(l & E & Hl)|[E1 (l & E & Hl)]]; unfold options_of.
    - rewrite E. exact Hl.
    - rewrite E1, E. exact Hl.
  Qed.

  Lemma extends_refl o : extends ign_e ign_v o o.
  Proof. unfold extends. repeat split; auto; intros; eauto. Qed.

  Lemma extends_add inc o0 o : extends ign_e ign_v o0 o -> extends ign_e ign_v o0 (add_globals inc ign_e ign_v o).
  Proof.
    intros (H1 & H2 & H3 & H4 & H5 & H6 & H7 & H8 & H9 & H10). unfold extends. rewrite add_globals_vars.
    split; [exact H1|]. split; [exact H2|]. split; [exact H3|]. split; [exact H4|]. split; [exact H5|]. split; [exact H6|].
    cbn [add_globals o_ign_e]. split; [intros e He; apply in_app_iff; left; apply H7; exact He|]. split.
    { intros e He. apply in_app_iff in He as [He|He]; [apply H8; exact He | right; apply diff_In in He; apply He]. }
    split.
    - intros e l v Hl Hv. destruct (H9 e l v Hl Hv) as (l' & Hl' & Hv'). rewrite (add_vars_fold _ _ _ Hnd), Hl'.
      destruct (dget String.eqb e ign_v) as [lg|]; [|eauto]. exists (l' ++ lg). split; [reflexivity | apply in_app_iff; left; exact Hv'].
    - intros e l v. rewrite (add_vars_fold _ _ _ Hnd). destruct (dget String.eqb e ign_v) as [lg|] eqn:Eg; [|apply H10].
      assert (In (e, lg) ign_v) as Hin by (apply (dget_In _ String.eqb_spec); exact Eg).
      destruct (dget String.eqb e (o_ign_v o)) as [l0|] eqn:E0.
      + intros [= <-] Hv. apply in_app_iff in Hv as [Hv|Hv]; [exact (H10 e l0 v E0 Hv) | right; exists lg; auto].
      + destruct (mem_str e inc); [discriminate|]. intros [= <-] Hv. right. exists lg; auto.
  Qed.

  (** The options the user gave for a name or an instance are still there: nothing is lost, and only globally ignored
      entities and variables are added. *)
  Theorem C31_options_kept prims u os0 s k l0 :
    init_primitive_options arity_of u = Ok os0 -> dget okey_eqb k os0 = Some l0 ->
    generate_all_primitive_options attr arity_of prims u ign_e ign_v = Ok s ->
    exists l, dget okey_eqb k (g_opts s) = Some l /\ Forall2 (extends ign_e ign_v) l0 l.
  Proof.
    unfold generate_all_primitive_options. intros Hi Hk H. rewrite Hi in H. cbn [bind] in H. injection H as <-.
    assert (forall prims s, (exists l, dget okey_eqb k (g_opts s) = Some l /\ Forall2 (extends ign_e ign_v) l0 l) ->
      exists l, dget okey_eqb k (g_opts (fold_left (gen_step attr ign_e ign_v) prims s)) = Some l /\ Forall2 (extends ign_e ign_v) l0 l) as Hf.
    { clear -Hnd. induction prims as [|p prims IH]; intros s Hs; cbn [fold_left]; [exact Hs|]. apply IH. destruct Hs as (l & E & Hl).
      unfold gen_step. destruct (prim_key attr (g_opts s) p) as [k'|] eqn:Ek; cbn [g_opts].
      - destruct (okey_eqb_spec k k') as [->|Hn].
        + rewrite E. eexists. split; [apply (dget_dset_same _ okey_eqb_spec)|]. generalize (included_entities l). intros inc. clear -Hl Hnd.
          induction Hl as [|o0 o l0 l Ho Hl IH]; cbn [map]; constructor; [apply extends_add; exact Ho | exact IH].
        + exists l. split; [rewrite (dget_dset_other _ okey_eqb_spec) by exact Hn; exact E | exact Hl].
      - exists l. split; [|exact Hl]. rewrite (dget_dset_other _ okey_eqb_spec); [exact E|]. intros ->. unfold prim_key in Ek. rewrite E in Ek. discriminate. }
    apply Hf. cbn [g_opts]. exists l0. split; [exact Hk|]. clear. induction l0; constructor; [apply extends_refl | assumption].
  Qed.
End Options.

Local Open Scope string_scope. Local Open Scope list_scope.
(** Sum has its own options, Mean has none; "log" is ignored everywhere *)
Definition sum_opts : uopts := [([KName "sum"], inl (mkPo (Some ["cust"]) [] None [("sess", ["dev"])] None None None None))].
Definition o_attr (p : prim) : pattr :=
  if String.eqb (p_name p) "Sum" then mkPa "sum" 0 0 true false None None None None None else mkPa "mean" 1 1 true false None None None None None.
Definition p_named (n : string) : prim := mkPrim n 1 false false VNull false (fun _ => "") (fun _ _ _ _ _ => "") (fun _ _ => []) (fun _ _ => []).
Example C31_options_nonvacuous :
  NoDup (map fst [("sess", ["t"])]) /\
  exists s, generate_all_primitive_options o_attr (fun _ => Some 1) [p_named "Sum"; p_named "Mean"] sum_opts ["cust"; "log"] [("sess", ["t"])] = Ok s /\
  options_of o_attr (g_opts s) (p_named "Sum") = [mkPo (Some ["cust"]) ["log"] None [("sess", ["dev"; "t"])] None None None None] /\
  options_of o_attr (g_opts s) (p_named "Mean") = [mkPo None ["cust"; "log"] None [("sess", ["t"])] None None None None] /\
  g_ign_e s = ["log"].
Proof.
  split; [repeat (constructor; [cbn; intuition discriminate|]); constructor|].
  eexists. split; [vm_compute; reflexivity|]. split; [vm_compute; reflexivity|]. split; vm_compute; reflexivity.
Qed.

Print Assumptions C31_globals_honoured.
Print Assumptions C31_options_kept.
