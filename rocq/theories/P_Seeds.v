(** C90: a seed feature on the target is returned, or a feature of its name is. *)
From Coq Require Import Permutation Sorted Lia ZArith.
From Verif Require Import Base BaseFacts M_Schema M_Feature M_Types M_Serialize M_Match M_DFS S_Schema S_Calc S_Match S_Depth S_DFS S_Seeds L_Schema P_Depth L_DFS P_DFS P_DFSCase.
Local Open Scope list_scope.

Lemma app_string_inj (p a b : string) : (p ++ a)%string = (p ++ b)%string -> a = b.
Proof. induction p as [|c p IH]; cbn; [auto|]. intros [= H]. auto. Qed.
(** ** Names once stored stay *)
Definition stays (a b : afeats) : Prop := forall e d k, dget String.eqb e a = Some d -> In k (map fst d) -> exists d', dget String.eqb e b = Some d' /\ In k (map fst d').
Definition holds (e k : string) (a : afeats) : Prop := exists d, dget String.eqb e a = Some d /\ In k (map fst d).
Lemma stays_refl a : stays a a.
Proof. intros e d k H Hk. exists d. auto. Qed.
Lemma stays_trans a b c : stays a b -> stays b c -> stays a c.
Proof. intros H1 H2 e d k H Hk. destruct (H1 e d k H Hk) as (d' & H' & Hk'). exact (H2 e d' k H' Hk'). Qed.
Lemma stays_holds e k a b : stays a b -> holds e k a -> holds e k b.
Proof. intros H (d & Hd & Hk). exact (H e d k Hd Hk). Qed.
Lemma dset_has {V} k (v : V) d : In k (map fst (dset String.eqb k v d)).
Proof. destruct (dget_dset_same String.eqb String.eqb_spec k v d). apply in_map_iff. exists (k, v). split; [reflexivity|]. apply (dget_In String.eqb String.eqb_spec). apply (dget_dset_same String.eqb String.eqb_spec). Qed.
Lemma dset_stays {V} k (v : V) d k' : In k' (map fst d) -> In k' (map fst (dset String.eqb k v d)).
Proof.
  induction d as [|[k0 v0] d IH]; cbn [dset map fst In]; [tauto|]. destruct (String.eqb_spec k k0) as [->|Hn]; cbn [map fst In]; tauto.
Qed.

Section Seeds.
  Variable entities : list string.
  Variable variables : string -> list string.
  Variable vtypes : string -> string -> option vtyp.
  Variable interesting : string -> string -> list val.
  Variable index_of : string -> option string.
  Variable rels : list relationship.
  Variable p_ret : prim -> option vtyp.
  Variable p_inputs : prim -> option (list (list vtyp)).
  Variable attr : prim -> pattr.
  Variable subc : nat -> nat -> bool.
  Variable eq_prim : val -> prim.
  Variable arity_of : okey -> option nat.
  Variable lower : string -> string.
  Variable ordF : list feat -> list feat.
  Hypothesis ordF_perm : forall l, Permutation (ordF l) l.
  Notation dfs := (build_features entities variables vtypes interesting index_of rels p_ret p_inputs attr subc eq_prim arity_of lower ordF).

  Section Run.
    Variable A : dfs_args.
    Variable G : gopts.
    Lemma handle_stays f all all' : handle_new_feature rels A f all = Ok all' -> stays all all' /\ holds (fentity f) (funique rels f) all'.
    Proof.
      unfold handle_new_feature. destruct (dget String.eqb (fentity f) all) as [d|] eqn:Ed; [|discriminate].
      destruct (match dget String.eqb (funique rels f) d with Some _ => _ | None => _ end) eqn:Eb; intros [= <-].
      - split; [apply stays_refl|]. exists d. split; [exact Ed|]. destruct (dget String.eqb (funique rels f) d) as [g|] eqn:Eg; [|discriminate]. apply (dget_In String.eqb String.eqb_spec) in Eg. apply in_map_iff. exists (funique rels f, g). auto.
      - split.
        + intros e d' k Hd Hk. destruct (String.eqb_spec e (fentity f)) as [->|Hn].
          * rewrite Ed in Hd. injection Hd as <-. eexists. split; [apply (dget_dset_same String.eqb String.eqb_spec)|]. apply dset_stays. exact Hk.
          * exists d'. split; [|exact Hk]. rewrite (dget_dset_other String.eqb String.eqb_spec); [exact Hd | exact Hn].
        + eexists. split; [apply (dget_dset_same String.eqb String.eqb_spec) | apply dset_has].
    Qed.
    Lemma add_stays fs : forall all all', add_all rels A fs all = Ok all' -> stays all all' /\ forall f, In f fs -> holds (fentity f) (funique rels f) all'.
    Proof.
      unfold add_all. induction fs as [|f fs IH]; intros all all'; cbn [foldM]; [intros [= <-]; split; [apply stays_refl | intros f []]|].
      destruct (handle_new_feature rels A f all) as [a|] eqn:E; cbn [bind]; [|discriminate]. intros H. destruct (handle_stays _ _ _ E) as [H1 H2]. destruct (IH _ _ H) as [H3 H4]. split; [eapply stays_trans; eassumption|].
      intros g [<-|Hg]; [eapply stays_holds; eassumption | auto].
    Qed.
    Lemma fold_stays {X} (f : state -> X -> res state) l : (forall s x s', f s x = Ok s' -> stays (s_all s) (s_all s')) -> forall s s', foldM f l s = Ok s' -> stays (s_all s) (s_all s').
    Proof.
      intros Hf. induction l as [|x l IH]; intros s s'; cbn [foldM]; [intros [= <-]; apply stays_refl|]. destruct (f s x) as [s1|] eqn:E; cbn [bind]; [|discriminate]. intros H. eapply stays_trans; [eapply Hf; exact E | apply IH; exact H].
    Qed.
    Lemma transform_stays e md direct s s' : build_transform_features vtypes rels p_ret p_inputs attr lower ordF A G e md direct s = Ok s' -> stays (s_all s) (s_all s').
    Proof.
      unfold build_transform_features. intros H. apply bind_Ok in H as (t & _ & H). apply bind_Ok in H as (g & _ & H). apply bind_Ok in H as (all & H1 & H). injection H as <-. cbn [s_all]. apply add_stays in H1. tauto.
    Qed.
    Lemma forward_stays path md s s' : build_forward_features vtypes rels p_ret A path md s = Ok s' -> stays (s_all s) (s_all s').
    Proof.
      unfold build_forward_features. destruct path as [|[b r] path]; [discriminate|]. intros H. apply bind_Ok in H as (t & _ & H). apply bind_Ok in H as (g & _ & H). apply bind_Ok in H as (all & H1 & H). injection H as <-. cbn [s_all]. apply add_stays in H1. tauto.
    Qed.
    Lemma agg_one_stays p path ce s m s' : agg_one vtypes rels p_ret p_inputs attr subc ordF A p path ce s m = Ok s' -> stays (s_all s) (s_all s').
    Proof.
      unfold agg_one. intros H. apply bind_Ok in H as (ok & _ & H). destruct (negb ok); [injection H as <-; apply stays_refl|]. apply bind_Ok in H as (f & _ & H). apply bind_Ok in H as (all & H1 & H). apply handle_stays in H1 as [H1 _].
      destruct (Nat.leb _ _); [injection H as <-; exact H1|]. destruct (negb _); [injection H as <-; exact H1|]. apply bind_Ok in H as (fs & _ & H). apply bind_Ok in H as (all2 & H2 & H). injection H as <-. cbn [s_all]. apply add_stays in H2 as [H2 _]. eapply stays_trans; eassumption.
    Qed.
    Lemma agg_stays pe ce path md s s' : build_agg_features vtypes rels p_ret p_inputs attr subc lower ordF A G pe ce path md s = Ok s' -> stays (s_all s) (s_all s').
    Proof.
      apply fold_stays. clear s s'. intros s p s'. destruct (ignore_entity_for_primitive _ _ _); [intros [= <-]; apply stays_refl|]. intros H. apply bind_Ok in H as (ts & _ & H). apply bind_Ok in H as (ms & _ & H). apply bind_Ok in H as (ms' & _ & H).
      revert H. apply fold_stays. intros s1 m s2. apply agg_one_stays.
    Qed.
    Lemma where_stays e s s' : build_where_clauses vtypes interesting rels p_ret p_inputs eq_prim e s = Ok s' -> stays (s_all s) (s_all s').
    Proof. unfold build_where_clauses. intros H. apply bind_Ok in H as (ws & _ & H). injection H as <-. apply stays_refl. Qed.
    Lemma identity_stays e all all' : dget String.eqb e all = None -> add_identity_features variables vtypes rels A G e (dset String.eqb e [] all) = Ok all' ->
      stays all all' /\ forall f, In f (g_seeds A) -> fentity f = e -> holds e (funique rels f) all'.
    Proof.
      intros Hn. unfold add_identity_features. intros H. apply bind_Ok in H as (ids & _ & H). apply bind_Ok in H as (a1 & H1 & H2). apply add_stays in H1 as [H1 _]. apply add_stays in H2 as [H2 H3]. split.
      - eapply stays_trans; [|eapply stays_trans; [exact H1 | exact H2]]. intros e' d k Hd Hk. exists d. split; [|exact Hk]. rewrite (dget_dset_other String.eqb String.eqb_spec); [exact Hd | congruence].
      - intros f Hf <-. apply H3. apply filter_In. split; [exact Hf | apply String.eqb_refl].
    Qed.
    Lemma run_stays tf fuel : forall e path md s s', dget String.eqb e (s_all s) = None -> run_dfs variables vtypes interesting rels p_ret p_inputs attr subc eq_prim lower ordF A G tf fuel e path md s = Ok s' ->
      stays (s_all s) (s_all s') /\ (match md with Some m => Z.ltb m 0 | None => false end = false -> forall f, In f (g_seeds A) -> fentity f = e -> holds e (funique rels f) (s_all s')).
    Proof.
      induction fuel as [|fuel IH]; intros e path md s s' He; cbn [run_dfs]; destruct (match md with Some m => Z.ltb m 0 | None => false end); try (intros [= <-]; split; [apply stays_refl | discriminate]); try discriminate.
      intros H. apply bind_Ok in H as (all & Hid & H). apply identity_stays in Hid as [Hid Hseed]; [|exact He].
      apply bind_Ok in H as (back & _ & H). apply bind_Ok in H as (s1 & H1 & H). apply bind_Ok in H as (deep & _ & H). apply bind_Ok in H as (s2 & H2 & H). apply bind_Ok in H as (s3 & H3 & H). apply bind_Ok in H as (fwd & _ & H).
      apply bind_Ok in H as (s4 & H4 & H). apply bind_Ok in H as (s5 & H5 & H). apply bind_Ok in H as (s6 & H6 & H7).
      assert (forall l s s', foldM (fun s (ep : string * list edge) => if M_DFS.visited s (fst ep) || skip_entity A G path ep then Ok s else run_dfs variables vtypes interesting rels p_ret p_inputs attr subc eq_prim lower ordF A G tf fuel (fst ep) (path ++ snd ep) (lower_depth md) s) l s = Ok s' -> stays (s_all s) (s_all s')) as Hv.
      { intros l. apply fold_stays. intros t x t'. unfold M_DFS.visited. destruct (dget String.eqb (fst x) (s_all t)) eqn:Ex; cbn [orb]; [intros [= <-]; apply stays_refl|]. destruct (skip_entity _ _ _ _); [intros [= <-]; apply stays_refl|]. intros Hr. exact (proj1 (IH _ _ _ _ _ Ex Hr)). }
      apply Hv in H1. cbn [s_all] in H1. apply Hv in H4.
      apply fold_stays in H2; [|intros t x t'; destruct (skip_entity _ _ _ _); [intros [= <-]; apply stays_refl | apply agg_stays]].
      apply transform_stays in H3. apply fold_stays in H5; [|intros t x t'; destruct (skip_entity _ _ _ _); [intros [= <-]; apply stays_refl | apply forward_stays]].
      apply transform_stays in H6. apply where_stays in H7.
      assert (stays all (s_all s')) as Hall by (repeat (eapply stays_trans; [eassumption|]); apply stays_refl).
      split; [eapply stays_trans; eassumption|]. intros _ f Hf Hfe. eapply stays_holds; [exact Hall | apply Hseed; assumption].
    Qed.
  End Run.

  (** ** C90: the name of every seed feature of the target is among the names returned *)
  Theorem C90_returned_partial A tf fuel fs f : dfs A None tf fuel = Ok fs -> (g_maxf A <= 0)%Z ->
    In f (g_seeds A) -> fentity f = g_target A -> kept_names rels A f ->
    (forall i, index_of (g_target A) = Some i -> fname rels f <> i /\ forall nm, ~ In (FIdent (g_target A) i nm) (g_seeds A)) ->
    has_its_name rels fs f.
  Proof.
    intros H Hm Hf He Hk Hix. unfold build_features in H. destruct (negb _); [discriminate|]. destruct (mem_str _ _); [discriminate|].
    destruct (generate_all_primitive_options _ _ _ _ _ _) as [G|] eqn:EG; cbn [bind] in H; [|discriminate]. apply bind_Ok in H as (s & Hs & H). destruct (dget String.eqb (g_target A) (s_all s)) as [d|] eqn:Ed; [|discriminate].
    destruct (match depth_limit entities A with Some m => Z.ltb m 0 | None => false end) eqn:En. { exfalso. destruct fuel; cbn [run_dfs] in Hs; rewrite En in Hs; injection Hs as <-; discriminate. }
    destruct (run_stays A G tf fuel _ _ _ (mkSt [] []) _ eq_refl Hs) as [_ Hseed]. destruct (Hseed En f Hf He) as (d' & Hd' & Hin). rewrite Ed in Hd'. injection Hd' as <-.
    apply (run_inv variables vtypes interesting rels p_ret p_inputs attr subc eq_prim lower ordF ordF_perm A G (depth_limit entities A)) in Hs.
    2:{ split; [intros e d' [=] | intros e l w [=]]. }
    2:{ unfold mdle, lim. rewrite String.eqb_refl. destruct (depth_limit entities A) as [z|]; [exists z; split; [reflexivity | lia] | exact I]. }
    2:{ left. reflexivity. }
    destruct Hs as [Hs _]. destruct (Hs _ _ Ed) as (_ & _ & Hd). apply in_map_iff in Hin as ([k g] & Ek & Hg). cbn [fst] in Ek. subst k. destruct (Hd _ _ Hg) as (Eu & Eg & Hst).
    assert (fname rels g = fname rels f) as En'. { unfold funique in Eu. rewrite Eg, He in Eu. apply app_string_inj in Eu. apply app_string_inj in Eu. congruence. }
    exists g. split; [|split; [congruence | exact En']].
    destruct (finish_spec _ _ _ _ _ _ _ _ H) as (l & Hp & _ & ->). destruct (Z.ltb_spec 0 (g_maxf A)) as [?|_]; [lia|]. apply filter_In. split.
    - apply (Permutation_in _ (Permutation_sym Hp)). apply filter_In. split; [apply filter_In; split; [apply in_map_iff; exists (funique rels f, g); auto | reflexivity]|]. apply negb_true_iff.
      destruct g as [e v nm| | | | |]; try reflexivity. cbn [is_target_index]. apply andb_false_iff. destruct (index_of (g_target A)) as [i|] eqn:Ei; [|right; reflexivity]. right. apply String.eqb_neq. intros ->. destruct (Hix i eq_refl) as [H1 H2].
      cbn [fentity] in Eg. subst e. destruct Hst as [Hst _]. inversion Hst; subst.
      + match goal with Hx : In _ (g_seeds A) |- _ => exact (H2 _ Hx) end.
      + apply H1. rewrite <- En'. reflexivity.
      + match goal with Hx : mk_agg _ _ _ _ _ _ _ _ _ _ _ = _ |- _ => apply mk_agg_eq in Hx as [_ (u & [=])] end.
      + match goal with Hx : mk_agg _ _ _ _ _ _ _ _ _ _ _ = _ |- _ => apply mk_agg_eq in Hx as [_ (u & [=])] end.
      + match goal with Hx : mk_trans _ _ _ _ _ _ = _ |- _ => apply mk_trans_eq in Hx as [_ [=]] end.
      + match goal with Hx : mk_group _ _ _ _ _ _ _ = _ |- _ => apply mk_group_eq in Hx; discriminate end.
      + match goal with Hx : mk_direct _ _ _ = _ |- _ => apply mk_direct_eq in Hx; discriminate end.
    - apply keep_spec. unfold kept_names in *. rewrite En'. exact Hk.
  Qed.
End Seeds.

(** ** Examples and counterexamples, in the world of [P_DFSCase] *)
Local Open Scope string_scope.
Definition s_seed (nm : option string) : feat := FTrans w_abs [FTrans w_abs [FIdent "customers" "age" None] None] nm.
Definition s_args (nm : option string) : dfs_args := mkArgs "customers" [w_sum] [] [] [] 1 (-1) [] [] [] [] [s_seed nm] [] [] 1.
(** a seed that is two levels deep is returned at max_depth=1 *)
Example C90_nonvacuous : exists fs, d_run (s_args None) None = Ok fs /\ map (fname d_rels) fs = ["age"; "SUM(sessions.x)"; "ABSOLUTE(ABSOLUTE(age))"] /\
  fname d_rels (s_seed None) <> "id" /\ kept_names d_rels (s_args None) (s_seed None) /\ fentity (s_seed None) = g_target (s_args None).
Proof. eexists. split; [vm_compute; reflexivity|]. split; [vm_compute; reflexivity|]. split; [vm_compute; discriminate|]. split; [|reflexivity]. unfold kept_names. cbn [g_drop_contains g_drop_exact s_args]. split; [intros [] | intros ? []]. Qed.
(** a seed may be replaced: what is returned under its name is another feature *)
Theorem C90_replaced_refuted : exists A f fs g, In f (g_seeds A) /\ fentity f = g_target A /\ d_run A None = Ok fs /\ ~ In f fs /\ In g fs /\ fname d_rels g = fname d_rels f /\
  (exists p m path u, g = FAgg p m path u None None None) /\ (exists p m nm, f = FTrans p m nm).
Proof.
  exists (s_args (Some "SUM(sessions.x)")), (s_seed (Some "SUM(sessions.x)")). do 2 eexists. split; [left; reflexivity|]. split; [reflexivity|]. split; [vm_compute; reflexivity|].
  split; [intros [E|[E|[]]]; discriminate E|]. split; [right; left; reflexivity|]. split; [vm_compute; reflexivity|]. split; repeat eexists.
Qed.
(** and a seed may replace a column of the target, which is then not returned *)
Theorem C90_column_refuted : exists A fs, g_ignore_e A = [] /\ g_ignore_v A = [] /\ g_drop_contains A = [] /\ g_drop_exact A = [] /\ g_maxf A = (-1)%Z /\
  d_run A None = Ok fs /\ In "age" (w_vars d_schema (g_target A)) /\ ~ In (FIdent (g_target A) "age" None) fs /\
  (exists fs', d_run (mkArgs (g_target A) (g_aggs A) (g_trans A) (g_wheres A) (g_groups A) (g_depth A) (-1) [] [] [] [] [] [] [] 1) None = Ok fs' /\ In (FIdent (g_target A) "age" None) fs').
Proof.
  exists (s_args (Some "age")). eexists. do 5 (split; [reflexivity|]). split; [vm_compute; reflexivity|]. split; [right; left; reflexivity|].
  split; [intros [E|[E|[]]]; discriminate E|]. eexists. split; [vm_compute; reflexivity | left; reflexivity].
Qed.
Print Assumptions C90_returned_partial.
Print Assumptions C90_replaced_refuted.
Print Assumptions C90_column_refuted.
