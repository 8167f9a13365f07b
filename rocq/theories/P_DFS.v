(** C25-C28, C55: what deep feature synthesis returns. *)
From Coq Require Import Permutation Sorted.
From Verif Require Import Base BaseFacts M_Schema M_Feature M_Types M_Serialize M_Match M_DFS S_Schema S_Calc S_Match S_Depth S_DFS L_Schema P_Depth P_Serialize P_Match L_DFS.
Local Open Scope string_scope.
Local Open Scope list_scope.

(** ** Reconciled options *)
Lemma okey_eqb_spec a b : reflect (a = b) (okey_eqb a b).
Proof. destruct a as [i|n], b as [j|m]; cbn [okey_eqb]; try (constructor; discriminate); [destruct (Nat.eqb_spec i j) | destruct (String.eqb_spec n m)]; constructor; congruence. Qed.
Lemma In_dset_k {V} k (v : V) d n x : In (n, x) (dset okey_eqb k v d) -> x = v \/ In (n, x) d.
Proof.
  induction d as [|[k' v'] d IH]; cbn [dset]; [intros [[= <- <-]|[]]; auto|]. destruct (okey_eqb_spec k k') as [<-|Hk].
  - intros [[= <- <-]|H]; [auto | right; right; exact H].
  - intros [[= <- <-]|H]; [right; left; reflexivity|]. destruct (IH H) as [?|?]; [auto | right; right; assumption].
Qed.
Lemma diff_In x a b : In x (diff a b) <-> In x a /\ ~ In x b.
Proof. unfold diff. rewrite filter_In, negb_true_iff, mem_str_nIn. reflexivity. Qed.

Section Globals.
  Variable attr : prim -> pattr.
  Variable arity_of : okey -> option nat.
  Variable u : uopts.
  (** include lists come from the caller *)
  Definition from_user (o : popt) : Prop := (o_inc_e o = None /\ o_inc_v o = None) \/ exists o', options_in u o' /\ o_inc_e o = o_inc_e o' /\ o_inc_v o = o_inc_v o'.
  Lemma init_from_user os : init_primitive_options arity_of u = Ok os -> forall k l o, In (k, l) os -> In o l -> from_user o.
  Proof.
    unfold init_primitive_options. intros H k l o Hk Ho.
    assert (forall k l, In (k, l) os -> forall o, In o l -> from_user o) as X; [|eauto]. clear k l o Hk Ho. revert H. apply (foldM_inv (fun os => forall k l, In (k, l) os -> forall o, In o l -> from_user o)); [|intros k l []].
    intros acc [keys spec] acc' Hg Hacc. unfold init_group. cbn [fst snd]. destruct (match spec with inl o => Ok [o] | inr _ => _ end) as [l0|] eqn:El; cbn [bind]; [|discriminate].
    assert (forall o, In o l0 -> options_in u o) as Hl0.
    { intros o Ho. exists keys, spec. split; [exact Hg|]. destruct spec as [o'|os']; [injection El as <-; destruct Ho as [<-|[]]; reflexivity|]. destruct (mapM _ keys) as [?|]; cbn [bind] in El; [|discriminate]. injection El as <-. exact Ho. }
    apply (foldM_inv (fun os => forall k l, In (k, l) os -> forall o, In o l -> from_user o)); [|exact Hacc]. intros a k a' _ Ha. destruct (dget okey_eqb k a); [discriminate|]. intros [= <-] k' l Hin o Ho. destruct (In_dset_k _ _ _ _ _ Hin) as [->|Hin']; [|exact (Ha _ _ Hin' _ Ho)].
    right. exists o. auto.
  Qed.

  Variable ign_e : list string.
  Variable ign_v : edict.
  Definition ginv (G : gopts) : Prop :=
    (forall k l o, In (k, l) (g_opts G) -> In o l -> from_user o) /\
    (forall e, In e ign_e -> ~ option_includes u e -> In e (g_ign_e G)) /\ incl (g_ign_e G) ign_e /\
    (forall e v, In v (dd_get e ign_v) -> ~ option_includes_variable u e v -> In v (dd_get e (g_ign_v G))).
  Lemma included_user os : (forall o, In o os -> from_user o) -> forall e, In e (included_entities os) -> option_includes u e.
  Proof.
    intros H e He. apply in_flat_map in He as (o & Ho & He). destruct (H o Ho) as [[E1 E2]|(o' & Hu & E1 & E2)]; rewrite E1, E2 in He; [contradiction|]. exists o'. split; [exact Hu|].
    apply in_app_or in He as [He|He]; [left | right].
    - destruct (o_inc_e o') as [l|]; [exists l; auto | contradiction].
    - destruct (o_inc_v o') as [i|]; [|contradiction]. apply in_map_iff in He as ([e' vs] & <- & Hi). exists i, vs. auto.
  Qed.
  Lemma unignore_keeps o d e v : from_user o -> ~ option_includes_variable u e v -> In v (dd_get e d) -> In v (dd_get e (unignore d o)).
  Proof.
    intros Ho Hn. unfold unignore. destruct (o_inc_v o) as [i|] eqn:Ei; [|auto]. assert (forall vs, In (e, vs) i -> ~ In v vs) as Hi.
    { intros vs Hvs Hv. apply Hn. destruct Ho as [[_ E]|(o' & Hu & _ & E)]; [congruence|]. exists o', i, vs. rewrite <- E. auto. }
    clear Ei. revert d. induction i as [|[e1 vs] i IH]; intros d Hd; cbn [fold_left]; [exact Hd|]. apply IH; [intros vs' H'; apply Hi; right; exact H'|]. unfold dd_get at 1. cbn [fst snd].
    destruct (String.eqb_spec e e1) as [<-|He]; [rewrite (dget_dset_same _ String.eqb_spec); apply diff_In; split; [exact Hd | apply Hi; left; reflexivity] | rewrite (dget_dset_other _ String.eqb_spec) by exact He; exact Hd].
  Qed.
  Lemma generated prims G : generate_all_primitive_options attr arity_of prims u ign_e ign_v = Ok G -> ginv G.
  Proof.
    unfold generate_all_primitive_options. destruct (init_primitive_options arity_of u) as [os|] eqn:Eo; cbn [bind]; [|discriminate]. intros [= <-].
    assert (ginv (mkGo os ign_e ign_v)) as H0 by (split; [intros k l o; apply (init_from_user os Eo)|]; split; [auto|]; split; [apply incl_refl | auto]).
    revert H0. generalize (mkGo os ign_e ign_v) as s. clear os Eo. induction prims as [|p ps IH]; intros s Hs; cbn [fold_left]; [exact Hs|]. apply IH. clear IH. destruct Hs as (H1 & H2 & Hincl & H3). unfold gen_step.
    destruct (prim_key attr (g_opts s) p) as [k|].
    - set (l := match dget okey_eqb k (g_opts s) with Some os => os | None => [] end).
      assert (forall o, In o l -> from_user o) as Hl by (intros o Ho; subst l; destruct (dget okey_eqb k (g_opts s)) as [os|] eqn:E; [|contradiction]; apply (dget_In _ okey_eqb_spec) in E; eapply H1; eauto).
      split; [|split; [|split]]; cbn [g_opts g_ign_e g_ign_v].
      + intros k' l' o Hin Ho. destruct (In_dset_k _ _ _ _ _ Hin) as [->|Hin']; [|eapply H1; eauto]. apply in_map_iff in Ho as (o0 & <- & Ho0). destruct (Hl o0 Ho0) as [E|(o' & Hu & E1 & E2)]; [left; exact E | right; exists o'; auto].
      + intros e He Hn. apply diff_In. split; [apply H2; assumption | intros Hc; apply Hn; apply (included_user l Hl); exact Hc].
      + intros e He. apply diff_In in He as [He _]. apply Hincl. exact He.
      + intros e v Hv Hn. specialize (H3 e v Hv Hn). revert H3. generalize (g_ign_v s) as d. clear - Hl Hn. induction l as [|o l IH]; intros d Hd; cbn [fold_left]; [exact Hd|]. apply IH; [intros o' Ho'; apply Hl; right; exact Ho'|]. apply unignore_keeps; [apply Hl; left; reflexivity | exact Hn | exact Hd].
    - split; [|split; [|split]]; cbn [g_opts g_ign_e g_ign_v]; auto. intros k' l' o Hin Ho. destruct (In_dset_k _ _ _ _ _ Hin) as [->|Hin']; [|eapply H1; eauto]. destruct Ho as [<-|[]]. left. auto.
  Qed.
  (** so do the groupby variables *)
  Definition gv_user (o : popt) : Prop := o_inc_gv o = None \/ exists o', options_in u o' /\ o_inc_gv o = o_inc_gv o'.
  Lemma init_gv_user os : init_primitive_options arity_of u = Ok os -> forall k l o, In (k, l) os -> In o l -> gv_user o.
  Proof.
    unfold init_primitive_options. intros H k l o Hk Ho.
    assert (forall k l, In (k, l) os -> forall o, In o l -> gv_user o) as X; [|eauto]. clear k l o Hk Ho. revert H. apply (foldM_inv (fun os => forall k l, In (k, l) os -> forall o, In o l -> gv_user o)); [|intros k l []].
    intros acc [keys spec] acc' Hg Hacc. unfold init_group. cbn [fst snd]. destruct (match spec with inl o => Ok [o] | inr _ => _ end) as [l0|] eqn:El; cbn [bind]; [|discriminate].
    assert (forall o, In o l0 -> options_in u o) as Hl0.
    { intros o Ho. exists keys, spec. split; [exact Hg|]. destruct spec as [o'|os']; [injection El as <-; destruct Ho as [<-|[]]; reflexivity|]. destruct (mapM _ keys) as [?|]; cbn [bind] in El; [|discriminate]. injection El as <-. exact Ho. }
    apply (foldM_inv (fun os => forall k l, In (k, l) os -> forall o, In o l -> gv_user o)); [|exact Hacc]. intros a k a' _ Ha. destruct (dget okey_eqb k a); [discriminate|]. intros [= <-] k' l Hin o Ho. destruct (In_dset_k _ _ _ _ _ Hin) as [->|Hin']; [|exact (Ha _ _ Hin' _ Ho)].
    right. exists o. auto.
  Qed.
  Lemma generated_gv prims G : generate_all_primitive_options attr arity_of prims u ign_e ign_v = Ok G -> forall k l o, In (k, l) (g_opts G) -> In o l -> gv_user o.
  Proof.
    unfold generate_all_primitive_options. destruct (init_primitive_options arity_of u) as [os|] eqn:Eo; cbn [bind]; [|discriminate]. intros [= <-].
    pose proof (init_gv_user os Eo) as H0. change os with (g_opts (mkGo os ign_e ign_v)) in H0. revert H0. generalize (mkGo os ign_e ign_v) as s. clear os Eo. induction prims as [|p ps IH]; intros s Hs; cbn [fold_left]; [exact Hs|]. apply IH. clear IH. unfold gen_step.
    destruct (prim_key attr (g_opts s) p) as [k|]; cbn [g_opts]; intros k' l' o Hin Ho; (destruct (In_dset_k _ _ _ _ _ Hin) as [->|Hin']; [|eapply Hs; eauto]).
    - apply in_map_iff in Ho as (o0 & <- & Ho0). destruct (dget okey_eqb k (g_opts s)) as [os|] eqn:E; [|contradiction]. apply (dget_In _ okey_eqb_spec) in E. destruct (Hs _ _ _ E Ho0) as [E'|(o' & Hu & E')]; [left; exact E' | right; exists o'; auto].
    - destruct Ho as [<-|[]]. left. reflexivity.
  Qed.
  Lemma grouped prims G p e : generate_all_primitive_options attr arity_of prims u ign_e ign_v = Ok G -> existsb (fun o => has_key e (o_inc_gv o)) (options_of attr (g_opts G) p) = true -> option_groups u e.
  Proof.
    intros HG H. apply existsb_exists in H as (o & Ho & Hk). assert (exists k l, In (k, l) (g_opts G) /\ In o l) as (k & l & Hl & Hol).
    { unfold options_of in Ho. destruct (dget okey_eqb (KInst _) _) as [l|] eqn:E; [apply (dget_In _ okey_eqb_spec) in E; eauto|]. destruct (dget okey_eqb (KName _) _) as [l|] eqn:E'; [apply (dget_In _ okey_eqb_spec) in E'; eauto | contradiction]. }
    unfold has_key in Hk. destruct (generated_gv _ _ HG _ _ _ Hl Hol) as [E|(o' & Hu & E)]; rewrite E in Hk; [discriminate|]. destruct (o_inc_gv o') as [d|] eqn:Ed; [|discriminate]. destruct (dget String.eqb e d) as [vs|] eqn:Ev; [|discriminate]. apply (dget_In _ String.eqb_spec) in Ev. exists o', d, vs. auto.
  Qed.
End Globals.

(** ** Depth *)
Lemma depth_stop_nil rels fuel f : depth_fuel rels fuel (Some []) f = depth_fuel rels fuel None f.
Proof.
  revert f. induction fuel as [|fuel IH]; intros f; destruct f; try reflexivity; cbn [depth_fuel]; destruct (mem_str _ []); try reflexivity.
  all: match goal with |- bind ?a _ = bind ?b _ => assert (a = b) as -> end; [|reflexivity]; match goal with |- mapM _ ?ds = _ => generalize ds end; intros ds; induction ds as [|x ds IHl]; cbn [mapM]; [reflexivity|]; rewrite IH, IHl; reflexivity.
Qed.
Lemma depth_bound_stop rels stop f n k : get_depth rels stop f = Ok n -> fdeps f <> [] -> (forall d j, In d (fdeps f) -> get_depth rels stop d = Ok j -> j <= k) -> n <= S k.
Proof.
  intros Hn Hne H. destruct (C24_depth rels stop f) as (n' & Hn' & H0 & H1). cbn zeta in *. rewrite Hn in Hn'. injection Hn' as <-.
  destruct n as [|n]; [lia|]. destruct H1 as (m & Em & _ & Hm); [intros B; specialize (H0 B); discriminate|]. injection Em as ->. destruct (Hm Hne) as (d & Hd & Ed). specialize (H d m Hd Ed). lia.
Qed.
Lemma depth_total_stop rels stop f : exists n, get_depth rels stop f = Ok n.
Proof. destruct (C24_depth rels stop f) as (n & Hn & _). exists n. exact Hn. Qed.
Lemma depth_bound rels f n k : get_depth rels None f = Ok n -> fdeps f <> [] -> (forall d j, In d (fdeps f) -> get_depth rels None d = Ok j -> j <= k) -> n <= S k.
Proof. apply depth_bound_stop. Qed.
Lemma depth_total rels f : exists n, get_depth rels None f = Ok n.
Proof. apply depth_total_stop. Qed.
Lemma depth_in_stop rels names f n : In (funique rels f) names -> get_depth rels (Some names) f = Ok n -> n = 0.
Proof. intros H Hn. destruct (C24_depth rels (Some names) f) as (n' & Hn' & H0 & _). cbn zeta in *. rewrite Hn in Hn'. injection Hn' as <-. apply H0. right. exact H. Qed.
Lemma depth_ident_stop rels stop e v nm n : get_depth rels stop (FIdent e v nm) = Ok n -> n = 0.
Proof. intros Hn. destruct (C24_depth rels stop (FIdent e v nm)) as (n' & Hn' & H0 & _). cbn zeta in *. rewrite Hn in Hn'. injection Hn' as <-. apply H0. left. exists e, v, nm. reflexivity. Qed.

Lemma StronglySorted_filter {X} (R : X -> X -> Prop) p l : StronglySorted R l -> StronglySorted R (filter p l).
Proof.
  induction 1 as [|a l Hs IH Hf]; cbn [filter]; [constructor|]. destruct (p a); [|exact IH]. constructor; [exact IH|]. rewrite Forall_forall in *. intros x Hx. apply filter_In in Hx as [Hx _]. apply Hf. exact Hx.
Qed.
Lemma firstn_incl {X} n (l : list X) : incl (firstn n l) l.
Proof. revert n. induction l as [|a l IH]; intros [|n]; cbn [firstn]; [intros x [] | intros x [] | intros x [] |]. intros x [<-|Hx]; [left; reflexivity | right; apply (IH n); exact Hx]. Qed.
Lemma StronglySorted_firstn {X} (R : X -> X -> Prop) n l : StronglySorted R l -> StronglySorted R (firstn n l).
Proof.
  intros H. revert n. induction H as [|a l Hs IH Hf]; intros [|n]; cbn [firstn]; try constructor; [apply IH|]. rewrite Forall_forall in *. intros x Hx. apply Hf. apply (firstn_incl n l). exact Hx.
Qed.
Lemma NoDup_firstn {X} n (l : list X) : NoDup l -> NoDup (firstn n l).
Proof. intros H. revert n. induction H as [|a l Ha Hn IH]; intros [|n]; cbn [firstn]; try constructor; [intros Hx; apply Ha; apply (firstn_incl n l); exact Hx | apply IH]. Qed.
Lemma NoDup_map_filter {X Y} (f : X -> Y) p l : NoDup (map f l) -> NoDup (map f (filter p l)).
Proof. induction l as [|a l IH]; cbn [map filter]; [auto|]. intros H. inversion H as [|? ? H1 H2]; subst. destruct (p a); cbn [map]; [constructor; [|apply IH; exact H2] | apply IH; exact H2]. intros Hin. apply H1. apply in_map_iff in Hin as (z & <- & Hz). apply filter_In in Hz as [Hz _]. apply in_map. exact Hz. Qed.

Lemma prefix_spec c s : String.prefix c s = true <-> exists b, s = (c ++ b)%string.
Proof.
  revert s. induction c as [|x c IH]; intros s; [split; [intros _; exists s; reflexivity | destruct s; reflexivity]|]. destruct s as [|y s]; cbn [String.prefix]; [split; [discriminate | intros [b [=]]]|].
  destruct (Ascii.ascii_dec x y) as [<-|Hxy]; [rewrite IH; split; intros [b E]; exists b; [rewrite E; reflexivity | injection E as E; exact E] | split; [discriminate | intros [b [= E _]]; congruence]].
Qed.
Lemma substr_spec c s : substr c s = true <-> contains c s.
Proof.
  unfold contains. induction s as [|x s IH]; cbn [substr]; rewrite orb_true_iff, prefix_spec.
  - split; [intros [[b E]|[=]]; exists ""%string, b; exact E | intros (a & b & E); left; exists b; destruct a; [exact E | discriminate]].
  - rewrite IH. split; [intros [[b E]|(a & b & ->)]; [exists ""%string, b; exact E | exists (String x a), b; reflexivity] | intros (a & b & E); destruct a as [|y a]; [left; exists b; exact E | injection E as <- ->; right; exists a, b; reflexivity]].
Qed.

Section DFS.
  Variable entities : list string.
  Variable variables : string -> list string.
  Variable vtypes : string -> string -> option vtyp.
  Variable interesting : string -> string -> list val.
  Variable index_of : string -> option string.
  Variable rels : list relationship.
  Variable p_ret : prim -> option vtyp.
  Variable p_inputs : prim -> option (list (list vtyp)).
  Variable attr : prim -> pattr.
  Variable subc : nat -> nat -> bool.
  Variable eq_prim : val -> prim.
  Variable arity_of : okey -> option nat.
  Variable lower : string -> string.
  (** Python iterates a set of features in some order *)
  Variable ordF : list feat -> list feat.
  Hypothesis ordF_perm : forall l, Permutation (ordF l) l.
  (** dfs(...): [A] are the arguments, [ret] is return_variable_types ([None]: 'all') *)
  Notation dfs := (build_features entities variables vtypes interesting index_of rels p_ret p_inputs attr subc eq_prim arity_of lower ordF).
  Notation finish := (finish vtypes index_of rels p_ret).
  Notation ftype := (ftype p_ret vtypes).
  Notation depth := (get_depth rels None).
  Notation gen := (gen variables vtypes interesting rels p_ret p_inputs attr subc eq_prim).
  Notation stored := (stored variables vtypes interesting rels p_ret p_inputs attr subc eq_prim).
  Notation is_where := (is_where vtypes interesting p_ret p_inputs eq_prim).
  Notation requested := (requested variables vtypes interesting rels p_ret p_inputs (fun p => a_class (attr p)) subc eq_prim).

  Lemma finish_spec A ret d fs : finish A ret d = Ok fs ->
    exists l, Permutation l (filter (fun f => negb (is_target_index index_of A f)) (filter (fun f => match ret with None => true | Some ts => existsb (issub (ftype f)) ts end) (map snd d))) /\
      StronglySorted (not_deeper rels) l /\
      fs = (if Z.ltb 0 (g_maxf A) then firstn (Z.to_nat (g_maxf A)) (filter (keep_feature rels A) l) else filter (keep_feature rels A) l).
  Proof.
    unfold M_DFS.finish. match goal with |- bind (sort_by_depth _ ?x) _ = _ -> _ => set (l0 := x) end. unfold sort_by_depth. destruct (mapM _ l0) as [ds|] eqn:Ed; cbn [bind]; [|discriminate]. intros [= <-].
    exists (map snd (isort (fun a b : nat * feat => Nat.leb (fst a) (fst b)) ds)). apply mapM_Ok_Forall2 in Ed. split; [|split; [|reflexivity]].
    - rewrite (Permutation_map snd (isort_perm _ ds)). replace (map snd ds) with l0; [reflexivity|]. clear - Ed. induction Ed as [|f p l l' E _ IH]; cbn [map]; [reflexivity|]. destruct (depth f) as [n|]; cbn [bind] in E; [|discriminate]. injection E as <-. cbn [snd]. congruence.
    - assert (forall p, In p ds -> depth (snd p) = Ok (fst p)) as Hd.
      { intros p Hp. destruct (Forall2_In_r _ _ _ p Ed Hp) as (f & _ & E). destruct (depth f) as [n|] eqn:En; cbn [bind] in E; [|discriminate]. injection E as <-. exact En. }
      pose proof (isort_sorted (fun a b : nat * feat => Nat.leb (fst a) (fst b))) as Hs. specialize (Hs ltac:(intros a b; rewrite !Nat.leb_le; lia) ltac:(intros a b c; rewrite !Nat.leb_le; lia) ds).
      assert (forall p, In p (isort (fun a b : nat * feat => Nat.leb (fst a) (fst b)) ds) -> In p ds) as Hin by (intros p; apply Permutation_in, isort_perm). revert Hs Hin. generalize (isort (fun a b : nat * feat => Nat.leb (fst a) (fst b)) ds) as l.
      induction 1 as [|a l Hs IH Hf]; intros Hin; cbn [map]; constructor; [apply IH; intros p Hp; apply Hin; right; exact Hp|]. rewrite Forall_forall in *. intros f Hf'. apply in_map_iff in Hf' as (p & <- & Hp). intros n k En Ek.
      rewrite (Hd a (Hin a (or_introl eq_refl))) in En. rewrite (Hd p (Hin p (or_intror Hp))) in Ek. specialize (Hf p Hp). apply Nat.leb_le in Hf. congruence.
  Qed.
  Lemma finish_In A ret d fs f : finish A ret d = Ok fs -> In f fs -> (exists n, In (n, f) d) /\ (forall ts, ret = Some ts -> existsb (issub (ftype f)) ts = true) /\ is_target_index index_of A f = false.
  Proof.
    intros H Hf. destruct (finish_spec _ _ _ _ H) as (l & Hp & _ & ->). assert (In f l) as Hl by (destruct (Z.ltb _ _); [apply firstn_incl in Hf|]; apply filter_In in Hf; tauto).
    apply (Permutation_in _ Hp) in Hl. apply filter_In in Hl as [Hl Hi]. apply filter_In in Hl as [Hl Ht]. apply negb_true_iff in Hi. split; [|split; [intros ts ->; exact Ht | exact Hi]]. apply in_map_iff in Hl as ([n f'] & <- & Hl). exists n. exact Hl.
  Qed.
  Lemma dfs_inv A ret tf fuel fs : dfs A ret tf fuel = Ok fs -> exists G d,
    In (g_target A) entities /\ ~ In (g_target A) (g_ignore_e A) /\
    generate_all_primitive_options attr arity_of (g_trans A ++ g_aggs A ++ g_wheres A ++ g_groups A) (g_options A) (g_ignore_e A) (g_ignore_v A) = Ok G /\
    NoDup (map fst d) /\ (forall n f, In (n, f) d -> n = funique rels f /\ fentity f = g_target A /\ stored A G (depth_limit entities A) f) /\ finish A ret d = Ok fs.
  Proof.
    unfold build_features. destruct (mem_str (g_target A) entities) eqn:E1; cbn [negb]; [|discriminate]. destruct (mem_str (g_target A) (g_ignore_e A)) eqn:E2; [discriminate|].
    destruct (generate_all_primitive_options _ _ _ _ _ _) as [G|] eqn:EG; cbn [bind]; [|discriminate]. match goal with |- bind ?m _ = _ -> _ => destruct m as [s|] eqn:Es end; cbn [bind]; [|discriminate].
    destruct (dget String.eqb (g_target A) (s_all s)) as [d|] eqn:Ed; [|discriminate]. intros Hf. exists G, d. apply mem_str_In in E1. apply mem_str_nIn in E2.
    apply (run_inv variables vtypes interesting rels p_ret p_inputs attr subc eq_prim lower ordF ordF_perm A G (depth_limit entities A)) in Es.
    - destruct Es as [Hs _]. destruct (Hs _ _ Ed) as (_ & Hn & Hd). auto 10.
    - split; [intros e d' [=] | intros e l w [=]].
    - unfold mdle, lim. rewrite String.eqb_refl. destruct (depth_limit entities A) as [z|]; [exists z; split; [reflexivity | lia] | exact I].
    - left. reflexivity.
  Qed.
  Lemma dfs_gen A ret tf fuel fs f : dfs A ret tf fuel = Ok fs -> In f fs -> exists G,
    generate_all_primitive_options attr arity_of (g_trans A ++ g_aggs A ++ g_wheres A ++ g_groups A) (g_options A) (g_ignore_e A) (g_ignore_v A) = Ok G /\
    ~ In (g_target A) (g_ignore_e A) /\ fentity f = g_target A /\ stored A G (depth_limit entities A) f.
  Proof. intros H Hf. destruct (dfs_inv _ _ _ _ _ H) as (G & d & _ & Hi & HG & _ & Hd & Hfin). destruct (finish_In _ _ _ _ f Hfin Hf) as [(n & Hn) _]. destruct (Hd n f Hn) as (_ & He & Hst). exists G. auto. Qed.

  (** *** C26: distinct names, the target entity, the requested types, shallow first, never the target's index *)
  Theorem C26_result A ret tf fuel fs : dfs A ret tf fuel = Ok fs ->
    NoDup (map (fname rels) fs) /\
    (forall f, In f fs -> fentity f = g_target A) /\
    (forall f ts, In f fs -> ret = Some ts -> exists t, In t ts /\ issub (ftype f) t = true) /\
    StronglySorted (not_deeper rels) fs /\
    (forall i nm, index_of (g_target A) = Some i -> ~ In (FIdent (g_target A) i nm) fs).
  Proof.
    intros H. destruct (dfs_inv _ _ _ _ _ H) as (G & d & _ & _ & _ & Hn & Hd & Hfin). pose proof (fun f => finish_In _ _ _ _ f Hfin) as Hin. assert (forall f, In f fs -> fentity f = g_target A) as He.
    { intros f Hf. destruct (Hin f Hf) as [(n & Hk) _]. apply (Hd n f Hk). }
    split; [|split; [exact He|]; split; [|split]].
    - destruct (finish_spec _ _ _ _ Hfin) as (l & Hp & _ & E). assert (NoDup (map (funique rels) fs)) as Hu.
      { assert (NoDup (map (funique rels) (filter (keep_feature rels A) l))) as Hl.
        { apply NoDup_map_filter. apply (Permutation_NoDup (Permutation_map (funique rels) (Permutation_sym Hp))). do 2 apply NoDup_map_filter. rewrite map_map.
          replace (map (fun x : string * feat => funique rels (snd x)) d) with (map fst d); [exact Hn|]. apply map_ext_in. intros [n f] Hk. apply (Hd n f Hk). }
        rewrite E. destruct (Z.ltb _ _); [|exact Hl]. rewrite <- firstn_map. apply NoDup_firstn. exact Hl. }
      clear - Hu He. induction fs as [|f fs IH]; cbn [map] in *; [constructor|]. inversion Hu as [|? ? H1 H2]; subst. constructor; [|apply IH; [intros g Hg; apply He; right; exact Hg | exact H2]].
      intros Hf. apply H1. apply in_map_iff in Hf as (g & E & Hg). apply in_map_iff. exists g. split; [|exact Hg]. unfold funique. rewrite E, (He f (or_introl eq_refl)), (He g (or_intror Hg)). reflexivity.
    - intros f ts Hf ->. destruct (Hin f Hf) as (_ & Ht & _). specialize (Ht ts eq_refl). apply existsb_exists in Ht. exact Ht.
    - destruct (finish_spec _ _ _ _ Hfin) as (l & _ & Hs & ->). destruct (Z.ltb _ _); [apply StronglySorted_firstn|]; apply StronglySorted_filter; exact Hs.
    - intros i nm Hi Hf. destruct (Hin _ Hf) as (_ & _ & Ht). cbn [is_target_index] in Ht. rewrite Hi, !String.eqb_refl in Ht. discriminate.
  Qed.

  (** *** C28: the filters on the result are exact *)
  Definition unfiltered (A : dfs_args) : dfs_args :=
    mkArgs (g_target A) (g_aggs A) (g_trans A) (g_wheres A) (g_groups A) (g_depth A) (-1) (g_paths A) (g_ignore_e A) (g_ignore_v A) (g_options A) (g_seeds A) [] [] (g_limit A).
  Definition kept_names (A : dfs_args) (f : feat) : Prop :=
    ~ In (fname rels f) (g_drop_exact A) /\ forall c, In c (g_drop_contains A) -> ~ contains c (fname rels f).
  Lemma keep_spec A f : keep_feature rels A f = true <-> kept_names A f.
  Proof.
    unfold keep_feature, kept_names. rewrite andb_true_iff, !negb_true_iff, mem_str_nIn. split; intros [H1 H2]; split; auto.
    - intros c Hc Hx. apply substr_spec in Hx. assert (existsb (fun c => substr c (fname rels f)) (g_drop_contains A) = true) by (apply existsb_exists; exists c; auto). congruence.
    - apply not_true_is_false. intros H. apply existsb_exists in H as (c & Hc & Hx). apply (H2 c Hc), substr_spec. exact Hx.
  Qed.
  Theorem C28_filters A ret tf fuel all fs : dfs (unfiltered A) ret tf fuel = Ok all -> dfs A ret tf fuel = Ok fs ->
    exists kept, (forall f, In f kept <-> In f all /\ kept_names A f) /\ (exists dropb, kept = filter dropb all) /\
      fs = if Z.ltb 0 (g_maxf A) then firstn (Z.to_nat (g_maxf A)) kept else kept.
  Proof.
    intros Ha Hf. exists (filter (keep_feature rels A) all). split; [intros f; rewrite filter_In, keep_spec; reflexivity|]. split; [exists (keep_feature rels A); reflexivity|]. revert Ha Hf. unfold build_features.
    change (g_target (unfiltered A)) with (g_target A). change (g_ignore_e (unfiltered A)) with (g_ignore_e A). destruct (negb _); [discriminate|]. destruct (mem_str _ _); [discriminate|].
    change (g_trans (unfiltered A)) with (g_trans A). change (g_aggs (unfiltered A)) with (g_aggs A). change (g_wheres (unfiltered A)) with (g_wheres A). change (g_groups (unfiltered A)) with (g_groups A). change (g_options (unfiltered A)) with (g_options A). change (g_ignore_v (unfiltered A)) with (g_ignore_v A).
    destruct (generate_all_primitive_options _ _ _ _ _ _) as [G|]; cbn [bind]; [|discriminate]. change (depth_limit entities (unfiltered A)) with (depth_limit entities A).
    assert (forall md s, run_dfs variables vtypes interesting rels p_ret p_inputs attr subc eq_prim lower ordF (unfiltered A) G tf fuel (g_target A) [] md s = run_dfs variables vtypes interesting rels p_ret p_inputs attr subc eq_prim lower ordF A G tf fuel (g_target A) [] md s) as Hr by reflexivity.
    rewrite Hr. clear Hr. match goal with |- bind ?m _ = _ -> _ => destruct m as [s|] end; cbn [bind]; [|discriminate]. destruct (dget _ _ _) as [d|]; [|discriminate]. unfold M_DFS.finish.
    change (is_target_index index_of (unfiltered A)) with (is_target_index index_of A). destruct (sort_by_depth _ _) as [l|]; cbn [bind]; [|discriminate]. cbn [g_maxf unfiltered].
    assert (filter (keep_feature rels (unfiltered A)) l = l) as ->. { clear. induction l as [|a l IH]; [reflexivity|]. cbn [filter]. rewrite IH. reflexivity. }
    intros [= <-] [= <-]. reflexivity.
  Qed.

  (** ** Where generated features come from *)
  Section Gen.
    Variable A : dfs_args.
    Variable G : gopts.
    Variable D : option Z.
    (** part of a feature given by the caller *)
    Notation from_seed := (needed (g_seeds A)).
    Definition good (x : feat) : Prop := gen A G D x \/ exists e src, is_where e x src /\ gen A G D src /\ ~ In e (g_ign_e G).
    Lemma where_eq e w src : is_where e w src -> exists v nm x, src = FIdent e v nm /\ In x (interesting e v) /\ w = FTrans (eq_prim x) [FIdent e v nm] None.
    Proof. intros (v & nm & x & -> & Hx & Hw). apply mk_trans_eq in Hw as [_ ->]. exists v, nm, x. auto. Qed.
    Lemma good_dep f d : good f -> In d (fdeps f) -> good d \/ from_seed d.
    Proof.
      intros [Hf|(e & src & Hw & Hg & _)] Hd.
      - destruct Hf as [f Hs Hso|e v|b i Hb|p m path e ce f Hp Ho Hc Hne Hce Hig Hm Hv Hk Hf|p m path e ce w src f Hp Ho Hc Hne Hce Hig Hm Hv Hk Hw Hsrc Hl Hq Hf|p m e f Hp Ho Hig Hm Hv Hu Hf|p m g e f Hp Ho Hig Hm Hv Hu Hg Hge Hgw Hgv Hf|r b f Hr Ho Hp Hb He Hw Hf].
        + right. exists f. split; [exact Hs | apply (reaches_dep f d d); [exact Hd | apply reaches_refl]].
        + destruct Hd.
        + destruct Hd as [<-|[]]. left. left. exact Hb.
        + apply mk_agg_eq in Hf as [_ [u ->]]. unfold fdeps in Hd. cbn [fbases fwhere] in Hd. rewrite app_nil_r in Hd. left. left. apply Hm. exact Hd.
        + apply mk_agg_eq in Hf as [_ [u ->]]. unfold fdeps in Hd. cbn [fbases fwhere] in Hd. apply in_app_or in Hd as [Hd|[<-|[]]]; [left; left; apply Hm; exact Hd | left; right; exists ce, src; auto].
        + apply mk_trans_eq in Hf as [_ ->]. unfold fdeps in Hd. cbn [fbases fwhere] in Hd. rewrite app_nil_r in Hd. left. left. apply Hm. exact Hd.
        + apply mk_group_eq in Hf as ->. unfold fdeps in Hd. cbn [fbases fwhere] in Hd. rewrite app_nil_r in Hd. apply in_app_or in Hd as [Hd|[<-|[]]]; [left; left; apply Hm; exact Hd | left; left; exact Hg].
        + apply mk_direct_eq in Hf as ->. destruct Hd as [<-|[]]. left. left. exact Hb.
      - destruct (where_eq _ _ _ Hw) as (v & nm & x & -> & _ & ->). destruct Hd as [<-|[]]. left. left. exact Hg.
    Qed.
    Lemma good_or_seed f x : reaches f x -> good f \/ from_seed f -> good x \/ from_seed x.
    Proof.
      induction 1 as [f|f d g Hd _ IH]; [auto|]. intros [Hf|(s & Hs & Hr)]; apply IH; [apply (good_dep f); assumption|].
      right. exists s. split; [exact Hs|]. apply (reaches_trans _ f); [exact Hr|]. apply (reaches_dep f d d); [exact Hd | apply reaches_refl].
    Qed.
    Lemma good_reaches f x : reaches f x -> good f -> ~ from_seed x -> good x.
    Proof. intros H Hf Hx. destruct (good_or_seed f x H (or_introl Hf)) as [Hg|Hg]; [exact Hg | contradiction]. Qed.
    Lemma chain_head e path ce : backward_chain rels e path ce -> path <> [] -> match path with r :: _ => r_pe r | [] => "" end = e.
    Proof. intros H Hne. destruct H; [contradiction | reflexivity]. Qed.
    Lemma gen_entity f : gen A G D f -> open_entity A G (fentity f).
    Proof.
      induction 1 as [f Hs Hso|e v Ho Hlv Hv Hi Ht|b i Hb IH Hn Hi|p m path e ce f Hp Ho Hc Hne Hce Hig Hm Hv Hk Hf|p m path e ce w src f Hp Ho Hc Hne Hce Hig Hm Hv Hk Hw Hsrc IH Hl Hq Hf|p m e f Hp Ho Hig Hm Hv Hu Hf|p m g e f Hp Ho Hig Hm Hv Hu Hg IH Hge Hgw Hgv Hf|r b f Hr Ho Hp Hb IH He Hw Hf].
      - exact Hso.
      - exact Ho.
      - exact IH.
      - apply mk_agg_eq in Hf as [_ [u ->]]. cbn [fentity]. rewrite (chain_head e path ce Hc Hne). exact Ho.
      - apply mk_agg_eq in Hf as [_ [u ->]]. cbn [fentity]. rewrite (chain_head e path ce Hc Hne). exact Ho.
      - apply mk_trans_eq in Hf as [Hne ->]. destruct m as [|b m]; [contradiction|]. cbn [fentity]. destruct (Hm b (or_introl eq_refl)) as (_ & -> & _). exact Ho.
      - apply mk_group_eq in Hf as ->. destruct m as [|b m]; cbn [fentity]; [exact IH|]. destruct (Hm b (or_introl eq_refl)) as (_ & -> & _). exact Ho.
      - apply mk_direct_eq in Hf as ->. exact Ho.
    Qed.

    Lemma fits_check p m : check_types p_ret p_inputs vtypes p m = true -> m <> [] -> fits vtypes p_ret p_inputs p m.
    Proof.
      intros H Hne sigs Hs. unfold check_types in H. rewrite Hs in H. destruct m as [|b m]; [contradiction|]. apply existsb_exists in H as (ts & Hts & Hz). exists ts. split; [exact Hts|]. revert ts Hts Hz. generalize (b :: m) as l. clear. 
      induction l as [|f l IH]; intros ts Hts Hz i g t Hg Ht; destruct i; try discriminate; destruct ts as [|t0 ts]; try discriminate; cbn [nth_error zip_sub] in *; apply andb_true_iff in Hz as [H1 H2].
      - congruence.
      - assert (forall l ts, zip_sub p_ret vtypes ts l = true -> forall i g t, nth_error l i = Some g -> nth_error ts i = Some t -> issub (ftype g) t = true) as X.
        { clear. induction l as [|f l IH]; intros ts Hz i g t Hg Ht; destruct i; try discriminate; destruct ts as [|t0 ts]; try discriminate; cbn [nth_error zip_sub] in *; apply andb_true_iff in Hz as [H1 H2]; [congruence | eapply IH; eauto]. }
        eapply X; eauto.
    Qed.
    Lemma agg_fits p m path wh prev nm f : mk_agg p_ret p_inputs vtypes rels (fun _ _ => Ok tt) p m path wh prev nm = Ok f -> check_types p_ret p_inputs vtypes p m = true.
    Proof.
      unfold mk_agg. destruct (check_bases _) as [|]; cbn [bind]; [|discriminate]. destruct path as [|r path]; [discriminate|]. destruct (negb _); [discriminate|].
      destruct (has_unique_forward_path _ _ _) as [u|]; cbn [bind]; [|discriminate]. intros H. destruct wh; [destruct (String.eqb _ _); [|discriminate]|]; cbn [bind] in H; destruct prev; cbn [bind] in H; destruct (check_types _ _ _ _); congruence.
    Qed.
    Lemma no_link path b x : feature_in_relationship_path path b = false -> In x path -> ~ end_of (snd x) b.
    Proof.
      intros H Hx (nm & E). assert (feature_in_relationship_path path b = true); [|congruence]. destruct E as [-> | ->]; cbn [feature_in_relationship_path]; apply existsb_exists; exists x; (split; [exact Hx|]); rewrite !String.eqb_refl; [reflexivity | apply orb_true_r].
    Qed.
    Hypothesis options_ok : generate_all_primitive_options attr arity_of (g_trans A ++ g_aggs A ++ g_wheres A ++ g_groups A) (g_options A) (g_ignore_e A) (g_ignore_v A) = Ok G.
    Lemma good_requested x : good x -> ~ from_seed x -> requested A x.
    Proof.
      intros [H|(e & src & Hw & Hg & He)] Hno.
      - destruct H as [f Hs Hso|e v Ho Hlv Hv Hi Ht|b i Hb Hn Hi|p m path e ce f Hp Ho Hc Hne Hce Hig Hm Hv Hk Hf|p m path e ce w src f Hp Ho Hc Hne Hce Hig Hm Hv Hk Hw Hsrc Hl Hq Hf|p m e f Hp Ho Hig Hm Hv Hu Hf|p m g e f Hp Ho Hig Hm Hv Hu Hg Hge Hgw Hgv Hf|r b f Hr Ho Hp Hb He Hw Hf].
        + exfalso. apply Hno. exists f. split; [exact Hs | apply reaches_refl].
        + split; assumption.
        + split; assumption.
        + pose proof (agg_fits _ _ _ _ _ _ _ Hf) as Hct. apply mk_agg_eq in Hf as [Hmn [u ->]]. cbn [S_DFS.requested fentity]. split; [exact Hp|]. split; [exact Hmn|]. split; [apply fits_check; assumption|]. split; [exact (proj2 Hv)|]. split; [reflexivity|].
          split; [intros b r Hb Hr; destruct (Hm b Hb) as (_ & _ & _ & _ & Hlk); apply (no_link _ _ (false, r) Hlk); apply in_map_iff; exists r; auto|].
          split; [intros r b nm Hb; destruct (Hm _ Hb) as (_ & _ & _ & Hde & _); rewrite (chain_head e path ce Hc Hne); cbn [direct_of_entity] in Hde; apply String.eqb_neq; exact Hde|]. exists ce. split; [exact Hne|].
          rewrite (chain_head e path ce Hc Hne). split; [exact Hc|]. split; [intros b Hb; apply Hm; exact Hb | intros w [=]].
        + pose proof (agg_fits _ _ _ _ _ _ _ Hf) as Hct. apply mk_agg_eq in Hf as [Hmn [u ->]]. cbn [S_DFS.requested fentity]. split; [exact Hp|]. split; [exact Hmn|]. split; [apply fits_check; assumption|]. split; [exact (proj2 Hv)|]. split; [reflexivity|].
          split; [intros b r Hb Hr; destruct (Hm b Hb) as (_ & _ & _ & _ & Hlk); apply (no_link _ _ (false, r) Hlk); apply in_map_iff; exists r; auto|].
          split; [intros r b nm Hb; destruct (Hm _ Hb) as (_ & _ & _ & Hde & _); rewrite (chain_head e path ce Hc Hne); cbn [direct_of_entity] in Hde; apply String.eqb_neq; exact Hde|]. exists ce. split; [exact Hne|].
          rewrite (chain_head e path ce Hc Hne). split; [exact Hc|]. split; [intros b Hb; apply Hm; exact Hb | intros w' [= <-]]. split; [|exact Hq]. destruct (where_eq _ _ _ Hw) as (v & nm & x & _ & Hx & ->). exists v, nm, x. auto.
        + assert (check_types p_ret p_inputs vtypes p m = true) as Hct by (revert Hf; unfold mk_trans; destruct (check_bases _); cbn [bind]; [|discriminate]; destruct (check_types _ _ _ _); [reflexivity | discriminate]).
          apply mk_trans_eq in Hf as [Hmn ->]. split; [exact Hmn|]. left. split; [exact Hp|]. split; [apply fits_check; assumption | exact (proj2 Hv)].
        + assert (check_types p_ret p_inputs vtypes p (m ++ [g]) = true /\ issub (ftype g) YDiscrete = true) as [Hct Hd]. { clear Hgw. revert Hf. unfold mk_group. destruct (issub _ _); cbn [negb]; [|discriminate]. destruct (check_bases _); cbn [bind]; [|discriminate]. destruct (check_types _ _ _ _); [auto | discriminate]. }
          apply mk_group_eq in Hf as ->. split; [exact Hp|]. split; [|split; [exact (proj2 Hv)|]; split; [exact Hd|]]. 2: { destruct Hgw as [_ Hgt]. destruct (existsb (fun o => has_key e (o_inc_gv o)) (options_of attr (g_opts G) p)) eqn:Eg; [right; rewrite Hge; eapply grouped; eassumption | left; apply Hgt; exact Eg]. }
          intros sigs Hs. destruct (fits_check p (m ++ [g]) Hct ltac:(destruct m; discriminate) sigs Hs) as (ts & Hts & Hz). exists ts. split; [exact Hts|]. intros i f t Hf Ht. eapply Hz; [|exact Ht].
          rewrite nth_error_app1; [exact Hf|]. apply nth_error_Some. congruence.
        + apply mk_direct_eq in Hf as ->. split; [assumption|]. split; [assumption|]. apply (no_link _ _ (true, r) (proj2 Hw)). left. reflexivity.
      - destruct (where_eq _ _ _ Hw) as (v & nm & y & -> & Hx & ->). split; [discriminate|]. right. exists v, nm, y. auto.
    Qed.

    (** depths counted down to the seed features *)
    Lemma within_depth_seeds e k f n l : lim A D e = Some l -> within rels A (lim A D e) k f -> pool_depth rels A f = Ok n -> (Z.of_nat n <= l - k)%Z.
    Proof. intros -> (n' & Hp & Hn) Hf. congruence. Qed.
    Lemma bound_step_seeds f n l k : pool_depth rels A f = Ok n -> fdeps f <> [] -> (forall d j, In d (fdeps f) -> pool_depth rels A d = Ok j -> (Z.of_nat j <= l - k)%Z) -> (Z.of_nat n <= l - k + 1)%Z.
    Proof.
      intros Hn Hne H. destruct (fdeps f) as [|d0 ds] eqn:Ed; [contradiction|]. destruct (depth_total_stop rels (Some (seed_names rels A)) d0) as (j0 & Hj0). pose proof (H d0 j0 (or_introl eq_refl) Hj0) as H0.
      assert (n <= S (Z.to_nat (l - k))); [|lia]. apply (depth_bound_stop rels (Some (seed_names rels A)) f); [exact Hn | rewrite Ed; discriminate|]. rewrite Ed. intros d j Hd Hj. specialize (H d j Hd Hj). lia.
    Qed.
    Lemma gen_depth_seeds f n l : gen A G D f -> ~ (exists b i nm, f = FSlice b i nm) -> lim A D (fentity f) = Some l -> pool_depth rels A f = Ok n ->
      n = 0 \/ match f with
      | FIdent _ _ _ => False
      | FDirect _ _ _ => (Z.of_nat n <= l + 1)%Z
      | _ => (Z.of_nat n <= Z.max l (match fwhere f with Some _ => 2 | None => 0 end))%Z /\ (1 <= l)%Z
      end.
    Proof.
      intros H Hns Hl Hn.
      destruct H as [f Hs Hso|e v Ho Hlv Hv Hi Ht|b i Hb Hnb Hi|p m path e ce f Hp Ho Hc Hne Hce Hig Hm Hv Hk Hf|p m path e ce w src f Hp Ho Hc Hne Hce Hig Hm Hv Hk Hw Hsrc Hll Hq Hf|p m e f Hp Ho Hig Hm Hv Hu Hf|p m g e f Hp Ho Hig Hm Hv Hu Hg Hge Hgw Hgv Hf|r b f Hr Ho Hp Hb He Hw Hf].
      - left. apply (depth_in_stop rels (seed_names rels A) f); [apply in_map; exact Hs | exact Hn].
      - left. match type of Hn with pool_depth _ _ (FIdent ?a ?b ?c) = _ => exact (depth_ident_stop rels (Some (seed_names rels A)) a b c n Hn) end.
      - exfalso. apply Hns. exists b, i, None. reflexivity.
      - right. apply mk_agg_eq in Hf as [Hmn [u ->]]. cbn [fentity] in Hl. rewrite (chain_head e path ce Hc Hne) in Hl. cbn [fwhere]. assert (forall d j, In d m -> pool_depth rels A d = Ok j -> (Z.of_nat j <= l - 1)%Z) as Hmd by (intros d j Hd Hj; eapply within_depth_seeds; [exact Hl | apply Hm; exact Hd | exact Hj]).
        assert (1 <= l)%Z as Hl1 by (destruct m as [|d0 m0]; [contradiction|]; destruct (depth_total_stop rels (Some (seed_names rels A)) d0) as (j0 & Hj0); pose proof (Hmd d0 j0 (or_introl eq_refl) Hj0); lia). split; [|exact Hl1].
        pose proof (bound_step_seeds _ _ l 1 Hn) as X. unfold fdeps in X. cbn [fbases fwhere] in X. rewrite app_nil_r in X. specialize (X Hmn Hmd). lia.
      - right. apply mk_agg_eq in Hf as [Hmn [u ->]]. cbn [fentity] in Hl. rewrite (chain_head e path ce Hc Hne) in Hl. cbn [fwhere]. assert (forall d j, In d m -> pool_depth rels A d = Ok j -> (Z.of_nat j <= l - 1)%Z) as Hmd by (intros d j Hd Hj; eapply within_depth_seeds; [exact Hl | apply Hm; exact Hd | exact Hj]).
        assert (1 <= l)%Z as Hl1 by (destruct m as [|d0 m0]; [contradiction|]; destruct (depth_total_stop rels (Some (seed_names rels A)) d0) as (j0 & Hj0); pose proof (Hmd d0 j0 (or_introl eq_refl) Hj0); lia). split; [|exact Hl1].
        destruct (where_eq _ _ _ Hw) as (v & nm & x & -> & Hx & ->). pose proof (bound_step_seeds _ _ (Z.max l 2) 1 Hn) as X. unfold fdeps in X. cbn [fbases fwhere] in X. enough (Z.of_nat n <= Z.max l 2 - 1 + 1)%Z by lia. apply X; [destruct m; discriminate|].
        intros d j Hd Hj. apply in_app_or in Hd as [Hd|[<-|[]]]; [specialize (Hmd d j Hd Hj); lia|]. enough (j <= 1) by lia. match type of Hj with pool_depth _ _ ?w = _ => apply (depth_bound_stop rels (Some (seed_names rels A)) w); [exact Hj | discriminate|] end. unfold fdeps. cbn [fbases fwhere app]. intros d j' [<-|[]] Hd. match type of Hd with get_depth _ _ (FIdent ?a ?b ?c) = _ => pose proof (depth_ident_stop rels (Some (seed_names rels A)) a b c j' Hd) end. lia.
      - right. apply mk_trans_eq in Hf as [Hmn ->]. assert (e = fentity (FTrans p m None)) as -> by (destruct m as [|b m]; [contradiction|]; cbn [fentity]; destruct (Hm b (or_introl eq_refl)) as (_ & -> & _); reflexivity).
        cbn [fwhere]. assert (forall d j, In d m -> pool_depth rels A d = Ok j -> (Z.of_nat j <= l - 1)%Z) as Hmd by (intros d j Hd Hj; eapply within_depth_seeds; [exact Hl | apply Hm; exact Hd | exact Hj]).
        assert (1 <= l)%Z as Hl1 by (destruct m as [|d0 m0]; [contradiction|]; destruct (depth_total_stop rels (Some (seed_names rels A)) d0) as (j0 & Hj0); pose proof (Hmd d0 j0 (or_introl eq_refl) Hj0); lia). split; [|exact Hl1].
        pose proof (bound_step_seeds _ _ l 1 Hn) as X. unfold fdeps in X. cbn [fbases fwhere] in X. rewrite app_nil_r in X. specialize (X Hmn Hmd). lia.
      - right. apply mk_group_eq in Hf as ->. assert (e = fentity (FGroup p m g None)) as Ee by (destruct m as [|b m]; cbn [fentity]; [auto|]; destruct (Hm b (or_introl eq_refl)) as (_ & -> & _); reflexivity). rewrite <- Ee in Hl.
        cbn [fwhere]. assert (forall d j, In d (m ++ [g]) -> pool_depth rels A d = Ok j -> (Z.of_nat j <= l - 1)%Z) as Hmd by (intros d j Hd Hj; eapply within_depth_seeds; [exact Hl | apply in_app_or in Hd as [Hd|[<-|[]]]; [apply Hm; exact Hd | exact (proj1 Hgw)] | exact Hj]).
        assert (1 <= l)%Z as Hl1 by (destruct (depth_total_stop rels (Some (seed_names rels A)) g) as (j0 & Hj0); pose proof (Hmd g j0 ltac:(apply in_or_app; right; left; reflexivity) Hj0); lia). split; [|exact Hl1].
        pose proof (bound_step_seeds _ _ l 1 Hn) as X. unfold fdeps in X. cbn [fbases fwhere] in X. rewrite app_nil_r in X. specialize (X ltac:(destruct m; discriminate) Hmd). lia.
      - right. apply mk_direct_eq in Hf as ->. cbn [fentity] in Hl. pose proof (bound_step_seeds _ _ l 0 Hn) as X. unfold fdeps in X. cbn [fbases fwhere app] in X. enough (Z.of_nat n <= l - 0 + 1)%Z by lia. apply X; [discriminate|]. destruct Hw as [Hw _]. intros d j [<-|[]] Hj. eapply within_depth_seeds; eassumption.
    Qed.

    Hypothesis no_seeds : g_seeds A = [].
    Lemma gen_ident_level e v nm : gen A G D (FIdent e v nm) -> forall l, lim A D e = Some l -> (0 <= l)%Z.
    Proof.
      intros H. inversion H; subst; [|assumption| | | | |].
      - match goal with Hs : In _ (g_seeds A) |- _ => rewrite no_seeds in Hs; destruct Hs end.
      - match goal with Hf' : mk_agg _ _ _ _ _ _ _ _ _ _ _ = Ok _ |- _ => apply mk_agg_eq in Hf' as [_ [u [=]]] end.
      - match goal with Hf' : mk_agg _ _ _ _ _ _ _ _ _ _ _ = Ok _ |- _ => apply mk_agg_eq in Hf' as [_ [u [=]]] end.
      - match goal with Hf' : mk_trans _ _ _ _ _ _ = Ok _ |- _ => apply mk_trans_eq in Hf' as [_ [=]] end.
      - match goal with Hf' : mk_group _ _ _ _ _ _ _ = Ok _ |- _ => apply mk_group_eq in Hf'; discriminate end.
      - match goal with Hf' : mk_direct _ _ _ = Ok _ |- _ => apply mk_direct_eq in Hf'; discriminate end.
    Qed.

    (** depths, when the run is limited *)
    Lemma within_depth e k f n l : lim A D e = Some l -> within rels A (lim A D e) k f -> depth f = Ok n -> (Z.of_nat n <= l - k)%Z.
    Proof. intros -> (n' & Hp & Hn) Hf. unfold pool_depth, seed_names in Hp. rewrite no_seeds in Hp. cbn [map] in Hp. unfold get_depth in *. rewrite depth_stop_nil in Hp. congruence. Qed.
    Lemma bound_step f n l k : depth f = Ok n -> fdeps f <> [] -> (forall d j, In d (fdeps f) -> depth d = Ok j -> (Z.of_nat j <= l - k)%Z) -> (Z.of_nat n <= l - k + 1)%Z.
    Proof.
      intros Hn Hne H. destruct (fdeps f) as [|d0 ds] eqn:Ed; [contradiction|]. destruct (depth_total rels d0) as (j0 & Hj0). pose proof (H d0 j0 (or_introl eq_refl) Hj0) as H0.
      assert (n <= S (Z.to_nat (l - k))); [|lia]. apply (depth_bound rels f); [exact Hn | rewrite Ed; discriminate|]. rewrite Ed. intros d j Hd Hj. specialize (H d j Hd Hj). lia.
    Qed.
    Lemma gen_depth f n l : gen A G D f -> ~ (exists b i nm, f = FSlice b i nm) -> lim A D (fentity f) = Some l -> depth f = Ok n ->
      match f with
      | FIdent _ _ _ => n = 0
      | FDirect _ _ _ => (Z.of_nat n <= l + 1)%Z
      | _ => (Z.of_nat n <= Z.max l (match fwhere f with Some _ => 2 | None => 0 end))%Z /\ (1 <= l)%Z
      end.
    Proof.
      intros H Hns Hl Hn.
      destruct H as [f Hs Hso|e v Ho Hlv Hv Hi Ht|b i Hb Hnb Hi|p m path e ce f Hp Ho Hc Hne Hce Hig Hm Hv Hk Hf|p m path e ce w src f Hp Ho Hc Hne Hce Hig Hm Hv Hk Hw Hsrc Hll Hq Hf|p m e f Hp Ho Hig Hm Hv Hu Hf|p m g e f Hp Ho Hig Hm Hv Hu Hg Hge Hgw Hgv Hf|r b f Hr Ho Hp Hb He Hw Hf].
      - rewrite no_seeds in Hs. destruct Hs.
      - unfold get_depth in Hn. cbn in Hn. congruence.
      - exfalso. apply Hns. exists b, i, None. reflexivity.
      - apply mk_agg_eq in Hf as [Hmn [u ->]]. cbn [fentity] in Hl. rewrite (chain_head e path ce Hc Hne) in Hl. cbn [fwhere]. assert (forall d j, In d m -> depth d = Ok j -> (Z.of_nat j <= l - 1)%Z) as Hmd by (intros d j Hd Hj; eapply within_depth; [exact Hl | apply Hm; exact Hd | exact Hj]).
        assert (1 <= l)%Z as Hl1 by (destruct m as [|d0 m0]; [contradiction|]; destruct (depth_total rels d0) as (j0 & Hj0); pose proof (Hmd d0 j0 (or_introl eq_refl) Hj0); lia). split; [|exact Hl1].
        pose proof (bound_step _ _ l 1 Hn) as X. unfold fdeps in X. cbn [fbases fwhere] in X. rewrite app_nil_r in X. specialize (X Hmn Hmd). lia.
      - apply mk_agg_eq in Hf as [Hmn [u ->]]. cbn [fentity] in Hl. rewrite (chain_head e path ce Hc Hne) in Hl. cbn [fwhere]. assert (forall d j, In d m -> depth d = Ok j -> (Z.of_nat j <= l - 1)%Z) as Hmd by (intros d j Hd Hj; eapply within_depth; [exact Hl | apply Hm; exact Hd | exact Hj]).
        assert (1 <= l)%Z as Hl1 by (destruct m as [|d0 m0]; [contradiction|]; destruct (depth_total rels d0) as (j0 & Hj0); pose proof (Hmd d0 j0 (or_introl eq_refl) Hj0); lia). split; [|exact Hl1].
        destruct (where_eq _ _ _ Hw) as (v & nm & x & -> & Hx & ->). pose proof (bound_step _ _ (Z.max l 2) 1 Hn) as X. unfold fdeps in X. cbn [fbases fwhere] in X. enough (Z.of_nat n <= Z.max l 2 - 1 + 1)%Z by lia. apply X; [destruct m; discriminate|].
        intros d j Hd Hj. apply in_app_or in Hd as [Hd|[<-|[]]]; [specialize (Hmd d j Hd Hj); lia|]. unfold get_depth in Hj. cbn in Hj. injection Hj as <-. lia.
      - apply mk_trans_eq in Hf as [Hmn ->]. assert (e = fentity (FTrans p m None)) as -> by (destruct m as [|b m]; [contradiction|]; cbn [fentity]; destruct (Hm b (or_introl eq_refl)) as (_ & -> & _); reflexivity).
        cbn [fwhere]. assert (forall d j, In d m -> depth d = Ok j -> (Z.of_nat j <= l - 1)%Z) as Hmd by (intros d j Hd Hj; eapply within_depth; [exact Hl | apply Hm; exact Hd | exact Hj]).
        assert (1 <= l)%Z as Hl1 by (destruct m as [|d0 m0]; [contradiction|]; destruct (depth_total rels d0) as (j0 & Hj0); pose proof (Hmd d0 j0 (or_introl eq_refl) Hj0); lia). split; [|exact Hl1].
        pose proof (bound_step _ _ l 1 Hn) as X. unfold fdeps in X. cbn [fbases fwhere] in X. rewrite app_nil_r in X. specialize (X Hmn Hmd). lia.
      - apply mk_group_eq in Hf as ->. assert (e = fentity (FGroup p m g None)) as Ee by (destruct m as [|b m]; cbn [fentity]; [auto|]; destruct (Hm b (or_introl eq_refl)) as (_ & -> & _); reflexivity). rewrite <- Ee in Hl.
        cbn [fwhere]. assert (forall d j, In d (m ++ [g]) -> depth d = Ok j -> (Z.of_nat j <= l - 1)%Z) as Hmd by (intros d j Hd Hj; eapply within_depth; [exact Hl | apply in_app_or in Hd as [Hd|[<-|[]]]; [apply Hm; exact Hd | exact (proj1 Hgw)] | exact Hj]).
        assert (1 <= l)%Z as Hl1 by (destruct (depth_total rels g) as (j0 & Hj0); pose proof (Hmd g j0 ltac:(apply in_or_app; right; left; reflexivity) Hj0); lia). split; [|exact Hl1].
        pose proof (bound_step _ _ l 1 Hn) as X. unfold fdeps in X. cbn [fbases fwhere] in X. rewrite app_nil_r in X. specialize (X ltac:(destruct m; discriminate) Hmd). lia.
      - apply mk_direct_eq in Hf as ->. cbn [fentity] in Hl. pose proof (bound_step _ _ l 0 Hn) as X. unfold fdeps in X. cbn [fbases fwhere app] in X. enough (Z.of_nat n <= l - 0 + 1)%Z by lia. apply X; [discriminate|]. destruct Hw as [Hw _]. intros d j [<-|[]] Hj. eapply within_depth; eassumption.
    Qed.
  End Gen.

  (** *** C55: every feature in a returned definition was asked for *)
  Theorem C55_requested A ret tf fuel fs f x : dfs A ret tf fuel = Ok fs -> In f fs -> reaches f x -> ~ needed (g_seeds A) x -> requested A x.
  Proof.
    intros H Hf Hx Hns. destruct (dfs_gen _ _ _ _ _ f H Hf) as (G & HG & _ & _ & Hg & _). eapply good_requested; [exact HG | | exact Hns]. eapply good_reaches; [exact Hx | left; exact Hg | exact Hns].
  Qed.

  (** *** C55: primitives are stacked only as they allow *)
  Lemma stacking_ok p m : check_stacking attr subc p m = Ok true -> forall b, In b m -> stacks attr subc p b.
  Proof.
    unfold check_stacking. intros H b Hb.
    destruct (match a_self (attr p) with Some false => existsb (fun f => prim_isa attr subc f [a_class (attr p)]) m | _ => false end) eqn:E1; [discriminate|].
    destruct (match a_on_ex (attr p) with Some l => existsb (fun f => prim_isa attr subc f l) m | None => false end) eqn:E2; [discriminate|].
    destruct (existsb (fun f => Nat.ltb 1 (fnout f)) m) eqn:E3; [discriminate|]. destruct (existsb _ m) eqn:E4 in H; [discriminate|]. injection H as H. rewrite forallb_forall in H. specialize (H b Hb).
    assert (forall P, existsb P m = false -> P b = false) as X. { intros P E. destruct (P b) eqn:Ep; [|reflexivity]. rewrite <- E. symmetry. apply existsb_exists. exists b. auto. }
    assert (forall l, prim_isa attr subc b l = true -> exists c, In c l /\ computed_by_class attr subc b c) as Hisa. { intros l E. apply existsb_exists in E as (c & Hc & E). exists c. auto. }
    unfold stacks. split; [|split; [|split]].
    - apply X in E3. apply Nat.ltb_ge in E3. exact E3.
    - intros Es Hc. rewrite Es in E1. apply X in E1. cbn [prim_isa existsb] in E1. apply orb_false_iff in E1 as [E1 _]. unfold computed_by_class in Hc. unfold fprim_class in E1. congruence.
    - intros l c El Hc Hcc. rewrite El in E2. apply X in E2. assert (prim_isa attr subc b l = true); [|congruence]. apply existsb_exists. exists c. auto.
    - intros l El. rewrite El in H. apply orb_true_iff in H as [H|H].
      + left. destruct (a_self (attr p)) as [[|]|]; try discriminate. split; [reflexivity|]. rewrite orb_false_r in H. exact H.
      + right. apply orb_true_iff in H as [H|H]; [left; apply Hisa; exact H|]. right. intros q ks Hq Hks. unfold fprim_of in H. rewrite Hq, Hks in H. apply existsb_exists in H as (c & Hc & E). apply Nat.eqb_eq in E. subst c. exact Hc.
  Qed.
  Lemma usable_ok m : usable attr m = true -> forall b, In b m -> fnout b = 1 /\ ~ computed_by_transform attr b /\ (forall r b' nm, b = FDirect r b' nm -> ~ computed_by_transform attr b').
  Proof.
    unfold usable, check_transform_stacking. intros H b Hb. apply andb_true_iff in H as [H1 H2]. rewrite forallb_forall in H1, H2. specialize (H1 b Hb). specialize (H2 b Hb). apply Nat.eqb_eq in H1. apply andb_true_iff in H2 as [H2 H3]. apply negb_true_iff in H2.
    assert (forall x, is_trans_prim attr x = false -> ~ computed_by_transform attr x) as X by (intros x E (q & Hq & Hn); unfold is_trans_prim in E; rewrite Hq, Hn in E; discriminate).
    split; [exact H1|]. split; [apply X; exact H2|]. intros r b' nm ->. apply X. apply negb_true_iff in H3. exact H3.
  Qed.
  Theorem C55_stacking A ret tf fuel fs f x : dfs A ret tf fuel = Ok fs -> In f fs -> reaches f x -> ~ needed (g_seeds A) x ->
    stackable attr subc x \/ interesting_condition interesting eq_prim (fentity x) x.
  Proof.
    intros H Hf Hx Hns. destruct (dfs_gen _ _ _ _ _ f H Hf) as (G & HG & _ & _ & Hg & _). assert (good A G (depth_limit entities A) x) as Hgood by (eapply good_reaches; [exact Hx | left; exact Hg | exact Hns]).
    destruct Hgood as [Hx'|(e & src & Hw & _)].
    - left. destruct Hx' as [f' Hs Hso|e v Ho _|b i Hb|p m path e ce f' Hp Ho Hc Hne Hce Hig Hm Hvm Hk Hf'|p m path e ce w src f' Hp Ho Hc Hne Hce Hig Hm Hvm Hk Hw Hsrc Hll Hq Hf'|p m e f' Hp Ho Hig Hm Hvm Hu Hf'|p m g e f' Hp Ho Hig Hm Hvm Hu Hgg Hge Hgw Hgv Hf'|r b f' Hr Ho Hp Hb He Hw Hf'].
      + exfalso. apply Hns. exists f'. split; [exact Hs | apply reaches_refl].
      + exact I.
      + exact I.
      + apply mk_agg_eq in Hf' as [_ [u ->]]. cbn [stackable]. apply stacking_ok. exact Hk.
      + apply mk_agg_eq in Hf' as [_ [u ->]]. cbn [stackable]. apply stacking_ok. exact Hk.
      + apply mk_trans_eq in Hf' as [_ ->]. cbn [stackable]. apply usable_ok. exact Hu.
      + apply mk_group_eq in Hf' as ->. cbn [stackable]. apply usable_ok. exact Hu.
      + apply mk_direct_eq in Hf' as ->. exact I.
    - right. destruct (where_eq _ _ _ Hw) as (v & nm & z & -> & Hz & ->). exists v, nm, z. auto.
  Qed.

  (** *** C31: the inputs of every computed feature pass the options of its primitive; conditions are the exception *)
  Theorem C31_dfs A ret tf fuel fs f : dfs A ret tf fuel = Ok fs -> In f fs -> exists G,
    generate_all_primitive_options attr arity_of (g_trans A ++ g_aggs A ++ g_wheres A ++ g_groups A) (g_options A) (g_ignore_e A) (g_ignore_v A) = Ok G /\
    forall x, reaches f x -> ~ needed (g_seeds A) x ->
      match x with
      | FAgg p m _ _ _ _ _ => all_pass rels (options_of attr (g_opts G) p) m
      | FTrans p m _ => interesting_condition interesting eq_prim (fentity x) x \/ all_pass rels (options_of attr (g_opts G) p) m
      | FGroup p m g _ => all_pass rels (options_of attr (g_opts G) p) m /\ (forall o, options_of attr (g_opts G) p = [o] -> passes_group rels o g)
      | _ => True
      end.
  Proof.
    intros H Hf. destruct (dfs_gen _ _ _ _ _ f H Hf) as (G & HG & _ & _ & Hg & _). exists G. split; [exact HG|]. intros x Hx Hns. assert (good A G (depth_limit entities A) x) as Hgood by (eapply good_reaches; [exact Hx | left; exact Hg | exact Hns]).
    assert (forall os m, is_valid_match rels p_ret vtypes os false m = true -> all_pass rels os m) as Hv by (intros os m Ho; apply valid_spec in Ho; [exact Ho | destruct os; [discriminate Ho | discriminate]]).
    destruct Hgood as [Hx'|(e & src & Hw & _)].
    - destruct Hx' as [f' Hs Hso|e v Ho _|b i Hb|p m path e ce f' Hp Ho Hc Hne Hce Hig Hm Hvm Hk Hf'|p m path e ce w src f' Hp Ho Hc Hne Hce Hig Hm Hvm Hk Hw Hsrc Hll Hq Hf'|p m e f' Hp Ho Hig Hm Hvm Hu Hf'|p m g e f' Hp Ho Hig Hm Hvm Hu Hgg Hge Hgw Hgv Hf'|r b f' Hr Ho Hp Hb He Hw Hf'].
      + exfalso. apply Hns. exists f'. split; [exact Hs | apply reaches_refl].
      + exact I.
      + exact I.
      + apply mk_agg_eq in Hf' as [_ [u ->]]. apply Hv. exact (proj1 Hvm).
      + apply mk_agg_eq in Hf' as [_ [u ->]]. apply Hv. exact (proj1 Hvm).
      + apply mk_trans_eq in Hf' as [_ ->]. right. apply Hv. exact (proj1 Hvm).
      + apply mk_group_eq in Hf' as ->. split; [apply Hv; exact (proj1 Hvm)|]. intros o Eo. unfold opts in Hgv. rewrite Eo in Hgv. cbn [M_Match.is_valid_match forallb] in Hgv. apply andb_true_iff in Hgv as [Hgv _]. apply C31_groupby in Hgv. apply Hgv.
      + apply mk_direct_eq in Hf' as ->. exact I.
    - destruct (where_eq _ _ _ Hw) as (v & nm & z & -> & Hz & ->). left. exists v, nm, z. auto.
  Qed.

  (** *** C27: nothing ignored is used *)
  Theorem C27_ignored_partial A ret tf fuel fs f x : dfs A ret tf fuel = Ok fs -> In f fs -> reaches f x -> ~ needed (g_seeds A) x ->
    (In (fentity x) (g_ignore_e A) -> option_includes (g_options A) (fentity x)) /\
    (forall e v nm, x = FIdent e v nm -> In v (dd_get e (g_ignore_v A)) -> option_includes_variable (g_options A) e v).
  Proof.
    intros H Hf Hx Hns. destruct (dfs_gen _ _ _ _ _ f H Hf) as (G & HG & Hti & _ & Hg & _). destruct (generated _ _ _ _ _ _ _ HG) as (_ & Hge & Hincl & Hgv).
    assert (good A G (depth_limit entities A) x) as Hgood by (eapply good_reaches; [exact Hx | left; exact Hg | exact Hns]). clear Hx Hg. split.
    - intros Hi. destruct (in_dec String.string_dec (fentity x) (g_ign_e G)) as [Hin|Hout].
      + exfalso. destruct Hgood as [Hx|(e & src & Hw & _ & He)].
        * destruct (gen_entity A G _ x Hx) as [E|E]; [rewrite E in Hi; contradiction | contradiction].
        * destruct (where_eq _ _ _ Hw) as (v & nm & y & -> & _ & ->). cbn [fentity] in Hin. contradiction.
      + assert (forall P, ~ ~ P -> (P \/ ~ P) -> P) as dn by tauto. apply dn; [intros Hn; apply Hout, Hge; assumption|].
        (* inclusion by an option is decidable *)
        unfold option_includes. clear. induction (g_options A) as [|[keys spec] u IH]; [right; intros (o & (k & s & [] & _) & _)|].
        assert (forall o, ((exists l, o_inc_e o = Some l /\ In (fentity x) l) \/ (exists i vs, o_inc_v o = Some i /\ In (fentity x, vs) i)) \/ ~ ((exists l, o_inc_e o = Some l /\ In (fentity x) l) \/ (exists i vs, o_inc_v o = Some i /\ In (fentity x, vs) i))) as Hd.
        { intros o. destruct (o_inc_e o) as [l|]; [destruct (in_dec String.string_dec (fentity x) l) as [Hl|Hl]; [left; left; exists l; auto|]|];
          (destruct (o_inc_v o) as [i|]; [destruct (in_dec String.string_dec (fentity x) (map fst i)) as [Hl'|Hl']; [left; right; apply in_map_iff in Hl' as ([e vs] & <- & Hi); exists i, vs; auto|]|]);
          right; intros [(l' & [= <-] & Hx)|(i' & vs & [= <-] & Hx)]; try contradiction; apply Hl'; apply in_map_iff; exists (fentity x, vs); auto. }
        set (os := match spec with inl o => [o] | inr os => os end).
        assert ((exists o, In o os /\ ((exists l, o_inc_e o = Some l /\ In (fentity x) l) \/ (exists i vs, o_inc_v o = Some i /\ In (fentity x, vs) i))) \/ ~ (exists o, In o os /\ ((exists l, o_inc_e o = Some l /\ In (fentity x) l) \/ (exists i vs, o_inc_v o = Some i /\ In (fentity x, vs) i)))) as [Hy|Hy].
        { generalize os as l. induction l as [|o l IHl]; [right; intros (o & [] & _)|]. destruct (Hd o) as [Ho|Ho]; [left; exists o; split; [left; reflexivity | exact Ho]|]. destruct IHl as [(o' & H1 & H2)|Hn]; [left; exists o'; split; [right; exact H1 | exact H2]|]. right. intros (o' & [<-|H1] & H2); [contradiction | apply Hn; exists o'; auto]. }
        * left. destruct Hy as (o & Ho & Hinc). exists o. split; [|exact Hinc]. exists keys, spec. split; [left; reflexivity|]. subst os. destruct spec; [destruct Ho as [<-|[]]; reflexivity | exact Ho].
        * destruct IH as [(o & (k & s & Hin & Hs) & Hinc)|Hn]; [left; exists o; split; [exists k, s; split; [right; exact Hin | exact Hs] | exact Hinc]|]. right. intros (o & (k & s & [[= <- <-]|Hin] & Hs) & Hinc).
          -- apply Hy. exists o. split; [subst os; destruct spec; [left; congruence | exact Hs] | exact Hinc].
          -- apply Hn. exists o. split; [exists k, s; auto | exact Hinc].
    - intros e v nm -> Hv. assert (~ In v (dd_get e (g_ign_v G))) as Hout.
      { destruct Hgood as [Hx|(e' & src & Hw & _ & He)]; [|destruct (where_eq _ _ _ Hw) as (v' & nm' & y & _ & _ & [=])]. inversion Hx; subst.
        - exfalso. apply Hns. eexists. split; [eassumption | apply reaches_refl].
        - assumption.
        - match goal with Hf' : mk_agg _ _ _ _ _ _ _ _ _ _ _ = Ok _ |- _ => apply mk_agg_eq in Hf' as [_ [u [=]]] end.
        - match goal with Hf' : mk_agg _ _ _ _ _ _ _ _ _ _ _ = Ok _ |- _ => apply mk_agg_eq in Hf' as [_ [u [=]]] end.
        - match goal with Hf' : mk_trans _ _ _ _ _ _ = Ok _ |- _ => apply mk_trans_eq in Hf' as [_ [=]] end.
        - match goal with Hf' : mk_group _ _ _ _ _ _ _ = Ok _ |- _ => apply mk_group_eq in Hf'; discriminate end.
        - match goal with Hf' : mk_direct _ _ _ = Ok _ |- _ => apply mk_direct_eq in Hf'; discriminate end. }
      assert (forall P, ~ ~ P -> (P \/ ~ P) -> P) as dn by tauto. apply dn; [intros Hn; apply Hout, Hgv; assumption|]. unfold option_includes_variable. clear. induction (g_options A) as [|[keys spec] u IH]; [right; intros (o & i & vs & (k & s & [] & _) & _)|].
      assert (forall o, (exists i vs, o_inc_v o = Some i /\ In (e, vs) i /\ In v vs) \/ ~ (exists i vs, o_inc_v o = Some i /\ In (e, vs) i /\ In v vs)) as Hd.
      { intros o. destruct (o_inc_v o) as [i|]; [|right; intros (i & vs & [=] & _)]. destruct (existsb (fun ev => String.eqb (fst ev) e && mem_str v (snd ev)) i) eqn:E.
        - left. apply existsb_exists in E as ([e' vs] & Hin & E). apply andb_true_iff in E as [E1 E2]. cbn [fst snd] in *. apply String.eqb_eq in E1 as ->. apply mem_str_In in E2. exists i, vs. auto.
        - right. intros (i' & vs & [= <-] & Hin & Hvs). assert (existsb (fun ev => String.eqb (fst ev) e && mem_str v (snd ev)) i = true); [|congruence]. apply existsb_exists. exists (e, vs). split; [exact Hin|]. cbn [fst snd]. rewrite String.eqb_refl. apply mem_str_In. exact Hvs. }
      set (os := match spec with inl o => [o] | inr os => os end).
      assert ((exists o, In o os /\ (exists i vs, o_inc_v o = Some i /\ In (e, vs) i /\ In v vs)) \/ ~ (exists o, In o os /\ (exists i vs, o_inc_v o = Some i /\ In (e, vs) i /\ In v vs))) as [Hy|Hy].
      { generalize os as l. induction l as [|o l IHl]; [right; intros (o & [] & _)|]. destruct (Hd o) as [Ho|Ho]; [left; exists o; split; [left; reflexivity | exact Ho]|]. destruct IHl as [(o' & H1 & H2)|Hn]; [left; exists o'; split; [right; exact H1 | exact H2]|]. right. intros (o' & [<-|H1] & H2); [contradiction | apply Hn; exists o'; auto]. }
      + left. destruct Hy as (o & Ho & i & vs & Hinc). exists o, i, vs. split; [|exact Hinc]. exists keys, spec. split; [left; reflexivity|]. subst os. destruct spec; [destruct Ho as [<-|[]]; reflexivity | exact Ho].
      + destruct IH as [(o & i & vs & (k & s & Hin & Hs) & Hinc)|Hn]; [left; exists o, i, vs; split; [exists k, s; split; [right; exact Hin | exact Hs] | exact Hinc]|]. right. intros (o & i & vs & (k & s & [[= <- <-]|Hin] & Hs) & Hinc).
        * apply Hy. exists o. split; [subst os; destruct spec; [left; congruence | exact Hs] | exists i, vs; exact Hinc].
        * apply Hn. exists o, i, vs. split; [exists k, s; auto | exact Hinc].
  Qed.

  (** *** C25: depth.  A feature that is not read off a parent is within max_depth (a condition makes it at least 2 deep); reading
      a feature off a parent may exceed max_depth, by at most one. *)
  Theorem C25_depth_partial A ret tf fuel fs f n : g_seeds A = [] -> (0 <= g_depth A)%Z -> dfs A ret tf fuel = Ok fs -> In f fs -> depth f = Ok n ->
    (Z.of_nat n <= g_depth A + 1)%Z /\
    (~ (exists r b nm, f = FDirect r b nm) -> fwhere f = None \/ (2 <= g_depth A)%Z -> (Z.of_nat n <= g_depth A)%Z) /\
    (forall r b nm, f = FDirect r b nm -> r_pe r <> g_target A -> ~ (exists r' b' nm', b = FDirect r' b' nm') -> ~ (exists b' i nm', b = FSlice b' i nm') ->
       fwhere b = None \/ (3 <= g_depth A)%Z -> (Z.of_nat n <= g_depth A)%Z).
  Proof.
    intros Hns H0 H Hf Hn. destruct (dfs_gen _ _ _ _ _ f H Hf) as (G & _ & _ & He & Hg & Hsl).
    assert (exists z, depth_limit entities A = Some z /\ (z <= g_depth A)%Z) as (z & HD & Hz).
    { unfold depth_limit. destruct (Z.eqb_spec (g_depth A) (-1)) as [?|?]; [lia|]. destruct (Nat.eqb _ _ && Z.ltb 1 (g_depth A))%bool eqn:Eb; [|exists (g_depth A); split; [reflexivity | lia]]. apply andb_true_iff in Eb as [_ Eb]. apply Z.ltb_lt in Eb. exists 1%Z. split; [reflexivity | lia]. }
    rewrite HD in Hg. assert (lim A (Some z) (fentity f) = Some z) as Hl by (unfold lim; rewrite He, String.eqb_refl; reflexivity).
    assert (~ (exists b i nm, f = FSlice b i nm)) as Hns' by (intros Hs; specialize (Hsl Hs); rewrite Hns in Hsl; destruct Hsl).
    pose proof (gen_depth A G (Some z) Hns f n z Hg Hns' Hl Hn) as Hb. split; [|split].
    - destruct f as [e v nm|r b nm|p m path u w pr nm|p m nm|p m g nm|b i nm]; try lia; [destruct Hb as [Hb Hz1]; cbn [fwhere] in Hb; destruct w; lia | destruct Hb as [Hb Hz1]; cbn [fwhere] in Hb; lia | destruct Hb as [Hb Hz1]; cbn [fwhere] in Hb; lia | destruct Hb as [Hb Hz1]; cbn [fwhere] in Hb; lia].
    - intros Hnd Hw. destruct f as [e v nm|r b nm|p m path u w pr nm|p m nm|p m g nm|b i nm]; try lia; [exfalso; apply Hnd; exists r, b, nm; reflexivity| | | |]; destruct Hb as [Hb Hz1]; cbn [fwhere] in *; [|lia|lia|lia]. destruct w; [destruct Hw as [[=]|Hw]; lia | lia].
    - intros r b nm -> Hr Hbd Hbs Hw. assert (gen A G (Some z) b /\ fentity b = r_pe r) as [Hgb Heb].
      { inversion Hg; subst.
        - match goal with Hs : In _ (g_seeds A) |- _ => rewrite Hns in Hs; destruct Hs end.
        - match goal with Hf' : mk_agg _ _ _ _ _ _ _ _ _ _ _ = Ok _ |- _ => apply mk_agg_eq in Hf' as [_ [u [=]]] end.
        - match goal with Hf' : mk_agg _ _ _ _ _ _ _ _ _ _ _ = Ok _ |- _ => apply mk_agg_eq in Hf' as [_ [u [=]]] end.
        - match goal with Hf' : mk_trans _ _ _ _ _ _ = Ok _ |- _ => apply mk_trans_eq in Hf' as [_ [=]] end.
        - match goal with Hf' : mk_group _ _ _ _ _ _ _ = Ok _ |- _ => apply mk_group_eq in Hf'; discriminate end.
        - match goal with Hf' : mk_direct _ _ _ = Ok _ |- _ => apply mk_direct_eq in Hf'; injection Hf' as -> -> -> end. auto. }
      destruct (depth_total rels b) as (j & Hj). assert (lim A (Some z) (fentity b) = Some (z - 1)%Z) as Hlb by (unfold lim; rewrite Heb; destruct (String.eqb_spec (r_pe r) (g_target A)); [contradiction | reflexivity]).
      pose proof (gen_depth A G (Some z) Hns b j _ Hgb Hbs Hlb Hj) as Hbj.
      assert (Z.of_nat j <= g_depth A - 1)%Z as Hj'.
      { destruct b as [e v nm'|r' b' nm'|p m path u w pr nm'|p m nm'|p m g nm'|b' i nm']; [| exfalso; apply Hbd; exists r', b', nm'; reflexivity| | | |exfalso; apply Hbs; exists b', i, nm'; reflexivity]; [pose proof (gen_ident_level A G (Some z) Hns _ _ _ Hgb _ Hlb); lia| | |]; destruct Hbj as [Hbj Hz1]; cbn [fwhere] in *; [|lia|lia]. destruct w; [destruct Hw as [[=]|Hw]; lia | lia]. }
      assert (n <= S j) as Hnj. { apply (depth_bound rels (FDirect r b nm)); [exact Hn | discriminate|]. intros d j' [<-|[]] Hd. rewrite Hj in Hd. injection Hd as <-. lia. }
      lia.
  Qed.
  (** the same with seed features: depths are then counted down to the seeds, each of which has depth 0 *)
  Theorem C25_seeds_partial A ret tf fuel fs f n : (0 <= g_depth A)%Z -> dfs A ret tf fuel = Ok fs -> In f fs -> get_depth rels (Some (map (funique rels) (g_seeds A))) f = Ok n ->
    (Z.of_nat n <= g_depth A + 1)%Z /\
    (~ (exists r b nm, f = FDirect r b nm) -> fwhere f = None \/ (2 <= g_depth A)%Z -> (Z.of_nat n <= g_depth A)%Z).
  Proof.
    intros H0 H Hf Hn. destruct (dfs_gen _ _ _ _ _ f H Hf) as (G & _ & _ & He & Hg & Hsl).
    assert (exists z, depth_limit entities A = Some z /\ (z <= g_depth A)%Z) as (z & HD & Hz).
    { unfold depth_limit. destruct (Z.eqb_spec (g_depth A) (-1)) as [?|?]; [lia|]. destruct (Nat.eqb _ _ && Z.ltb 1 (g_depth A))%bool eqn:Eb; [|exists (g_depth A); split; [reflexivity | lia]]. apply andb_true_iff in Eb as [_ Eb]. apply Z.ltb_lt in Eb. exists 1%Z. split; [reflexivity | lia]. }
    rewrite HD in Hg. assert (lim A (Some z) (fentity f) = Some z) as Hl by (unfold lim; rewrite He, String.eqb_refl; reflexivity).
    assert (n = 0 \/ ~ (exists b i nm, f = FSlice b i nm)) as [->|Hns'].
    { destruct f; try (right; intros (? & ? & ? & [=]); fail). left. eapply depth_in_stop; [|exact Hn]. apply in_map. apply Hsl. eauto. }
    { split; lia. }
    destruct (gen_depth_seeds A G (Some z) f n z Hg Hns' Hl Hn) as [->|Hb]; [split; lia|]. split.
    - destruct f as [e v nm|r b nm|p m path u w pr nm|p m nm|p m g nm|b i nm]; [destruct Hb | lia | | | |]; destruct Hb as [Hb Hz1]; cbn [fwhere] in Hb; [destruct w; lia | lia | lia | lia].
    - intros Hnd Hw. destruct f as [e v nm|r b nm|p m path u w pr nm|p m nm|p m g nm|b i nm]; [destruct Hb | exfalso; apply Hnd; exists r, b, nm; reflexivity | | | |]; destruct Hb as [Hb Hz1]; cbn [fwhere] in *; [|lia|lia|lia]. destruct w; [destruct Hw as [[=]|Hw]; lia | lia].
  Qed.
End DFS.
