(** C68: deep feature synthesis builds everything that was asked for. *)
From Coq Require Import Permutation.
From Verif Require Import Base BaseFacts M_Schema M_Feature M_Types M_Serialize M_Match M_DFS S_Schema S_Calc S_Match S_DFS S_DFSAll L_Schema P_Depth P_Match L_DFS P_DFS L_DFSAll.
Local Open Scope string_scope.
Local Open Scope list_scope.

Lemma has_key_spec e o : has_key e o = true <-> names_entity e o.
Proof. unfold has_key, names_entity. destruct o as [d|]; [|split; [discriminate | intros (i & [=] & _)]]. destruct (dget String.eqb e d) eqn:E; split; try discriminate; [intros _; exists d; split; [reflexivity | congruence] | reflexivity | intros (i & [= <-] & H); congruence]. Qed.
Lemma entity_allowed_spec os e : entity_allowed os e -> ignore_entity_for_primitive os e false = false.
Proof. intros H. apply (C31_entity (fun _ _ => None)). intros o Ho. destruct (H o Ho) as [X|X]; [left; apply has_key_spec; exact X | right; exact X]. Qed.
Lemma group_allowed_spec os e : group_allowed os e -> ignore_entity_for_primitive os e true = false.
Proof.
  intros [H1 H2]. pose proof (entity_allowed_spec _ _ H1) as H1'. unfold ignore_entity_for_primitive in *. apply not_true_is_false. intros E. apply existsb_exists in E as (o & Ho & E). assert (should_ignore_entity e false o = false) as E1. { apply not_true_is_false. intros X. assert (existsb (should_ignore_entity e false) os = true) by (apply existsb_exists; eauto). congruence. }
  unfold should_ignore_entity in *. cbn [andb] in *. destruct (negb (has_key e (o_inc_gv o)) && _)%bool eqn:Eg; [|congruence]. apply andb_true_iff in Eg as [Eg1 Eg2]. apply negb_true_iff in Eg1. destruct (H2 o Ho) as [Hn|[Hp1 Hp2]]; [apply has_key_spec in Hn; congruence|].
  apply orb_true_iff in Eg2 as [Eg2|Eg2].
  - destruct (o_inc_ge o) as [l|]; [|discriminate]. apply negb_true_iff, mem_str_nIn in Eg2. apply Eg2, Hp1. reflexivity.
  - unfold opt_mem in Eg2. destruct (o_ign_ge o) as [l|]; [|discriminate]. apply mem_str_In in Eg2. apply (Hp2 l eq_refl Eg2).
Qed.
(** what is ignored everywhere was to be ignored *)
Lemma ignored_given attr arity_of prims u ign_e ign_v G : generate_all_primitive_options attr arity_of prims u ign_e ign_v = Ok G ->
  incl (g_ign_e G) ign_e /\ forall e, incl (dd_get e (g_ign_v G)) (dd_get e ign_v).
Proof.
  intros H. split; [apply (generated attr arity_of u ign_e ign_v prims G H)|]. revert H. unfold generate_all_primitive_options. destruct (init_primitive_options arity_of u) as [os|]; cbn [bind]; [|discriminate]. intros [= <-].
  assert (forall e, incl (dd_get e (g_ign_v (mkGo os ign_e ign_v))) (dd_get e ign_v)) as H0 by (intros e; apply incl_refl). revert H0. generalize (mkGo os ign_e ign_v) as s. clear os. induction prims as [|p ps IH]; intros s Hs; cbn [fold_left]; [exact Hs|]. apply IH. clear IH. unfold gen_step.
  destruct (prim_key attr (g_opts s) p) as [k|]; [|exact Hs]. cbn [g_ign_v]. generalize (match dget okey_eqb k (g_opts s) with Some os => os | None => [] end) as l. generalize dependent (g_ign_v s). clear. intros d Hd l. revert d Hd. induction l as [|o l IH]; intros d Hd; cbn [fold_left]; [exact Hd|]. apply IH.
  unfold unignore. destruct (o_inc_v o) as [i|]; [|exact Hd]. clear IH. revert d Hd. induction i as [|[e1 vs] i IH]; intros d Hd; cbn [fold_left]; [exact Hd|]. apply IH. intros e v Hv. cbn [fst snd] in Hv. unfold dd_get at 1 in Hv.
  destruct (String.eqb_spec e e1) as [<-|He]; [rewrite (dget_dset_same _ String.eqb_spec) in Hv; apply diff_In in Hv as [Hv _]; apply Hd; exact Hv | rewrite (dget_dset_other _ String.eqb_spec) in Hv by exact He; apply Hd; exact Hv].
Qed.

Lemma In_dset_kk {V} k (v : V) d n x : In (n, x) (dset okey_eqb k v d) -> (n = k /\ x = v) \/ In (n, x) d.
Proof.
  induction d as [|[k' v'] d IH]; cbn [dset]; [intros [[= <- <-]|[]]; auto|]. destruct (okey_eqb_spec k k') as [<-|Hk]; [intros [[= <- <-]|H]; [auto | right; right; exact H]|].
  intros [[= <- <-]|H]; [right; left; reflexivity|]. destruct (IH H) as [?|?]; [auto | right; right; assumption].
Qed.

  (** ** When no options are given, a primitive may be used on all that is not ignored *)
  Definition only_ignores (A : dfs_args) (o : popt) : Prop :=
    o_inc_e o = None /\ o_inc_v o = None /\ o_inc_ge o = None /\ o_ign_ge o = None /\ o_inc_gv o = None /\ o_ign_gv o = None /\ incl (o_ign_e o) (g_ignore_e A) /\
    forall e vs v, In (e, vs) (o_ign_v o) -> In v vs -> exists vs', In (e, vs') (g_ignore_v A) /\ In v vs'.
  Lemma globals_only A o : only_ignores A o -> only_ignores A (add_globals (included_entities [o]) (g_ignore_e A) (g_ignore_v A) o).
  Proof.
    intros (H1 & H2 & H3 & H4 & H5 & H6 & H7 & H8). unfold add_globals. repeat (split; [assumption|]). cbn [o_ign_e o_ign_v o_inc_e o_inc_v o_inc_ge o_ign_ge o_inc_gv o_ign_gv]. repeat (split; [assumption|]). split; [intros x Hx; apply in_app_or in Hx as [Hx|Hx]; [apply H7; exact Hx | apply filter_In in Hx; tauto]|].
    assert (forall l d, incl l (g_ignore_v A) -> (forall e vs v, In (e, vs) d -> In v vs -> exists vs', In (e, vs') (g_ignore_v A) /\ In v vs') -> forall e vs v, In (e, vs) (fold_left (fun (d : edict) (ev : string * list string) => match dget String.eqb (fst ev) d with Some l => dset String.eqb (fst ev) (l ++ snd ev) d | None => if mem_str (fst ev) (included_entities [o]) then d else dset String.eqb (fst ev) (snd ev) d end) l d) -> In v vs -> exists vs', In (e, vs') (g_ignore_v A) /\ In v vs') as X; [|apply X; [apply incl_refl | exact H8]].
    clear. induction l as [|[e1 l1] l IH]; intros d Hl Hd; cbn [fold_left]; [exact Hd|]. apply IH; [intros y Hy; apply Hl; right; exact Hy|]. cbn [fst snd]. intros e vs v. assert (forall q, (forall x, In x q -> exists vs', In (e1, vs') (g_ignore_v A) /\ In x vs') -> In (e, vs) (dset String.eqb e1 q d) -> In v vs -> exists vs', In (e, vs') (g_ignore_v A) /\ In v vs') as Y.
    { intros q Hq Hin Hv. apply L_DFS.In_dset in Hin as [[-> ->]|Hin]; [apply Hq; exact Hv | eapply Hd; eassumption]. }
    destruct (dget String.eqb e1 d) as [l2|] eqn:E.
    - apply Y. intros x Hx. apply in_app_or in Hx as [Hx|Hx]; [apply (dget_In _ String.eqb_spec) in E; eapply Hd; eassumption | exists l1; split; [apply Hl; left; reflexivity | exact Hx]].
    - destruct (mem_str e1 (included_entities [o])); [apply Hd|]. apply Y. intros x Hx. exists l1. split; [apply Hl; left; reflexivity | exact Hx].
  Qed.

Section DFS.
  Variable entities : list string.
  Variable variables : string -> list string.
  Variable vtypes : string -> string -> option vtyp.
  Variable interesting : string -> string -> list val.
  Variable index_of : string -> option string.
  Variable rels : list relationship.
  Variable p_ret : prim -> option vtyp.
  Variable p_inputs : prim -> option (list (list vtyp)).
  Variable attr : prim -> pattr.
  Variable subc : nat -> nat -> bool.
  Variable eq_prim : val -> prim.
  Variable arity_of : okey -> option nat.
  Variable lower : string -> string.
  Variable ordF : list feat -> list feat.
  Hypothesis ordF_perm : forall l, Permutation (ordF l) l.
  Notation dfs := (build_features entities variables vtypes interesting index_of rels p_ret p_inputs attr subc eq_prim arity_of lower ordF).
  Notation fname := (fname rels).
  Notation funique := (funique rels).
  Notation depth := (get_depth rels None).
  Notation ftype := (ftype p_ret vtypes).
  Notation vals d := (map (@snd string feat) d).
  Notation options A := (generate_all_primitive_options attr arity_of (g_trans A ++ g_aggs A ++ g_wheres A ++ g_groups A) (g_options A) (g_ignore_e A) (g_ignore_v A)).

  Section Top.
    Variable A0 : dfs_args.
    Hypothesis no_seeds : g_seeds A0 = [].
    (** the run does not look at the filters on the result *)
    Let A := unfiltered A0.
    Variable G : gopts.
    Let T := g_target A0.
    Let D := depth_limit entities A0.
    Notation run_dfs := (run_dfs variables vtypes interesting rels p_ret p_inputs attr subc eq_prim lower ordF A G).
    Notation inv_all := (inv_all variables vtypes interesting rels p_ret p_inputs attr subc eq_prim A G D).
    Notation inv := (inv variables vtypes interesting rels p_ret p_inputs attr subc eq_prim A G D).
    Notation gen := (gen variables vtypes interesting rels p_ret p_inputs attr subc eq_prim A G D).
    Notation features_by_type := (features_by_type vtypes rels p_ret A).
    Notation has := (has rels).
    Notation parts := (parts variables vtypes interesting rels p_ret p_inputs attr subc eq_prim lower ordF A G D).
    Notation build_transform_features := (build_transform_features vtypes rels p_ret p_inputs attr lower ordF A G).
    Notation build_agg_features := (build_agg_features vtypes rels p_ret p_inputs attr subc lower ordF A G).
    Notation opts := (opts attr G).
    Variable tf fuel : nat.
    Variable s' : state.
    Variable d : list (string * feat).
    Variable fs : list feat.
    Hypothesis positive : negative D = false.
    Hypothesis run_ok : run_dfs tf (S fuel) T [] D (mkSt [] []) = Ok s'.
    Hypothesis target_dict : dget String.eqb T (s_all s') = Some d.
    Hypothesis result : forall f, In f fs <-> In f (vals d) /\ is_target_index index_of A f = false.

    Lemma ns : g_seeds A = [].
    Proof. exact no_seeds. Qed.
    Lemma init_inv : inv (mkSt [] []).
    Proof. split; [intros e d0 [=] | intros e l w [=]]. Qed.
    Lemma target_mdle : mdle A D T D.
    Proof. unfold mdle, lim. change (g_target A) with T. rewrite String.eqb_refl. destruct D as [z|]; [exists z; split; [reflexivity | lia] | exact I]. Qed.
    Lemma target_open : open_entity A G T.
    Proof. left. reflexivity. Qed.
    Lemma P : parts tf fuel T [] D (mkSt [] []) s'.
    Proof. apply run_parts; [exact ordF_perm | exact init_inv | exact target_mdle | exact target_open | exact positive | exact run_ok]. Qed.

    (** *** What is in the result *)
    Lemma final_inv : inv s'.
    Proof. destruct P as [? ? ? ? ? ? ? ? ? ? ? ? ? ? ? ? ? ? ? ? ? ? ? ? ? ? ? ? I7]. exact I7. Qed.
    Lemma entry_of n f : In (n, f) d -> n = funique f /\ fentity f = T /\ gen f /\ forall b i nm, f <> FSlice b i nm.
    Proof. intros H. destruct (proj1 final_inv _ _ target_dict) as (_ & _ & Hd). destruct (Hd n f H) as (H1 & H2 & H3 & H4). split; [exact H1|]. split; [exact H2|]. split; [exact H3|]. intros b i nm ->. change (g_seeds A) with (g_seeds A0) in H4. rewrite no_seeds in H4. apply H4. eauto. Qed.
    Lemma ident_plain e v nm : gen (FIdent e v nm) -> nm = None.
    Proof.
      intros H. inversion H; subst; try reflexivity.
      - exfalso. change (g_seeds A) with (g_seeds A0) in *. rewrite no_seeds in *. contradiction.
      - match goal with H : mk_agg _ _ _ _ _ _ _ _ _ _ _ = _ |- _ => apply mk_agg_eq in H as [_ (u & [=])] end.
      - match goal with H : mk_agg _ _ _ _ _ _ _ _ _ _ _ = _ |- _ => apply mk_agg_eq in H as [_ (u & [=])] end.
      - match goal with H : mk_trans _ _ _ _ _ _ = _ |- _ => apply mk_trans_eq in H as [_ [=]] end.
      - match goal with H : mk_group _ _ _ _ _ _ _ = _ |- _ => apply mk_group_eq in H; discriminate end.
      - match goal with H : mk_direct _ _ _ = _ |- _ => apply mk_direct_eq in H; discriminate end.
    Qed.
    Lemma in_named f : In f (vals d) -> In f (named index_of A0 fs).
    Proof.
      intros H. unfold named. destruct (is_target_index index_of A f) eqn:E; [|apply in_or_app; right; apply in_or_app; left; apply result; auto]. unfold is_target_index in E. destruct f as [e v nm|? ? ?|? ? ? ? ? ? ?|? ? ?|? ? ? ?|? ? ?]; try discriminate. apply andb_true_iff in E as [E1 E2]. apply String.eqb_eq in E1. change (g_target A) with (g_target A0) in *.
      destruct (index_of (g_target A0)) as [i|]; [|discriminate]. apply String.eqb_eq in E2. subst e v. apply in_map_iff in H as ([n f] & Ef & H). cbn [snd] in Ef. subst f. destruct (entry_of _ _ H) as (_ & _ & Hg & _). apply ident_plain in Hg as ->. apply in_or_app. left. left. reflexivity.
    Qed.
    Lemma has_present f : has T f (s_all s') -> fentity f = T -> not_index rels index_of A0 f -> present rels fs f.
    Proof.
      intros (d' & Hd' & Hk) He Hn. rewrite target_dict in Hd'. injection Hd' as <-. apply in_map_iff in Hk as ([n f'] & En & Hk). cbn [fst] in En. destruct (entry_of _ _ Hk) as (E1 & E2 & E3 & _). subst n. exists f'. split; [|congruence]. apply (proj2 (result f')). split; [apply in_map_iff; exists (funique f, f'); split; [reflexivity | exact Hk]|].
      apply not_true_is_false. intros Ei. unfold is_target_index in Ei. destruct f' as [e v nm|? ? ?|? ? ? ? ? ? ?|? ? ?|? ? ? ?|? ? ?]; try discriminate. apply ident_plain in E3 as ->. apply andb_true_iff in Ei as [Ei1 Ei2]. apply String.eqb_eq in Ei1. change (g_target A) with (g_target A0) in *. destruct (index_of (g_target A0)) as [i|] eqn:Ex; [|discriminate]. apply String.eqb_eq in Ei2. subst e v.
      apply Hn. rewrite Ex. f_equal. unfold M_Feature.funique in E1. rewrite He in E1. cbn [fentity] in E1. apply (app_head_inj _ _ ": "), (app_head_inj _ _ T). symmetry. exact E1.
    Qed.

    (** *** The pools *)
    Notation grows e Q a b := (grows e Q a b).
    Lemma pool_in s d0 f x md ts l : inv s -> dget String.eqb T (s_all s) = Some d0 -> incl (vals d0) (vals d) -> In f (vals d0) -> In x (outputs f) -> named_apart rels (named index_of A0 fs) ->
      features_by_type (s_all s) T md ts = Ok l -> (forall k, ts = Some k -> existsb (issub (ftype x)) k = true) -> fits_depth rels md x -> In x l.
    Proof.
      intros Hi Hd0 Hincl Hf Hx Hap Hl Hty Hdep. assert (exists d0', expand rels d0 = Ok d0') as (d0' & Ed).
      { unfold M_DFS.features_by_type in Hl. destruct (negative md) eqn:En; unfold negative in En; rewrite En in Hl.
        - exfalso. destruct md as [m|]; [|discriminate]. apply Z.ltb_lt in En. destruct (depth_total rels x) as (n & Hn). specialize (Hdep m n eq_refl Hn). lia.
        - rewrite Hd0 in Hl. destruct (expand rels d0) as [d0'|]; [eauto | discriminate]. }
      destruct (dict_ok _ _ _ _ _ _ _ _ _ _ _ _ _ _ _ (proj1 Hi) Hd0) as (Hk & _).
      assert (forall g, In g (vals d0) -> In g (named index_of A0 fs)) as Hn by (intros g Hg; apply in_named, Hincl; exact Hg).
      assert (forall g, In g (vals d0) -> 1 < fnout g -> forall y, In y (outputs g) -> In y (named index_of A0 fs)) as Hno.
      { intros g Hg Hg1 y Hy. unfold named. apply in_or_app. right. apply in_or_app. right. apply in_flat_map. exists g. split; [|exact Hy]. apply result. split; [apply Hincl; exact Hg|]. destruct g; cbn [fnout] in Hg1; try lia; reflexivity. }
      assert (forall g, In g (vals d0) -> fentity g = T) as HeT by (intros g Hg; apply Hincl in Hg; apply in_map_iff in Hg as ([n g'] & <- & Hg); apply (entry_of _ _ Hg)).
      assert (fentity x = T /\ fnout x <= 1 /\ In x (named index_of A0 fs)) as (Hxe & Hx1 & Hxn).
      { unfold outputs in Hx. destruct (Nat.ltb_spec 1 (fnout f)) as [H1|H1].
        - pose proof Hx as Hx'. apply in_map_iff in Hx as (i & <- & _). cbn [fentity fnout]. split; [apply HeT; exact Hf|]. split; [lia|]. apply (Hno f Hf H1). unfold outputs. destruct (Nat.ltb_spec 1 (fnout f)); [exact Hx' | lia].
        - destruct Hx as [<-|[]]. split; [apply HeT; exact Hf|]. split; [lia | apply Hn; exact Hf]. }
      assert (forall g, funique g = funique x -> fentity g = T -> fname g = fname x) as Hfn by (intros g E Eg; unfold M_Feature.funique in E; rewrite Hxe, Eg in E; apply (app_head_inj _ _ ": "), (app_head_inj _ _ T); exact E).
      eapply by_type_all; [exact ns | exact (proj1 Hi) | exact Hl | exact Hd0 | exact Ed | | exact Hty | exact Hdep].
      apply (expand_keeps rels d0 d0' f x Hk Ed Hf Hx).
      - intros g Hg Hg1 E. assert (g = x) as -> by (apply Hap; [apply Hn; exact Hg | exact Hxn | apply Hfn; [exact E | apply HeT; exact Hg]]). lia.
      - intros g i Hg Hg1 Hi1 E. apply Hap; [|exact Hxn | apply Hfn; [exact E | cbn [fentity]; apply HeT; exact Hg]]. apply (Hno g Hg Hg1). unfold outputs. destruct (Nat.ltb_spec 1 (fnout g)); [|lia]. apply in_map_iff. exists i. split; [reflexivity | apply in_seq; lia].
    Qed.

    (** *** The stages of the run *)
    Notation cols := (cols variables G).
    Notation visit := (visit variables vtypes interesting rels p_ret p_inputs attr subc eq_prim lower ordF A G).
    Notation agg_phase := (agg_phase vtypes rels p_ret p_inputs attr subc lower ordF A G).
    Notation fwd_phase := (fwd_phase vtypes rels p_ret A G).
    Lemma stages : exists s0 back s1 deep s2 s3 fwd s4 s5 s6,
      (get_backward_entities 1 rels T false = Ok back /\ get_backward_entities tf rels T true = Ok deep /\ get_forward_entities 1 rels T false = Ok fwd) /\
      (inv s1 /\ inv s2 /\ inv s4 /\ inv s5) /\ (cols (s_all s1) /\ cols (s_all s4) /\ cols (s_all s')) /\
      (known T s0 /\ (forall e, known e s0 -> e = T) /\ (forall e, known e s0 -> known e s1)) /\
      (forall ep, In ep back -> skip_entity A G [] ep = false -> negative (lower_depth D) = false -> known (fst ep) s1) /\
      (D = None -> g_paths A0 = [] -> closed rels G s0 s1) /\
      foldM (agg_phase T [] D) deep s1 = Ok s2 /\ build_transform_features T D false s2 = Ok s3 /\
      (forall ep, In ep fwd -> skip_entity A G [] ep = false -> negative (lower_depth D) = false -> known (fst ep) s4) /\
      foldM (fwd_phase [] D) fwd s4 = Ok s5 /\ build_transform_features T D true s5 = Ok s6 /\
      (forall f, has T f (s_all s2) -> has T f (s_all s')) /\ (forall f, has T f (s_all s3) -> has T f (s_all s')) /\ (forall f, has T f (s_all s5) -> has T f (s_all s')) /\ (forall f, has T f (s_all s6) -> has T f (s_all s')) /\
      exists d2 n1 n2 n3, dget String.eqb T (s_all s2) = Some d2 /\ dget String.eqb T (s_all s5) = Some (d2 ++ n1 ++ n2) /\ d = d2 ++ n1 ++ n2 ++ n3 /\
        (forall n f, In (n, f) n1 -> transformed f) /\ (forall n f, In (n, f) n2 -> copied f) /\ (forall n f, In (n, f) n3 -> transformed f).
    Proof.
      destruct P as [all back s1 deep s2 s3 fwd s4 s5 s6 Eall Eb E1 Ed E2 E3 Ef E4 E5 E6 E7 I0 I1 I2 I3 I4 I5 I6 I7].
      assert (forall t f, runs_ok variables vtypes interesting rels p_ret p_inputs attr subc eq_prim lower ordF A G D t f) as Hrun by (intros t f; apply run_all; [exact ordF_perm | exact ns]).
      destruct (identity_grows _ _ _ _ _ _ _ _ _ _ _ _ ns _ _ _ (proj1 I0) Eall) as [Hother (d0 & Hd0 & Hcols & _)]. cbn [s_all s_wheres] in *.
      assert (cols all) as C0. { intros e d1 v Hd Hv Hg. destruct (String.eqb_spec e T) as [->|He]; [rewrite Hd0 in Hd; injection Hd as <-; apply Hcols; assumption | rewrite Hother in Hd by exact He; discriminate]. }
      destruct (visits_ok _ _ _ _ _ _ _ _ _ _ _ ordF_perm _ _ _ tf fuel T [] D back (Hrun _ _) target_mdle (mkSt all []) s1 I0 C0 E1) as (C1 & F1 & K1 & L1). cbn [s_all] in *.
      pose proof (agg_phase_grows vtypes rels p_ret p_inputs attr subc lower ordF A G ns _ _ _ _ _ _ _ Ed E2) as G2. destruct (transform_grows _ _ _ _ _ _ _ _ _ _ _ ordF_perm _ _ _ ns _ _ _ _ _ I2 E3) as (G3 & _). pose proof (cols_grows _ _ _ _ _ _ C1 G2) as C2. pose proof (cols_grows _ _ _ _ _ _ C2 G3) as C3.
      destruct (visits_ok _ _ _ _ _ _ _ _ _ _ _ ordF_perm _ _ _ tf fuel T [] D fwd (Hrun _ _) target_mdle s3 s4 I3 C3 E4) as (C4 & F4 & K4 & L4).
      pose proof (fwd_phase_grows _ _ _ _ _ _ _ _ _ _ _ _ ns _ _ _ _ _ _ target_mdle target_open I4 Ef E5) as G5. pose proof (cols_grows _ _ _ _ _ _ C4 G5) as C5. destruct (transform_grows _ _ _ _ _ _ _ _ _ _ _ ordF_perm _ _ _ ns _ _ _ _ _ I5 E6) as (G6 & _). pose proof (cols_grows _ _ _ _ _ _ C5 G6) as C6.
      pose proof (where_same _ _ _ _ _ _ _ _ _ E7) as W.
      assert (forall f, has T f (s_all s6) -> has T f (s_all s')) as H6 by (intros f; rewrite W; auto).
      assert (forall f, has T f (s_all s5) -> has T f (s_all s')) as H5 by (intros f Hf; apply H6; eapply has_grows; eassumption).
      assert (forall f, has T f (s_all s3) -> has T f (s_all s')) as H3. { intros f (d3 & Hd3 & Hk). apply H5. eapply has_grows; [exact G5|]. exists d3. split; [apply F4; exact Hd3 | exact Hk]. }
      exists (mkSt all []), back, s1, deep, s2, s3, fwd, s4, s5, s6. split; [auto|]. split; [auto|]. split; [rewrite W; auto|]. split.
      { split; [unfold known; cbn [s_all]; rewrite Hd0; discriminate|]. split; [|intros e; apply frozen_known; exact F1]. intros e He. destruct (String.eqb_spec e T) as [->|Hne]; [reflexivity|]. exfalso. apply He. cbn [s_all]. rewrite Hother by exact Hne. reflexivity. }
      split; [exact K1|]. split; [exact L1|]. split; [exact E2|]. split; [exact E3|]. split; [exact K4|]. split; [exact E5|]. split; [exact E6|].
      split; [intros f Hf; apply H3; eapply has_grows; eassumption|]. split; [exact H3|]. split; [exact H5|]. split; [exact H6|].
      pose proof (F1 T d0 Hd0) as D1. destruct (proj1 (proj2 G2) _ D1) as (na & D2 & _). destruct (proj1 (proj2 G3) _ D2) as (n1 & D3 & Q1). pose proof (F4 _ _ D3) as D4. destruct (proj1 (proj2 G5) _ D4) as (n2 & D5 & Q2). destruct (proj1 (proj2 G6) _ D5) as (n3 & D6 & Q3).
      exists (d0 ++ na), n1, n2, n3. rewrite <- W in D6. rewrite target_dict in D6. injection D6 as ->. rewrite !app_assoc in *. split; [exact D2|]. split; [exact D5|]. split; [reflexivity|]. auto.
    Qed.

    (** *** Depth *)
    Lemma room_fits b : room rels entities A0 b -> fits_depth rels (lower_depth D) b.
    Proof.
      intros H m n Hm Hn. destruct (H n Hn) as [H1 H2]. subst D. unfold depth_limit in Hm. destruct (Z.eqb_spec (g_depth A0) (-1)) as [Ed|Ed].
      - destruct (Nat.eqb_spec (List.length entities) 1) as [El|El]; cbn in Hm; [|discriminate]. injection Hm as <-. rewrite (H2 El). lia.
      - destruct (Nat.eqb_spec (List.length entities) 1) as [El|El]; cbn [andb] in Hm; [|injection Hm as <-; destruct H1 as [H1|H1]; [contradiction | lia]]. destruct (Z.ltb 1 (g_depth A0)); injection Hm as <-; [rewrite (H2 El); lia | destruct H1 as [H1|H1]; [contradiction | lia]].
    Qed.
    Lemma limit_one : g_depth A0 = (-1)%Z \/ (1 <= g_depth A0)%Z -> negative (lower_depth D) = false /\ forall z, D = Some z -> (1 <= z)%Z.
    Proof.
      intros H. enough (forall z, D = Some z -> (1 <= z)%Z) as X by (split; [|exact X]; destruct D as [z|]; [|reflexivity]; specialize (X z eq_refl); apply Z.ltb_ge; lia).
      intros z Hz. subst D. unfold depth_limit in Hz. destruct (Z.eqb_spec (g_depth A0) (-1)) as [Ed|Ed]; (destruct (_ && _)%bool; [injection Hz as <-; lia|]); [discriminate | injection Hz as <-; destruct H; [contradiction | assumption]].
    Qed.

    (** *** Inputs of transforms *)
    Lemma usable_all m : (forall b, In b m -> fnout b = 1 /\ ~ computed_by_transform attr b /\ (forall r b' nm, b = FDirect r b' nm -> ~ computed_by_transform attr b')) -> usable attr m = true.
    Proof.
      intros H. assert (forall x, ~ computed_by_transform attr x -> is_trans_prim attr x = false) as X. { intros x Hx. unfold is_trans_prim. destruct (fprim x) as [q|] eqn:E; [|reflexivity]. apply negb_false_iff. apply not_false_is_true. intros E1. apply Hx. exists q. auto. }
      unfold usable, check_transform_stacking. apply andb_true_iff. split; apply forallb_forall; intros b Hb; destruct (H b Hb) as (H1 & H2 & H3); [apply Nat.eqb_eq; exact H1|]. rewrite (X b H2). cbn [negb andb]. destruct b; try reflexivity. rewrite (X _ (H3 _ _ _ eq_refl)). reflexivity.
    Qed.
    Lemma outputs_prim f x : In x (outputs f) -> fprim x = fprim f.
    Proof. unfold outputs. destruct (Nat.ltb 1 (fnout f)); [intros H; apply in_map_iff in H as (i & <- & _); reflexivity | intros [<-|[]]; reflexivity]. Qed.
    Lemma requested_prims f : In f (vals d) -> match f with FTrans q _ _ => In q (g_trans A0) | FGroup q _ _ _ => In q (g_groups A0) | _ => True end.
    Proof.
      intros H. apply in_map_iff in H as ([n f'] & <- & H). destruct (entry_of _ _ H) as (_ & _ & Hg & _). cbn [snd]. clear H n.
      destruct Hg as [f Hs Hso|e v Ho Hlv Hv Hi Ht|b i Hb Hnb Hi|p m path e ce f Hp Ho Hc Hne Hce Hig Hm Hv Hk Hf|p m path e ce w src f Hp Ho Hc Hne Hce Hig Hm Hv Hk Hw Hsrc Hll Hq Hf|p m e f Hp Ho Hig Hm Hv Hu Hf|p m g e f Hp Ho Hig Hm Hv Hu Hg Hge Hgw Hgv Hf|r b f Hr Ho Hp Hb He Hw Hf].
      - change (g_seeds A) with (g_seeds A0) in Hs. rewrite no_seeds in Hs. destruct Hs.
      - exact I.
      - exact I.
      - apply mk_agg_eq in Hf as [_ (u & ->)]. exact I.
      - apply mk_agg_eq in Hf as [_ (u & ->)]. exact I.
      - apply mk_trans_eq in Hf as [_ ->]. exact Hp.
      - apply mk_group_eq in Hf as ->. exact Hp.
      - apply mk_direct_eq in Hf as ->. exact I.
    Qed.
    Hypothesis transforms_differ : forall q, In q (g_trans A0 ++ g_groups A0) -> a_isagg (attr q) = false.
    Lemma not_transformed f x : In f (vals d) -> In x (outputs f) -> ~ computed_by_transform attr x -> ~ transformed f.
    Proof.
      intros Hf Hx Hn Ht. apply Hn. pose proof (requested_prims f Hf) as Hq. unfold computed_by_transform. rewrite (outputs_prim f x Hx). destruct f as [? ? ?|? ? ?|? ? ? ? ? ? ?|q ? ?|q ? ? ?|? ? ?]; try destruct Ht; exists q; (split; [reflexivity|]); apply transforms_differ, in_or_app; auto.
    Qed.
    Lemma choice_pool ts m l : choice p_ret vtypes ts l m -> forall x, In x m -> existsb (issub (ftype x)) ts = true.
    Proof.
      intros (_ & _ & H) x Hx. induction H as [|y t m' ts' Hy Hr IH]; [destruct Hx|]. cbn [existsb]. destruct Hx as [<-|Hx]; [rewrite Hy; reflexivity | rewrite IH by exact Hx; apply orb_true_r].
    Qed.
    Notation stage2 d2 n1 n2 n3 := (d = d2 ++ n1 ++ n2 ++ n3).
    (** inputs that are neither transforms nor copied were there before the first round; those that are not transforms before the second *)
    Lemma early d2 n1 n2 n3 f x : d = d2 ++ n1 ++ n2 ++ n3 -> (forall n g, In (n, g) n1 -> transformed g) -> (forall n g, In (n, g) n2 -> copied g) -> (forall n g, In (n, g) n3 -> transformed g) ->
      In f fs -> In x (outputs f) -> ~ computed_by_transform attr x -> In f (vals (d2 ++ n1 ++ n2)) /\ (is_direct x = false -> In f (vals d2)).
    Proof.
      intros Ed Q1 Q2 Q3 Hf Hx Hn. apply result in Hf as [Hf _]. pose proof (not_transformed f x Hf Hx Hn) as Ht. apply in_map_iff in Hf as ([n f'] & E & Hf). cbn [snd] in E. subst f'. rewrite Ed in Hf.
      assert (forall l, (forall n g, In (n, g) l -> transformed g) -> ~ In (n, f) l) as X by (intros l Hl Hin; apply Ht, (Hl n f Hin)). rewrite !map_app. apply in_app_or in Hf as [Hf|Hf].
      - assert (In f (vals d2)) as H2 by (apply in_map_iff; exists (n, f); auto). split; [apply in_or_app; left; exact H2 | intros _; exact H2].
      - apply in_app_or in Hf as [Hf|Hf]; [exfalso; apply (X n1 Q1 Hf)|]. apply in_app_or in Hf as [Hf|Hf]; [|exfalso; apply (X n3 Q3 Hf)]. split; [apply in_or_app; right; apply in_or_app; right; apply in_map_iff; exists (n, f); auto|]. intros Hd. exfalso. destruct (Q2 n f Hf) as [C1 C2].
        unfold outputs in Hx. destruct (Nat.ltb_spec 1 (fnout f)); [lia|]. destruct Hx as [<-|[]]. congruence.
    Qed.
    Lemma top_transforms p ts rest m : In p (g_trans A0) -> p_inputs p = Some (ts :: rest) -> choice p_ret vtypes ts (flat_map outputs fs) m -> named_apart rels (named index_of A0 fs) ->
      (forall b, In b m -> room rels entities A0 b) -> stackable attr subc (FTrans p m None) -> ((exists b, In b m /\ is_direct b = true) -> ~ same_parent m) -> entity_allowed (opts p) T -> all_pass rels (opts p) m ->
      (forall m', not_index rels index_of A0 (FTrans p m' None)) -> exists m', reordered (a_comm (attr p)) m m' /\ present rels fs (FTrans p m' None).
    Proof.
      intros Hp Hsig Hch Hap Hroom Hst Hsame Hent Hpass Hidx. pose proof Hch as (Hin & Hnd & Hty). pose proof (usable_all m Hst) as Hu.
      destruct stages as (s0 & back & s1 & deep & s2 & s3 & fwd & s4 & s5 & s6 & _ & (I1 & I2 & I4 & I5) & _ & _ & _ & _ & _ & E3 & _ & _ & E6 & _ & H3 & _ & H6 & d2 & n1 & n2 & n3 & D2 & D5 & Ed & Q1 & Q2 & Q3).
      assert (forall x, In x m -> exists f, In x (outputs f) /\ In f (vals (d2 ++ n1 ++ n2)) /\ (is_direct x = false -> In f (vals d2))) as Hm.
      { intros x Hx. pose proof (Hin x Hx) as Hx'. apply in_flat_map in Hx' as (f & Hf & Hxf). exists f. split; [exact Hxf|]. eapply early; try eassumption. apply Hst. exact Hx. }
      assert (forall s d0 l, inv s -> dget String.eqb T (s_all s) = Some d0 -> incl (vals d0) (vals d) -> (forall x, In x m -> exists f, In x (outputs f) /\ In f (vals d0)) -> features_by_type (s_all s) T (lower_depth D) (Some ts) = Ok l -> incl m l) as Hpool.
      { intros s d0 l Hi Hd0 Hincl Hall Hl x Hx. destruct (Hall x Hx) as (f & Hxf & Hf). eapply (pool_in s d0 f x); try eassumption; [|apply room_fits, Hroom; exact Hx]. intros k [= <-]. eapply choice_pool; eassumption. }
      assert (incl (vals (d2 ++ n1 ++ n2)) (vals d)) as Hi5 by (rewrite Ed; intros y Hy; rewrite !map_app in *; rewrite !in_app_iff in *; tauto).
      assert (incl (vals d2) (vals d)) as Hi2 by (rewrite Ed; intros y Hy; rewrite !map_app; apply in_or_app; left; exact Hy).
      destruct (existsb is_direct m) eqn:Edir.
      - apply existsb_exists in Edir. destruct (transform_grows _ _ _ _ _ _ _ _ _ _ _ ordF_perm _ _ _ ns _ _ _ _ _ I5 E6) as (_ & _ & Htr & _). destruct (Htr p Hp) as (l & Hl & Hall).
        destruct (trans_step_all _ _ _ _ _ _ _ _ _ _ _ ordF_perm _ _ _ _ T D true p l ts rest m (proj1 I5) Hl Hsig (entity_allowed_spec _ _ Hent)) as (m' & Hm' & Hr); try assumption.
        + intros l0 Hl0. eapply Hpool; [exact I5 | exact D5 | exact Hi5 | | exact Hl0]. intros x Hx. destruct (Hm x Hx) as (f & H1 & H2 & _). eauto.
        + intros _. split; [exact Edir | apply Hsame; exact Edir].
        + exists m'. split; [exact Hr|]. destruct (Hall _ Hm') as [He Hh]. apply has_present; [apply H6; exact Hh | exact He | apply Hidx].
      - destruct (transform_grows _ _ _ _ _ _ _ _ _ _ _ ordF_perm _ _ _ ns _ _ _ _ _ I2 E3) as (_ & _ & Htr & _). destruct (Htr p Hp) as (l & Hl & Hall).
        destruct (trans_step_all _ _ _ _ _ _ _ _ _ _ _ ordF_perm _ _ _ _ T D false p l ts rest m (proj1 I2) Hl Hsig (entity_allowed_spec _ _ Hent)) as (m' & Hm' & Hr); try assumption; try discriminate.
        + intros l0 Hl0. eapply Hpool; [exact I2 | exact D2 | exact Hi2 | | exact Hl0]. intros x Hx. destruct (Hm x Hx) as (f & H1 & _ & H2). exists f. split; [exact H1|]. apply H2. apply not_true_is_false. intros E. assert (existsb is_direct m = true) by (apply existsb_exists; eauto). congruence.
        + exists m'. split; [exact Hr|]. destruct (Hall _ Hm') as [He Hh]. apply has_present; [apply H3; exact Hh | exact He | apply Hidx].
    Qed.
    Lemma group_valid os g : (exists o, hd_error os = Some o /\ passes_group rels o g) -> issub (ftype g) YDiscrete = true -> is_valid_match rels p_ret vtypes os true [g] = true.
    Proof.
      intros (o & Ho & Hg) Hd. destruct os as [|o' os]; [discriminate|]. injection Ho as ->. assert (variable_filter rels p_ret vtypes g o true = true) as E by (apply C31_groupby; auto). unfold is_valid_match. destruct os as [|o2 os]; cbn [forallb zip_ok]; rewrite E; reflexivity.
    Qed.
    Lemma top_groups p ts rest m g : In p (g_groups A0) -> p_inputs p = Some (ts :: rest) -> choice p_ret vtypes ts (flat_map outputs fs) m -> In g (flat_map outputs fs) -> named_apart rels (named index_of A0 fs) ->
      (forall b, In b (g :: m) -> room rels entities A0 b) -> stackable attr subc (FGroup p m g None) -> ~ computed_by_transform attr g -> ((exists b, In b m /\ is_direct b = true) \/ is_direct g = false) -> group_allowed (opts p) T -> all_pass rels (opts p) m ->
      issub (ftype g) YDiscrete = true -> ((exists o, In o (opts p) /\ names_entity T (o_inc_gv o)) \/ issub (ftype g) YId = true) -> (exists o, hd_error (opts p) = Some o /\ passes_group rels o g) ->
      (forall m', not_index rels index_of A0 (FGroup p m' g None)) -> exists m', reordered (a_comm (attr p)) m m' /\ present rels fs (FGroup p m' g None).
    Proof.
      intros Hp Hsig Hch Hg Hap Hroom Hst Hgt Hdir Hent Hpass Hdisc Hgid Hgp Hidx. pose proof Hch as (Hin & Hnd & Hty). pose proof (usable_all m Hst) as Hu. pose proof (group_valid _ _ Hgp Hdisc) as Hgv.
      destruct stages as (s0 & back & s1 & deep & s2 & s3 & fwd & s4 & s5 & s6 & _ & (I1 & I2 & I4 & I5) & _ & _ & _ & _ & _ & E3 & _ & _ & E6 & _ & H3 & _ & H6 & d2 & n1 & n2 & n3 & D2 & D5 & Ed & Q1 & Q2 & Q3).
      assert (forall x, In x m \/ x = g -> exists f, In x (outputs f) /\ In f (vals (d2 ++ n1 ++ n2)) /\ (is_direct x = false -> In f (vals d2))) as Hm.
      { intros x Hx. assert (In x (flat_map outputs fs)) as Hx' by (destruct Hx as [Hx| ->]; [apply Hin; exact Hx | exact Hg]). apply in_flat_map in Hx' as (f & Hf & Hxf). exists f. split; [exact Hxf|]. eapply early; try eassumption. destruct Hx as [Hx| ->]; [apply Hst; exact Hx | exact Hgt]. }
      assert (forall s d0 l x ts', inv s -> dget String.eqb T (s_all s) = Some d0 -> incl (vals d0) (vals d) -> In x (g :: m) -> (exists f, In x (outputs f) /\ In f (vals d0)) -> (forall k, ts' = Some k -> existsb (issub (ftype x)) k = true) -> features_by_type (s_all s) T (lower_depth D) ts' = Ok l -> In x l) as Hpool.
      { intros s d0 l x ts' Hi Hd0 Hincl Hx (f & Hxf & Hf) Hk Hl. eapply (pool_in s d0 f x); try eassumption. apply room_fits, Hroom. exact Hx. }
      assert (forall ts', (existsb (fun o => has_key T (o_inc_gv o)) (opts p) = false -> ts' = Some [YId]) -> (existsb (fun o => has_key T (o_inc_gv o)) (opts p) = true -> ts' = None) -> forall k, ts' = Some k -> existsb (issub (ftype g)) k = true) as Hgk.
      { intros ts' Hf Ht k Hk. destruct (existsb (fun o => has_key T (o_inc_gv o)) (opts p)) eqn:Eo; [rewrite (Ht eq_refl) in Hk; discriminate|]. rewrite (Hf eq_refl) in Hk. injection Hk as <-. cbn [existsb]. rewrite orb_false_r. destruct Hgid as [(o & Ho & Hn)|H]; [|exact H].
        assert (existsb (fun o => has_key T (o_inc_gv o)) (opts p) = true) by (apply existsb_exists; exists o; split; [exact Ho | apply has_key_spec; exact Hn]). congruence. }
      assert (incl (vals (d2 ++ n1 ++ n2)) (vals d)) as Hi5 by (rewrite Ed; intros y Hy; rewrite !map_app in *; rewrite !in_app_iff in *; tauto).
      assert (incl (vals d2) (vals d)) as Hi2 by (rewrite Ed; intros y Hy; rewrite !map_app; apply in_or_app; left; exact Hy).
      destruct (existsb is_direct m) eqn:Edir.
      - apply existsb_exists in Edir. destruct (transform_grows _ _ _ _ _ _ _ _ _ _ _ ordF_perm _ _ _ ns _ _ _ _ _ I5 E6) as (_ & _ & _ & Htr). destruct (Htr p Hp) as (l & Hl & Hall).
        destruct (group_step_all _ _ _ _ _ _ _ _ _ _ _ ordF_perm _ _ _ _ T D true p l ts rest m g (proj1 I5) Hl Hsig (group_allowed_spec _ _ Hent)) as (m' & Hm' & Hr); try assumption.
        + intros l0 Hl0 x Hx. eapply (Hpool s5); [exact I5 | exact D5 | exact Hi5 | right; exact Hx | | | exact Hl0]; [destruct (Hm x (or_introl Hx)) as (f & H1 & H2 & _); eauto | intros k [= <-]; eapply choice_pool; eassumption].
        + intros _. exact Edir.
        + intros ts' l0 Hf Ht Hl0. eapply (Hpool s5); [exact I5 | exact D5 | exact Hi5 | left; reflexivity | | exact (Hgk ts' Hf Ht) | exact Hl0]. destruct (Hm g (or_intror eq_refl)) as (f & H1 & H2 & _); eauto.
        + exists m'. split; [exact Hr|]. destruct (Hall _ Hm') as [He Hh]. apply has_present; [apply H6; exact Hh | exact He | apply Hidx].
      - assert (forall x, In x m -> is_direct x = false) as Hnod by (intros x Hx; apply not_true_is_false; intros E; assert (existsb is_direct m = true) by (apply existsb_exists; eauto); congruence).
        assert (is_direct g = false) as Hgd by (destruct Hdir as [(b & Hb & Eb)|H]; [rewrite (Hnod b Hb) in Eb; discriminate | exact H]).
        destruct (transform_grows _ _ _ _ _ _ _ _ _ _ _ ordF_perm _ _ _ ns _ _ _ _ _ I2 E3) as (_ & _ & _ & Htr). destruct (Htr p Hp) as (l & Hl & Hall).
        destruct (group_step_all _ _ _ _ _ _ _ _ _ _ _ ordF_perm _ _ _ _ T D false p l ts rest m g (proj1 I2) Hl Hsig (group_allowed_spec _ _ Hent)) as (m' & Hm' & Hr); try assumption; try discriminate.
        + intros l0 Hl0 x Hx. eapply (Hpool s2); [exact I2 | exact D2 | exact Hi2 | right; exact Hx | | | exact Hl0]; [destruct (Hm x (or_introl Hx)) as (f & H1 & _ & H2); exists f; split; [exact H1 | apply H2, Hnod; exact Hx] | intros k [= <-]; eapply choice_pool; eassumption].
        + intros ts' l0 Hf Ht Hl0. eapply (Hpool s2); [exact I2 | exact D2 | exact Hi2 | left; reflexivity | | exact (Hgk ts' Hf Ht) | exact Hl0]. destruct (Hm g (or_intror eq_refl)) as (f & H1 & _ & H2). exists f. split; [exact H1 | apply H2; exact Hgd].
        + exists m'. split; [exact Hr|]. destruct (Hall _ Hm') as [He Hh]. apply has_present; [apply H3; exact Hh | exact He | apply Hidx].
    Qed.

    (** *** Columns *)
    Lemma column_in s e v md ts l : inv s -> cols (s_all s) -> known e s -> In v (variables e) -> ~ In v (dd_get e (g_ign_v G)) -> ~ output_name rels v -> features_by_type (s_all s) e md ts = Ok l ->
      (forall k, ts = Some k -> existsb (issub (ftype (FIdent e v None))) k = true) -> (forall z, md = Some z -> (0 <= z)%Z) -> In (FIdent e v None) l.
    Proof.
      intros Hi Hc Hk Hv Hg Ho Hl Hty Hz. unfold known in Hk. destruct (dget String.eqb e (s_all s)) as [d0|] eqn:Ed; [|congruence]. pose proof (Hc e d0 v Ed Hv Hg) as Hin. set (x := FIdent e v None) in *.
      assert (exists d1, expand rels d0 = Ok d1) as (d1 & Ee). { unfold M_DFS.features_by_type in Hl. rewrite Ed in Hl. destruct (expand rels d0) as [d1|]; [eauto|]. destruct md as [z|]; [|discriminate]. destruct (Z.ltb_spec z 0) as [Hz'|Hz']; [specialize (Hz z eq_refl); lia | discriminate]. }
      destruct (dict_ok _ _ _ _ _ _ _ _ _ _ _ _ _ _ _ (proj1 Hi) Ed) as (Hkey & Hent & Hnd). eapply by_type_all; [exact ns | exact (proj1 Hi) | exact Hl | exact Ed | exact Ee | | exact Hty |].
      - apply (expand_keeps rels d0 d1 x x Hkey Ee Hin); [left; reflexivity| |].
        + intros h Hh H1 E. assert (h = x) as -> by (eapply unique_pair; [exact Hnd | apply (in_vals rels _ _ Hkey Hh) | rewrite E; apply (in_vals rels _ _ Hkey Hin)]). cbn in H1. lia.
        + intros h i Hh H1 Hi1 E. exfalso. apply Ho. exists h, i. split; [exact H1|]. split; [exact Hi1|]. assert (fentity h = e) as He by (apply in_map_iff in Hh as ([n h'] & <- & Hh); apply (Hent _ Hh)). unfold M_Feature.funique in E. cbn [fentity x] in E. rewrite He in E. apply (app_head_inj _ _ ": "), (app_head_inj _ _ e). exact E.
      - intros z n -> Hn. unfold get_depth in Hn. cbn in Hn. injection Hn as <-. apply Hz. reflexivity.
    Qed.
    Lemma top_columns v : In v (variables T) -> ~ In v (dd_get T (g_ign_v G)) -> index_of T <> Some v -> In (FIdent T v None) fs.
    Proof.
      intros Hv Hg Hi. destruct stages as (s0 & back & s1 & deep & s2 & s3 & fwd & s4 & s5 & s6 & _ & _ & (_ & _ & C) & _). apply result. split; [apply (C T d v target_dict Hv Hg)|]. cbn [is_target_index]. change (g_target A) with (g_target A0). fold T. rewrite String.eqb_refl. cbn [andb].
      destruct (index_of T) as [i|]; [|reflexivity]. apply String.eqb_neq. congruence.
    Qed.
    Lemma not_skipped p ep : g_paths A0 = [] -> ~ In (fst ep) (g_ign_e G) -> skip_entity A G p ep = false.
    Proof. intros Hp H. unfold skip_entity. change (g_paths A) with (g_paths A0). rewrite Hp, orb_false_r. apply mem_str_nIn. exact H. Qed.
    Lemma top_parents r v : In r rels -> r_ce r = T -> g_paths A0 = [] -> ~ In (r_pe r) (g_ign_e G) -> g_depth A0 = (-1)%Z \/ (1 <= g_depth A0)%Z -> In v (variables (r_pe r)) -> ~ In v (dd_get (r_pe r) (g_ign_v G)) ->
      ~ end_of r (FIdent (r_pe r) v None) -> ~ output_name rels v -> not_index rels index_of A0 (FDirect r (FIdent (r_pe r) v None) None) -> present rels fs (FDirect r (FIdent (r_pe r) v None) None).
    Proof.
      intros Hr He Hp Hg Hd Hv Hgv Hend Ho Hidx. destruct (limit_one Hd) as [Hneg Hlim].
      destruct stages as (s0 & back & s1 & deep & s2 & s3 & fwd & s4 & s5 & s6 & (_ & _ & Ef) & (I1 & I2 & I4 & I5) & (_ & C4 & _) & _ & _ & _ & _ & _ & K4 & E5 & _ & _ & _ & H5 & _).
      pose proof (forward_one' _ _ _ Ef r Hr He) as Hin. assert (skip_entity A G [] (r_pe r, [(true, r)]) = false) as Hsk by (apply not_skipped; assumption). pose proof (K4 _ Hin Hsk Hneg) as Hk. cbn [fst] in Hk.
      destruct (foldM_split _ _ _ _ _ Hin E5) as (l1 & l2 & sa & sb & El & Ha & Hb & Hc).
      assert (forall l s t, incl l fwd -> inv s -> foldM (fwd_phase [] D) l s = Ok t -> inv t /\ grows T copied (s_all s) (s_all t)) as X.
      { induction l as [|a l IH]; intros s t Hl Hs; cbn [foldM]; [intros [= <-]; split; [exact Hs | apply grows_refl]|]. destruct (fwd_phase [] D s a) as [t1|] eqn:E; cbn [bind]; [|discriminate]. intros E1. destruct (fwd_step_inv _ _ _ _ _ _ _ _ _ _ _ _ ns _ _ _ _ _ _ _ target_mdle target_open Ef (Hl a (or_introl eq_refl)) Hs E) as [J1 J2].
        destruct (IH t1 t (fun y Hy => Hl y (or_intror Hy)) J1 E1) as [J3 J4]. split; [exact J3 | eapply grows_trans; eassumption]. }
      destruct (X l1 s4 sa ltac:(rewrite El; intros y Hy; apply in_or_app; left; exact Hy) I4 Ha) as [Ia Ga].
      unfold L_DFSAll.fwd_phase in Hb. rewrite Hsk in Hb. cbn [snd] in Hb. destruct (forward_grows _ _ _ _ _ _ _ _ _ _ _ _ ns _ _ _ _ Ia Hb) as (Gb & _ & l & Hl & Hall).
      destruct (fwd_step_inv _ _ _ _ _ _ _ _ _ _ _ _ ns _ [] _ _ sa (r_pe r, [(true, r)]) sb target_mdle target_open Ef Hin Ia) as [Ib _]; [unfold L_DFSAll.fwd_phase; rewrite Hsk; exact Hb|].
      destruct (X l2 sb s5 ltac:(rewrite El; intros y Hy; apply in_or_app; right; right; exact Hy) Ib Hc) as [_ Gc].
      assert (In (FIdent (r_pe r) v None) l) as Hx. { eapply (column_in sa); [exact Ia | eapply cols_grows; eassumption | apply (known_grows _ _ _ _ _ Ga); exact Hk | exact Hv | exact Hgv | exact Ho | exact Hl | discriminate | intros z Hz; specialize (Hlim z Hz); lia]. }
      apply has_present; [|exact He | exact Hidx]. apply H5. eapply has_grows; [exact Gc|]. rewrite <- He. apply (Hall _ Hx). cbn [feature_in_relationship_path existsb snd]. rewrite orb_false_r. apply not_true_is_false. intros E. apply Hend. exists None.
      apply orb_true_iff in E as [E|E]; apply andb_true_iff in E as [E1 E2]; apply String.eqb_eq in E1, E2; [left | right]; congruence.
    Qed.
    Lemma known_chain s0 s1 e path ce : closed rels G s0 s1 -> (forall x, known x s0 -> x = T) -> (forall r, In r rels -> r_pe r = T -> ~ In (r_ce r) (g_ign_e G) -> known (r_ce r) s1) -> backward_chain rels e path ce -> known e s1 -> (forall r, In r path -> ~ In (r_ce r) (g_ign_e G)) -> known ce s1.
    Proof.
      intros Hc H0 HT H. induction H as [a|r q b Hr Hq IH]; intros Hk Hi; [exact Hk|]. apply IH; [|intros r' Hr'; apply Hi; right; exact Hr']. destruct (String.eqb_spec (r_pe r) T) as [E|E]; [apply HT; [exact Hr | exact E | apply Hi; left; reflexivity]|].
      apply (Hc r Hr); [intros Hx; apply E, H0; exact Hx | exact Hk | apply Hi; left; reflexivity].
    Qed.
    Lemma top_children p ts rest path ce vs : In p (g_aggs A0) -> p_inputs p = Some (ts :: rest) -> backward_chain rels T path ce -> path <> [] -> g_paths A0 = [] -> (forall r, In r path -> ~ In (r_ce r) (g_ign_e G)) ->
      (g_depth A0 = (-1)%Z /\ List.length entities <> 1) \/ ((exists r, path = [r]) /\ (g_depth A0 = (-1)%Z \/ (1 <= g_depth A0)%Z)) ->
      NoDup vs -> (forall v, In v vs -> In v (variables ce) /\ ~ In v (dd_get ce (g_ign_v G)) /\ ~ output_name rels v /\ forall r, In r path -> ~ end_of r (FIdent ce v None)) ->
      let m := map (fun v => FIdent ce v None) vs in
      Forall2 (fun f ty => issub (ftype f) ty = true) m ts -> (forall b, In b m -> stacks attr subc p b) -> entity_allowed (opts p) ce -> all_pass rels (opts p) m ->
      (forall m' u, not_index rels index_of A0 (FAgg p m' path u None None None)) -> exists m' u, reordered (a_comm (attr p)) m m' /\ present rels fs (FAgg p m' path u None None None).
    Proof.
      intros Hp Hsig Hc Hne Hpaths Hign Hlim Hnd Hvs m Hty Hst Hent Hpass Hidx.
      destruct stages as (s0 & back & s1 & deep & s2 & s3 & fwd & s4 & s5 & s6 & (Eb & Ed & _) & (I1 & I2 & I4 & I5) & (C1 & _) & (K0 & KT & K01) & K1 & L1 & E2 & _ & _ & _ & _ & H2 & _).
      assert (g_depth A0 = (-1)%Z \/ (1 <= g_depth A0)%Z) as Hd by (destruct Hlim as [[? _]|[_ ?]]; auto). destruct (limit_one Hd) as [Hneg Hz].
      assert (forall r, In r rels -> r_pe r = T -> ~ In (r_ce r) (g_ign_e G) -> known (r_ce r) s1) as HT by (intros r Hr He Hg; apply (K1 (r_ce r, [(false, r)])); [apply (backward_one _ _ _ Eb); assumption | apply not_skipped; assumption | exact Hneg]).
      assert (known ce s1) as Hk.
      { destruct Hlim as [[Hm1 Hl]|[(r & ->) _]].
        - assert (D = None) as HD by (subst D; unfold depth_limit; rewrite Hm1; cbn; destruct (Nat.eqb_spec (List.length entities) 1); [contradiction | reflexivity]). eapply (known_chain s0 s1 T path ce); try eassumption; [apply L1; assumption | apply K01; exact K0].
        - inversion Hc as [|r0 q b Hr Hq]; subst. inversion Hq; subst. apply HT; [exact Hr | assumption | apply Hign; left; reflexivity]. }
      assert (~ In ce (g_ign_e G)) as Hce. { clear - Hc Hne Hign. induction Hc as [a|r q b Hr Hq IH]; [congruence|]. destruct q as [|r' q]; [inversion Hq; subst; apply Hign; left; reflexivity | apply IH; [discriminate | intros r0 H0; apply Hign; right; exact H0]]. }
      assert (In (ce, map (fun r => (false, r)) path) deep) as Hin by (apply (related_In r_pe r_ce false rels _ T deep Ed); exists path; auto).
      destruct (foldM_split _ _ _ _ _ Hin E2) as (l1 & l2 & sa & sb & El & Ha & Hb & Hcc).
      assert (forall l s t, incl l deep -> inv s -> foldM (agg_phase T [] D) l s = Ok t -> inv t /\ grows T anyf (s_all s) (s_all t)) as X.
      { induction l as [|a l IH]; intros s t Hl Hs; cbn [foldM]; [intros [= <-]; split; [exact Hs | apply grows_refl]|]. destruct (agg_phase T [] D s a) as [t1|] eqn:E; cbn [bind]; [|discriminate]. intros E1.
        assert (inv t1 /\ grows T anyf (s_all s) (s_all t1)) as [J1 J2].
        { unfold L_DFSAll.agg_phase in E. destruct a as [x pth]. destruct (skip_entity A G [] (x, pth)) eqn:Esk; [injection E as <-; split; [exact Hs | apply grows_refl]|]. apply skip_false in Esk. cbn [fst snd] in *. destruct (proj1 (related_In r_pe r_ce false rels _ T deep Ed x pth) (Hl _ (or_introl eq_refl))) as (q & -> & Hq & Hch).
          split; [eapply (agg_inv _ _ _ _ _ _ _ _ _ _ _ ordF_perm _ _ _ T x q); [exact Hs | exact target_mdle | exact target_open | exact Hch | exact Hq | exact Esk | exact E] | eapply agg_grows; [exact ns | exact Hch | exact Hq | exact E]]. }
        destruct (IH t1 t (fun y Hy => Hl y (or_intror Hy)) J1 E1) as [J3 J4]. split; [exact J3 | eapply grows_trans; eassumption]. }
      destruct (X l1 s1 sa ltac:(rewrite El; intros y Hy; apply in_or_app; left; exact Hy) I1 Ha) as [Ia Ga].
      unfold L_DFSAll.agg_phase in Hb. rewrite (not_skipped [] (ce, _) Hpaths Hce) in Hb. cbn [fst snd] in Hb.
      assert (inv sb) as Ib by (eapply (agg_inv _ _ _ _ _ _ _ _ _ _ _ ordF_perm _ _ _ T ce path); [exact Ia | exact target_mdle | exact target_open | exact Hc | exact Hne | exact Hce | exact Hb]).
      destruct (X l2 sb s2 ltac:(rewrite El; intros y Hy; apply in_or_app; right; right; exact Hy) Ib Hcc) as [_ Gc].
      destruct (agg_all _ _ _ _ _ _ _ _ _ _ _ ordF_perm _ _ _ ns T ce path D sa sb p ts rest m Ia target_mdle target_open Hc Hne Hce Hb Hp Hsig (entity_allowed_spec _ _ Hent)) as (m' & u & Hr & Hh); try assumption.
      - intros t l Gt It Hl b Hbm. apply in_map_iff in Hbm as (v & <- & Hv). destruct (Hvs v Hv) as (V1 & V2 & V3 & _). eapply (column_in t); [exact It | eapply cols_grows; [eapply cols_grows; [exact C1 | exact Ga] | exact Gt] | apply (known_grows _ _ _ _ _ Gt), (known_grows _ _ _ _ _ Ga); exact Hk | exact V1 | exact V2 | exact V3 | exact Hl| |].
        + intros k [= <-]. clear - Hty Hv. subst m. revert vs Hty Hv. induction ts as [|t0 ts IH]; intros vs Hty Hv; destruct vs as [|v0 vs]; cbn [map] in Hty; inversion Hty; subst; [destruct Hv|]. cbn [existsb]. destruct Hv as [<-|Hv]; [apply orb_true_iff; left; assumption | apply orb_true_iff; right; eapply IH; eassumption].
        + intros z Hzz. destruct D as [z0|]; [|discriminate]. injection Hzz as <-. specialize (Hz z0 eq_refl). lia.
      - apply FinFun.Injective_map_NoDup; [|exact Hnd]. intros a b [=]. assumption.
      - intros b Hbm. apply in_map_iff in Hbm as (v & <- & Hv). split; [reflexivity|]. destruct (Hvs v Hv) as (_ & _ & _ & V4). cbn [feature_in_relationship_path]. apply not_true_is_false. intros E. apply existsb_exists in E as (ed & Hed & E). apply in_map_iff in Hed as (r & <- & Hr0). cbn [snd] in E. apply (V4 r Hr0). exists None.
        apply orb_true_iff in E as [E|E]; apply andb_true_iff in E as [E1 E3]; apply String.eqb_eq in E1, E3; [left | right]; congruence.
      - intros b Hbm. split; [apply Hst; exact Hbm|]. apply in_map_iff in Hbm as (v & <- & _). reflexivity.
      - exists m', u. split; [exact Hr|]. apply has_present; [|cbn [fentity]; destruct path as [|r q]; [congruence|]; inversion Hc; subst; congruence | apply Hidx]. apply H2. eapply has_grows; [exact Gc | exact Hh].
    Qed.
  End Top.

  (** ** From a successful call to the run *)
  Lemma dfs_top A tf fuel fs : dfs (unfiltered A) None tf fuel = Ok fs -> exists G n s' d, options A = Ok G /\ fuel = S n /\ negative (depth_limit entities A) = false /\
    run_dfs variables vtypes interesting rels p_ret p_inputs attr subc eq_prim lower ordF (unfiltered A) G tf (S n) (g_target A) [] (depth_limit entities A) (mkSt [] []) = Ok s' /\
    dget String.eqb (g_target A) (s_all s') = Some d /\ (forall f, In f fs <-> In f (vals d) /\ is_target_index index_of (unfiltered A) f = false) /\ ~ In (g_target A) (g_ignore_e A).
  Proof.
    unfold build_features. change (g_target (unfiltered A)) with (g_target A). change (g_ignore_e (unfiltered A)) with (g_ignore_e A). destruct (negb _); [discriminate|]. destruct (mem_str (g_target A) (g_ignore_e A)) eqn:Ei; [discriminate|]. apply mem_str_nIn in Ei.
    change (g_trans (unfiltered A)) with (g_trans A). change (g_aggs (unfiltered A)) with (g_aggs A). change (g_wheres (unfiltered A)) with (g_wheres A). change (g_groups (unfiltered A)) with (g_groups A). change (g_options (unfiltered A)) with (g_options A). change (g_ignore_v (unfiltered A)) with (g_ignore_v A).
    destruct (options A) as [G|]; cbn [bind]; [|discriminate]. change (depth_limit entities (unfiltered A)) with (depth_limit entities A).
    destruct (run_dfs _ _ _ _ _ _ _ _ _ _ _ _ _ tf fuel _ _ _ _) as [s'|] eqn:Er; cbn [bind]; [|discriminate]. destruct (dget String.eqb (g_target A) (s_all s')) as [d|] eqn:Ed; [|discriminate]. intros Hf.
    destruct (negative (depth_limit entities A)) eqn:En. { exfalso. unfold negative in En. destruct fuel; cbn [run_dfs] in Er; rewrite En in Er; injection Er as <-; discriminate. }
    destruct fuel as [|n]. { exfalso. unfold negative in En. cbn [run_dfs] in Er. rewrite En in Er. discriminate. }
    exists G, n, s', d. split; [reflexivity|]. split; [reflexivity|]. split; [reflexivity|]. split; [exact Er|]. split; [exact Ed|]. split; [|exact Ei]. destruct (finish_spec _ _ _ _ _ _ _ _ Hf) as (l & Hp & _ & ->). intros f. cbn [g_maxf unfiltered Z.ltb Z.compare]. rewrite filter_In.
    assert (keep_feature rels (unfiltered A) f = true) as Hk by (apply keep_spec; split; [intros [] | intros c []]). rewrite Hk. transitivity (In f l); [tauto|]. split.
    - intros H. apply (Permutation_in _ Hp) in H. apply filter_In in H as [H1 H2]. apply filter_In in H1 as [H1 _]. apply negb_true_iff in H2. auto.
    - intros [H1 H2]. apply (Permutation_in _ (Permutation_sym Hp)). apply filter_In. split; [apply filter_In; auto | apply negb_true_iff; exact H2].
  Qed.
  (** the options in force for a primitive: those given for it, or else those that say what to ignore everywhere *)
  Definition in_force (A : dfs_args) (p : prim) (os : list popt) : Prop := exists G, options A = Ok G /\ os = options_of attr (g_opts G) p.
  Definition not_ignored (A : dfs_args) (e v : string) : Prop := ~ In v (dd_get e (g_ignore_v A)).
  Definition depth_allows_one (A : dfs_args) : Prop := g_depth A = (-1)%Z \/ (1 <= g_depth A)%Z.
  Definition transforms_transform (A : dfs_args) : Prop := forall q, In q (g_trans A ++ g_groups A) -> a_isagg (attr q) = false.

  Theorem C68_columns A tf fuel fs v : g_seeds A = [] -> dfs (unfiltered A) None tf fuel = Ok fs -> In v (variables (g_target A)) -> not_ignored A (g_target A) v -> index_of (g_target A) <> Some v -> In (FIdent (g_target A) v None) fs.
  Proof.
    intros Hns H Hv Hg Hi. destruct (dfs_top _ _ _ _ H) as (G & n & s' & d & HG & -> & Hneg & Hrun & Hd & Hres & _). eapply top_columns; try eassumption. intros X. apply Hg. apply (ignored_given _ _ _ _ _ _ _ HG). exact X.
  Qed.
  Theorem C68_transforms A tf fuel fs p os ts rest m : g_seeds A = [] -> dfs (unfiltered A) None tf fuel = Ok fs -> named_apart rels (named index_of A fs) -> transforms_transform A ->
    In p (g_trans A) -> p_inputs p = Some (ts :: rest) -> choice p_ret vtypes ts (flat_map outputs fs) m -> (forall b, In b m -> room rels entities A b) ->
    stackable attr subc (FTrans p m None) -> ((exists b, In b m /\ is_direct b = true) -> ~ same_parent m) -> in_force A p os -> entity_allowed os (g_target A) -> all_pass rels os m ->
    (forall m', not_index rels index_of A (FTrans p m' None)) ->
    exists m', reordered (a_comm (attr p)) m m' /\ present rels fs (FTrans p m' None).
  Proof.
    intros Hns H Hap Htr Hp Hsig Hch Hroom Hst Hsame (G0 & HG0 & ->) Hent Hpass Hidx. destruct (dfs_top _ _ _ _ H) as (G & n & s' & d & HG & -> & Hneg & Hrun & Hd & Hres & _). rewrite HG in HG0. injection HG0 as <-. eapply top_transforms; eassumption.
  Qed.
  Theorem C68_groupbys_partial A tf fuel fs p os ts rest m g : g_seeds A = [] -> dfs (unfiltered A) None tf fuel = Ok fs -> named_apart rels (named index_of A fs) -> transforms_transform A ->
    In p (g_groups A) -> p_inputs p = Some (ts :: rest) -> choice p_ret vtypes ts (flat_map outputs fs) m -> In g (flat_map outputs fs) -> (forall b, In b (g :: m) -> room rels entities A b) ->
    stackable attr subc (FGroup p m g None) -> ~ computed_by_transform attr g -> ((exists b, In b m /\ is_direct b = true) \/ is_direct g = false) ->
    in_force A p os -> group_allowed os (g_target A) -> all_pass rels os m -> issub (ftype g) YDiscrete = true -> ((exists o, In o os /\ names_entity (g_target A) (o_inc_gv o)) \/ issub (ftype g) YId = true) ->
    (exists o, hd_error os = Some o /\ passes_group rels o g) -> (forall m', not_index rels index_of A (FGroup p m' g None)) ->
    exists m', reordered (a_comm (attr p)) m m' /\ present rels fs (FGroup p m' g None).
  Proof.
    intros Hns H Hap Htr Hp Hsig Hch Hg Hroom Hst Hgt Hdir (G0 & HG0 & ->) Hent Hpass Hdisc Hgid Hgp Hidx. destruct (dfs_top _ _ _ _ H) as (G & n & s' & d & HG & -> & Hneg & Hrun & Hd & Hres & _). rewrite HG in HG0. injection HG0 as <-. eapply top_groups; eassumption.
  Qed.
  Theorem C68_parents A tf fuel fs r v : g_seeds A = [] -> dfs (unfiltered A) None tf fuel = Ok fs -> g_paths A = [] -> depth_allows_one A -> In r rels -> r_ce r = g_target A -> ~ In (r_pe r) (g_ignore_e A) ->
    In v (variables (r_pe r)) -> not_ignored A (r_pe r) v -> ~ end_of r (FIdent (r_pe r) v None) -> ~ output_name rels v -> not_index rels index_of A (FDirect r (FIdent (r_pe r) v None) None) ->
    present rels fs (FDirect r (FIdent (r_pe r) v None) None).
  Proof.
    intros Hns H Hpa Hd1 Hr He Hi Hv Hg Hend Ho Hidx. destruct (dfs_top _ _ _ _ H) as (G & n & s' & d & HG & -> & Hneg & Hrun & Hd & Hres & _). destruct (ignored_given _ _ _ _ _ _ _ HG) as [J1 J2].
    eapply top_parents; try eassumption; [intros X; apply Hi, J1; exact X | intros X; apply Hg, J2; exact X].
  Qed.
  Theorem C68_children_partial A tf fuel fs p os ts rest path ce vs : g_seeds A = [] -> dfs (unfiltered A) None tf fuel = Ok fs -> g_paths A = [] ->
    In p (g_aggs A) -> p_inputs p = Some (ts :: rest) -> backward_chain rels (g_target A) path ce -> path <> [] -> (forall r, In r path -> ~ In (r_ce r) (g_ignore_e A)) ->
    (g_depth A = (-1)%Z /\ List.length entities <> 1) \/ ((exists r, path = [r]) /\ depth_allows_one A) ->
    NoDup vs -> (forall v, In v vs -> In v (variables ce) /\ not_ignored A ce v /\ ~ output_name rels v /\ forall r, In r path -> ~ end_of r (FIdent ce v None)) ->
    let m := map (fun v => FIdent ce v None) vs in
    Forall2 (fun f ty => issub (ftype f) ty = true) m ts -> (forall b, In b m -> stacks attr subc p b) -> in_force A p os -> entity_allowed os ce -> all_pass rels os m ->
    (forall m' u, not_index rels index_of A (FAgg p m' path u None None None)) ->
    exists m' u, reordered (a_comm (attr p)) m m' /\ present rels fs (FAgg p m' path u None None None).
  Proof.
    intros Hns H Hpa Hp Hsig Hc Hne Hign Hlim Hnd Hvs m Hty Hst (G0 & HG0 & ->) Hent Hpass Hidx. destruct (dfs_top _ _ _ _ H) as (G & n & s' & d & HG & -> & Hneg & Hrun & Hd & Hres & _). rewrite HG in HG0. injection HG0 as <-. destruct (ignored_given _ _ _ _ _ _ _ HG) as [J1 J2].
    eapply top_children; try eassumption; [intros r Hr X; apply (Hign r Hr), J1; exact X|]. intros v Hv. destruct (Hvs v Hv) as (V1 & V2 & V3 & V4). split; [exact V1|]. split; [intros X; apply V2, J2; exact X | auto].
  Qed.

  Definition all_prims (A : dfs_args) : list prim := g_trans A ++ g_aggs A ++ g_wheres A ++ g_groups A.
  Lemma force_only A p os : g_options A = [] -> In p (all_prims A) -> in_force A p os -> exists o, os = [o] /\ only_ignores A o.
  Proof using attr arity_of.
    intros Hu Hp (G & HG & ->). rewrite Hu in HG. unfold generate_all_primitive_options in HG. cbn [init_primitive_options foldM bind] in HG. injection HG as <-. fold (all_prims A). revert Hp.
    assert (forall s, (forall k l, In (k, l) (g_opts s) -> (exists i, k = KInst i) /\ exists o, l = [o] /\ only_ignores A o) -> forall l, (In p l \/ exists l0, In (KInst (a_id (attr p)), l0) (g_opts s)) -> exists o, options_of attr (g_opts (fold_left (gen_step attr (g_ignore_e A) (g_ignore_v A)) l s)) p = [o] /\ only_ignores A o) as X; [|intros Hp; apply X; [intros k l [] | left; exact Hp]].
    intros s Hs l. revert s Hs. induction l as [|q l IH]; intros s Hs Hp; cbn [fold_left].
    - destruct Hp as [[]|(l0 & Hl0)]. unfold options_of. destruct (dget okey_eqb (KInst (a_id (attr p))) (g_opts s)) as [l1|] eqn:E; [apply (dget_In _ okey_eqb_spec) in E; apply (Hs _ _ E)|]. exfalso. apply (dget_None _ okey_eqb_spec) in E. apply E. apply in_map_iff. exists (KInst (a_id (attr p)), l0). auto.
    - assert (forall k x, (exists l0, In (KInst (a_id (attr p)), l0) (dset okey_eqb k x (g_opts s))) <-> KInst (a_id (attr p)) = k \/ exists l0, In (KInst (a_id (attr p)), l0) (g_opts s)) as Hkeys.
      { intros k x. clear. induction (g_opts s) as [|[k' x'] d IH]; cbn [dset]; [split; [intros (l0 & [[= <- <-]|[]]); auto | intros [<-|(l0 & [])]; exists x; left; reflexivity]|]. destruct (okey_eqb_spec k k') as [<-|Hk].
        - split; [intros (l0 & [[= <- <-]|H]); [auto | right; exists l0; right; exact H] | intros [<-|(l0 & [[= <- <-]|H])]; [exists x; left; reflexivity | exists x; left; reflexivity | exists l0; right; exact H]].
        - split; [intros (l0 & [[= <- <-]|H]); [right; exists x'; left; reflexivity | destruct (proj1 IH (ex_intro _ l0 H)) as [<-|(l1 & H1)]; [auto | right; exists l1; right; exact H1]]
                 | intros [<-|(l0 & [[= <- <-]|H])]; [destruct (proj2 IH (or_introl eq_refl)) as (l1 & H1); exists l1; right; exact H1 | exists x'; left; reflexivity | destruct (proj2 IH (or_intror (ex_intro _ l0 H))) as (l1 & H1); exists l1; right; exact H1]]. }
      apply IH.
      + unfold gen_step. destruct (prim_key attr (g_opts s) q) as [k|] eqn:Ek; cbn [g_opts].
        * intros k0 l0 Hin. apply In_dset_kk in Hin as [[-> ->]|Hin]; [|eapply Hs; exact Hin]. destruct (dget okey_eqb k (g_opts s)) as [l1|] eqn:E; [|exfalso]. { apply (dget_In _ okey_eqb_spec) in E. destruct (Hs _ _ E) as (Hi & o & -> & Ho). split; [exact Hi|]. eexists. split; [reflexivity | apply globals_only; exact Ho]. }
          unfold prim_key in Ek. destruct (dget okey_eqb (KInst (a_id (attr q))) (g_opts s)) eqn:E1; [injection Ek as <-; congruence|]. destruct (dget okey_eqb (KName (a_name (attr q))) (g_opts s)) eqn:E2; [injection Ek as <-; congruence | discriminate].
        * intros k0 l0 Hin. apply In_dset_kk in Hin as [[-> ->]|Hin]; [|eapply Hs; exact Hin]. split; [eexists; reflexivity|]. eexists. split; [reflexivity|]. repeat (split; [reflexivity|]). split; [apply incl_refl | intros e vs v H1 H2; exists vs; auto].
      + destruct Hp as [[->|Hp]|Hp]; [|left; exact Hp|].
        * right. unfold gen_step. destruct (prim_key attr (g_opts s) p) as [k|] eqn:Ek; cbn [g_opts]; [|apply Hkeys; left; reflexivity]. apply Hkeys. unfold prim_key in Ek. destruct (dget okey_eqb (KInst (a_id (attr p))) (g_opts s)) as [l1|] eqn:E1; [apply (dget_In _ okey_eqb_spec) in E1; right; eauto|].
          destruct (dget okey_eqb (KName (a_name (attr p))) (g_opts s)) as [l1|] eqn:E2; [|discriminate]. apply (dget_In _ okey_eqb_spec) in E2. destruct (Hs _ _ E2) as [(i & [=]) _].
        * right. unfold gen_step. destruct (prim_key attr (g_opts s) q) as [k|]; cbn [g_opts]; apply Hkeys; right; exact Hp.
  Qed.
  (** the feature, and everything it is built from, is neither of an ignored entity nor an ignored variable *)
  Definition uses_nothing_ignored (A : dfs_args) (f : feat) : Prop :=
    forall d, reaches f d -> ~ In (fentity d) (g_ignore_e A) /\ forall e v nm vs, d = FIdent e v nm -> In (e, vs) (g_ignore_v A) -> ~ In (fname d) vs.
  Theorem C68_no_options A p os : g_options A = [] -> In p (all_prims A) -> in_force A p os ->
    (forall e, ~ In e (g_ignore_e A) -> entity_allowed os e /\ group_allowed os e) /\
    (forall m, (forall f, In f m -> uses_nothing_ignored A f) -> all_pass rels os m) /\
    (forall g, exists o, hd_error os = Some o /\ passes_group rels o g).
  Proof using rels attr arity_of.
    intros Hu Hp Hf. destruct (force_only A p os Hu Hp Hf) as (o & -> & (H1 & H2 & H3 & H4 & H5 & H6 & H7 & H8)).
    assert (forall e, ~ In e (g_ignore_e A) -> entity_allowed [o] e) as Ha. { intros e He o' [<-|[]]. right. rewrite H1. split; [intros l [=] | intros l [= <-] X; apply He, H7; exact X]. }
    split; [intros e He; split; [apply Ha; exact He | split; [apply Ha; exact He|]]; intros o' [<-|[]]; right; rewrite H3, H4; split; intros l [=]|]. split.
    - intros m Hm f Hin d Hd. destruct (Hm f Hin d Hd) as [K1 K2]. assert (entity_passes (o_inc_e o) (Some (o_ign_e o)) (fentity d)) as He by (rewrite H1; split; [intros l [=] | intros l [= <-] X; apply K1, H7; exact X]).
      destruct d; cbn [dep_passes]; try exact He. right. rewrite H2. split; [intros i [=]|]. split; [|exact He]. intros i vs [= <-] Hi X. apply (dget_In _ String.eqb_spec) in Hi. destruct (H8 _ _ _ Hi X) as (vs' & Y1 & Y2). eapply K2; [reflexivity | exact Y1 | exact Y2].
    - intros g. exists o. split; [reflexivity|]. intros d _. rewrite H3, H4, H5, H6. destruct d; cbn [dep_passes]; try (split; intros l [=]). right. split; [intros i [=]|]. split; [intros i vs [=] | split; intros l [=]].
  Qed.
End DFS.
Print Assumptions C68_columns.
Print Assumptions C68_transforms.
Print Assumptions C68_groupbys_partial.
Print Assumptions C68_parents.
Print Assumptions C68_children_partial.
Print Assumptions C68_no_options.
