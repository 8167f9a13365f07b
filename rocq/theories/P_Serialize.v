(** C22: saving and loading features preserves the definitions. *)
From Coq Require Import Sorting.Permutation.
From Verif Require Import Base BaseFacts M_Schema M_Trie M_FeatureSet M_Feature L_FeatureSet M_Types M_Serialize S_Serialize S_Calc S_Depth P_Depth P_Classes.
From Verif Require X_Demo.
Local Open Scope string_scope.
Local Open Scope list_scope.

Lemma or_given_idem nm gen : or_given (Some (or_given nm gen)) gen = or_given nm gen.
Proof. destruct nm as [[|a s]|]; cbn; [destruct gen; reflexivity | reflexivity | destruct gen; reflexivity]. Qed.

Section Names.
  Variable rels : list relationship.
  Notation wn := (with_names rels).

  Lemma wn_entity f : fentity (wn f) = fentity f.
  Proof.
    induction f as [e v nm|r b nm IH|p bs path u wh prev nm IH IHw|p bs nm IH|p bs g nm IH IHg|b n nm IH] using list_feat_ind; cbn [with_names fentity]; auto.
    - destruct IH as [|b bs H _]; [reflexivity | exact H].
    - destruct IH as [|b bs H _]; [exact IHg | exact H].
  Qed.
  Lemma wn_nout f : fnout (wn f) = fnout f.
  Proof. induction f as [e v nm|r b nm IH|p bs path u wh prev nm IH IHw|p bs nm IH|p bs g nm IH IHg|b n nm IH] using list_feat_ind; cbn [with_names fnout]; auto. Qed.
  Lemma wn_path f : fpath (wn f) = fpath f.
  Proof. induction f as [e v nm|r b nm IH|p bs path u wh prev nm IH IHw|p bs nm IH|p bs g nm IH IHg|b n nm IH] using list_feat_ind; cbn [with_names fpath]; auto. Qed.
  Lemma wn_class f : fclass (wn f) = fclass f.
  Proof. destruct f; reflexivity. Qed.
  Lemma wn_deps f : fdeps (wn f) = map wn (fdeps f).
  Proof. destruct f as [e v nm|r b nm|p bs path u wh prev nm|p bs nm|p bs g nm|b n nm]; unfold fdeps; cbn [with_names fbases fwhere map app]; rewrite ?app_nil_r; [reflexivity | reflexivity | | reflexivity | | reflexivity].
    - rewrite map_app. destruct wh; reflexivity.
    - rewrite map_app. reflexivity.
  Qed.
  Lemma wn_size f : fsize (wn f) = fsize f.
  Proof.
    assert (forall bs, Forall (fun b => fsize (wn b) = fsize b) bs -> map fsize (map wn bs) = map fsize bs) as Hm by (intros bs H; rewrite map_map; apply map_ext_in; apply Forall_forall; exact H).
    induction f as [e v nm|r b nm IH|p bs path u wh prev nm IH IHw|p bs nm IH|p bs g nm IH IHg|b n nm IH] using list_feat_ind; cbn [with_names fsize]; rewrite ?Hm by assumption; auto.
    destruct wh as [w|]; cbn [option_map]; [rewrite (IHw w eq_refl)|]; reflexivity.
  Qed.
  Lemma wn_type p_ret vtypes f : ftype p_ret vtypes (wn f) = ftype p_ret vtypes f.
  Proof.
    induction f as [e v nm|r b nm IH|p bs path u wh prev nm IH IHw|p bs nm IH|p bs g nm IH IHg|b n nm IH] using list_feat_ind; cbn [with_names ftype]; auto.
    - destruct (p_ret p); [reflexivity|]. destruct IH as [|b bs H _]; cbn [map]; [reflexivity | rewrite H; reflexivity].
    - destruct (p_ret p); [reflexivity|]. destruct IH as [|b bs H _]; cbn [map]; [reflexivity | rewrite H; reflexivity].
    - destruct (p_ret p); [reflexivity|]. destruct IH as [|b bs H _]; cbn [map]; [rewrite IHg | rewrite H]; reflexivity.
    - destruct b; cbn [with_names] in *; try (rewrite IH; reflexivity).
  Qed.

  (** writing the names out does not change them *)
  Lemma wn_naming f : fnaming rels (wn f) = fnaming rels f.
  Proof.
    assert (forall bs, Forall (fun b => fnaming rels (wn b) = fnaming rels b) bs -> map (fun b => fst (fnaming rels b)) (map wn bs) = map (fun b => fst (fnaming rels b)) bs) as Hm.
    { intros bs H. rewrite map_map. apply map_ext_in. intros b Hb. rewrite Forall_forall in H. rewrite (H b Hb). reflexivity. }
    induction f as [e v nm|r b nm IH|p bs path u wh prev nm IH IHw|p bs nm IH|p bs g nm IH IHg|b n nm IH] using list_feat_ind; cbn [with_names]; unfold fname; cbn [fnaming fst snd]; rewrite ?Hm by assumption; rewrite ?IH, ?IHg, ?wn_nout; rewrite ?or_given_idem; try reflexivity.
    set (gen := p_gen_agg p (map (fun b => fst (fnaming rels b)) bs) (fpath_name rels (FAgg p bs path u wh prev nm)) (fentity (FAgg p bs path u wh prev nm)) (match wh with Some w => (" WHERE " ++ fst (fnaming rels w))%string | None => "" end) (prev_str prev)).
    match goal with |- context [or_given (Some ?x) ?g] => assert (g = gen) as -> end; [|rewrite or_given_idem; reflexivity].
    unfold gen. f_equal.
    - unfold fpath_name. cbn [fpath]. destruct bs as [|b bs]; cbn [map]; [reflexivity|]. rewrite wn_entity. reflexivity.
    - destruct wh as [w|]; cbn [option_map]; [rewrite (IHw w eq_refl)|]; reflexivity.
  Qed.
  Lemma wn_name f : fname rels (wn f) = fname rels f.
  Proof. unfold fname. rewrite wn_naming. reflexivity. Qed.
  Lemma wn_names f : fnames rels (wn f) = fnames rels f.
  Proof. unfold fnames. rewrite wn_naming. reflexivity. Qed.
  Lemma wn_unique f : funique rels (wn f) = funique rels f.
  Proof. unfold funique. rewrite wn_entity, wn_name. reflexivity. Qed.

  Lemma wn_reaches f g x : wn f = wn g -> reaches f x -> exists y, reaches g y /\ wn y = wn x.
  Proof.
    intros He H. revert g He. induction H as [f|f d x Hd H IH]; intros g He; [exists g; split; [constructor | congruence]|].
    assert (map wn (fdeps f) = map wn (fdeps g)) as Hm by (rewrite <- !wn_deps; congruence). assert (In (wn d) (map wn (fdeps g))) as Hin by (rewrite <- Hm; apply in_map; exact Hd).
    apply in_map_iff in Hin as (d' & Hd' & Hin). destruct (IH d' (eq_sym Hd')) as (y & Hy & Hyx). exists y. split; [econstructor; [exact Hin | exact Hy] | exact Hyx].
  Qed.
End Names.

Lemma reaches_trans f g h : reaches f g -> reaches g h -> reaches f h.
Proof. induction 1 as [f|f d g Hd H IH]; intros Hg; [exact Hg|]. econstructor; [exact Hd | apply IH; exact Hg]. Qed.
Lemma NoDup_app_one {A} (l : list A) x : NoDup l -> ~ In x l -> NoDup (l ++ [x]).
Proof. intros H Hn. apply (Permutation.Permutation_NoDup (Permutation.Permutation_cons_append l x)). constructor; assumption. Qed.
Lemma deep_reaches rels f x : In x (deep_deps rels [] f) <-> exists d, In d (fdeps f) /\ reaches d x.
Proof.
  rewrite C24_dependencies. split.
  - induction 1 as [f d Hd _|f d g Hd _ Hb (d' & Hd' & Hr)]; [exists d; split; [exact Hd | constructor]|]. exists d. split; [exact Hd|]. econstructor; [exact Hd' | exact Hr].
  - intros (d & Hd & Hr). revert f Hd. induction Hr as [d|d d' x Hd' Hr IH]; intros f Hd; [apply below_one; [exact Hd | intros []]|]. apply (below_more rels [] f d x Hd); [intros [] | apply IH; exact Hd'].
Qed.
Lemma reaches_cases rels f x : reaches f x <-> x = f \/ In x (deep_deps rels [] f).
Proof.
  rewrite deep_reaches. split.
  - intros H. inversion H as [|? d ? Hd Hr]; subst; [left; reflexivity | right; exists d; auto].
  - intros [->|(d & Hd & Hr)]; [constructor | econstructor; [exact Hd | exact Hr]].
Qed.

Section C22.
  Variable args : Type.
  Variable class_of : prim -> cls.
  Variable args_of : prim -> args.
  Variable construct : cls -> args -> res prim.
  Variable targs : Type.
  Variable td_save : tdelta -> targs.
  Variable td_load : targs -> res tdelta.
  Variable p_ret : prim -> option vtyp.
  Variable p_inputs : prim -> option (list (list vtyp)).
  Variable vtypes : string -> string -> option vtyp.
  Variable rels : list relationship.
  Variable index_of : string -> option string.
  Variable prev_ok : string -> tdelta -> res unit.
  Variable classes : ctree.
  Notation wn := (with_names rels).
  Notation funique := (funique rels).
  Notation to_dictionary := (to_dictionary args class_of args_of targs td_save rels).
  Notation get_arguments := (get_arguments args class_of args_of targs td_save rels).
  Notation add_def := (add_def args class_of args_of targs td_save rels).
  Notation serialize_feature := (serialize_feature args class_of args_of targs td_save rels).
  Notation save_features := (save_features args class_of args_of targs td_save rels).
  Notation from_dictionary := (from_dictionary args construct targs td_load p_ret p_inputs vtypes rels index_of prev_ok).
  Notation deserialize_feature := (deserialize_feature args construct targs td_load p_ret p_inputs vtypes rels index_of prev_ok).
  Notation to_list := (to_list args construct targs td_load p_ret p_inputs vtypes rels index_of prev_ok).
  Notation load_features := (load_features args construct targs td_load p_ret p_inputs vtypes rels index_of prev_ok classes).
  Notation made := (made p_ret p_inputs vtypes rels prev_ok).
  Notation mk_rel := (mk_rel vtypes index_of).

  (** *** The constructors accept the loaded inputs *)
  Lemma check_bases_wn bs : check_bases (map wn bs) = check_bases bs.
  Proof.
    destruct bs as [|b bs]; [reflexivity|]. unfold check_bases. cbn [map]. rewrite wn_entity.
    assert (forallb (fun b' => String.eqb (fentity b') (fentity b)) (map wn bs) = forallb (fun b' => String.eqb (fentity b') (fentity b)) bs) as ->.
    { induction bs as [|x bs IH]; cbn; [reflexivity|]. rewrite wn_entity, IH. reflexivity. }
    assert (existsb (fun b' => Nat.ltb 1 (fnout b')) (wn b :: map wn bs) = existsb (fun b' => Nat.ltb 1 (fnout b')) (b :: bs)) as ->; [|reflexivity].
    change (wn b :: map wn bs) with (map wn (b :: bs)). induction (b :: bs) as [|x l IH]; cbn [map existsb]; [reflexivity|]. rewrite wn_nout, IH. reflexivity.
  Qed.
  Lemma check_types_wn p bs : check_types p_ret p_inputs vtypes p (map wn bs) = check_types p_ret p_inputs vtypes p bs.
  Proof.
    unfold check_types. destruct bs as [|b bs]; [reflexivity|]. cbn [map]. destruct (p_inputs p) as [ts|]; [|reflexivity].
    assert (forall t, zip_sub p_ret vtypes t (wn b :: map wn bs) = zip_sub p_ret vtypes t (b :: bs)) as H.
    { change (wn b :: map wn bs) with (map wn (b :: bs)). induction (b :: bs) as [|x l IH]; intros t; [reflexivity|]. destruct t as [|y t]; [reflexivity|]. cbn [map zip_sub]. rewrite wn_type, IH. reflexivity. }
    induction ts as [|t ts IH]; cbn [existsb]; [reflexivity|]. rewrite H, IH. reflexivity.
  Qed.

  Lemma mapM_deps deps bs : (forall b, In b bs -> dget String.eqb (funique b) deps = Some (wn b)) -> mapM (fun n => deps_get n deps) (map funique bs) = Ok (map wn bs).
  Proof. induction bs as [|b bs IH]; intros H; cbn [map mapM]; [reflexivity|]. unfold deps_get at 1. rewrite H by (left; reflexivity). rewrite IH by (intros x Hx; apply H; right; exact Hx). reflexivity. Qed.
  Lemma mapM_rels l : (forall r, In r l -> mk_rel r = Ok r) -> mapM mk_rel l = Ok l.
  Proof. induction l as [|r l IH]; intros H; cbn [mapM]; [reflexivity|]. rewrite H by (left; reflexivity). rewrite IH by (intros x Hx; apply H; right; exact Hx). reflexivity. Qed.

  Variable fs : list feat.
  (** unique names identify the definitions *)
  Hypothesis Hnames : forall f g, needed fs f -> needed fs g -> funique f = funique g -> wn f = wn g.
  Hypothesis Hmade : forall f, In f fs -> made f.
  (** the classes of the primitives can be found, and calling them with the saved arguments gives the primitive back *)
  Hypothesis Hclasses : forall a b, In a (find_descendents classes) -> In b (find_descendents classes) -> c_name a = c_name b -> c_module a = c_module b -> a = b.
  Hypothesis Hprims : forall f p, needed fs f -> In p (fprims f) -> In (class_of p) (find_descendents classes) /\ construct (class_of p) (args_of p) = Ok p.
  Hypothesis Hprev : forall f d, needed fs f -> fprev f = Some d -> td_load (td_save d) = Ok d.
  Hypothesis Hrels : forall f r, needed fs f -> In r (frels f) -> mk_rel r = Ok r.
  (** no feature is grouped by one of its own inputs *)
  Hypothesis Hgroup : forall p bs g nm b, needed fs (FGroup p bs g nm) -> In b bs -> funique b <> funique g.

  Lemma needed_dep f d : needed fs f -> In d (fdeps f) -> needed fs d.
  Proof. intros (r & Hr & H) Hd. exists r. split; [exact Hr|]. eapply reaches_trans; [exact H|]. econstructor; [exact Hd | constructor]. Qed.
  Lemma made_dep f d : made f -> In d (fdeps f) -> made d.
  Proof.
    intros H Hd. unfold fdeps in Hd. inversion H; subst; cbn [fbases fwhere] in Hd; rewrite ?app_nil_r in Hd.
    - destruct Hd. - destruct Hd as [<-|[]]; assumption.
    - apply in_app_or in Hd as [Hd|Hd]; [auto|]. destruct wh as [w|]; [|destruct Hd]. destruct Hd as [<-|[]]. auto.
    - auto. - apply in_app_or in Hd as [Hd|Hd]; [auto|]. destruct Hd as [<-|[]]. assumption.
    - destruct Hd as [<-|[]]; assumption.
  Qed.
  Lemma needed_made f : needed fs f -> made f.
  Proof. intros (r & Hr & H). apply Hmade in Hr. revert Hr. induction H as [f|f d g Hd H IH]; intros Hm; [exact Hm|]. apply IH. apply (made_dep f d Hm Hd). Qed.

  Lemma prim_back f p s : needed fs f -> In p (fprims f) -> looked_up classes s ->
    exists s', deserialize_primitive args construct (serialize_primitive args class_of args_of p) s = Ok (s', p) /\ looked_up classes s'.
  Proof.
    intros Hf Hp Hs. destruct (Hprims f p Hf Hp) as [Hin Hc]. unfold deserialize_primitive, serialize_primitive. cbn [pd_key pd_args].
    pose proof (C23_lookup classes s (key_of (class_of p)) Hs) as H. destruct (get_class (key_of (class_of p)) s) as [s' r] eqn:E. cbn [snd] in H. destruct r as [c|]; [|exfalso; exact (H _ Hin eq_refl)].
    destruct H as [Hc1 Hc2]. assert (c = class_of p) as -> by (unfold key_of in Hc2; apply Hclasses; [exact Hc1 | exact Hin | congruence | congruence]). rewrite Hc. cbn [bind]. exists s'. split; [reflexivity|].
    replace s' with (fst (get_class (key_of (class_of p)) s)) by (rewrite E; reflexivity). constructor. exact Hs.
  Qed.

  Lemma rebuild_feature g deps s : needed fs g -> (forall d, In d (fdeps g) -> dget String.eqb (funique d) deps = Some (wn d)) -> looked_up classes s ->
    exists s', from_dictionary (fclass g) (get_arguments g) deps s = Ok (s', wn g) /\ looked_up classes s'.
  Proof.
    intros Hg Hd Hs. pose proof (needed_made g Hg) as Hm. unfold fdeps in Hd. inversion Hm; subst; cbn [fbases fwhere] in Hd; rewrite ?app_nil_r in Hd; unfold M_Serialize.from_dictionary; cbn [fclass get_arguments String.eqb Ascii.eqb Bool.eqb].
    - unfold mk_ident in *. destruct (is_var vtypes e v); [|discriminate]. cbn [bind]. exists s. split; [reflexivity | exact Hs].
    - unfold deps_get. rewrite (Hd b (or_introl eq_refl)). cbn [bind]. rewrite (Hrels _ r Hg (or_introl eq_refl)). cbn [bind]. unfold mk_direct in *. rewrite wn_entity. destruct (String.eqb (fentity b) (r_pe r)); [|discriminate]. cbn [bind]. exists s. split; [reflexivity | exact Hs].
    - rewrite mapM_deps by (intros b Hb; apply Hd; apply in_or_app; left; exact Hb). cbn [bind]. rewrite mapM_rels by (intros r Hr; apply (Hrels _ r Hg); exact Hr). cbn [bind].
      unfold mk_agg in H1. destruct (check_bases bs) as [[]|] eqn:Eb; [|discriminate]. cbn [bind] in H1. destruct path as [|r0 path]; [discriminate|].
      destruct (prim_back _ p s Hg (or_introl eq_refl) Hs) as (s' & -> & Hs'). cbn [bind fst snd].
      assert ((match option_map td_save prev with Some d => do d0 <- td_load d; Ok (Some d0) | None => Ok None end) = Ok prev) as ->.
      { destruct prev as [d|]; cbn [option_map]; [|reflexivity]. rewrite (Hprev _ d Hg eq_refl). reflexivity. }
      cbn [bind]. assert ((match option_map funique wh with Some n => do w <- deps_get n deps; Ok (Some w) | None => Ok None end) = Ok (option_map wn wh)) as ->.
      { destruct wh as [w|]; cbn [option_map]; [|reflexivity]. unfold deps_get. rewrite (Hd w) by (apply in_or_app; right; left; reflexivity). reflexivity. }
      cbn [bind]. exists s'. split; [|exact Hs']. unfold mk_agg. rewrite check_bases_wn, Eb. cbn [bind].
      assert (match map wn bs with b :: _ => fentity b | [] => "" end = match bs with b :: _ => fentity b | [] => "" end) as -> by (destruct bs; cbn [map]; [reflexivity | apply wn_entity]).
      destruct (negb (String.eqb (match bs with b :: _ => fentity b | [] => "" end) (r_ce (last (r0 :: path) r0)))); [discriminate|].
      destruct (has_unique_forward_path rels (match bs with b :: _ => fentity b | [] => "" end) (r_pe r0)) as [u|]; [|discriminate]. cbn [bind] in *.
      assert ((match option_map wn wh with Some w => if String.eqb (fentity w) (match bs with b :: _ => fentity b | [] => "" end) then Ok tt else Err AssertionError | None => Ok tt end) =
              (match wh with Some w => if String.eqb (fentity w) (match bs with b :: _ => fentity b | [] => "" end) then Ok tt else Err AssertionError | None => Ok tt end)) as -> by (destruct wh; cbn [option_map]; rewrite ?wn_entity; reflexivity).
      match type of H1 with bind ?m _ = _ => destruct m as [[]|]; [|discriminate H1] end. cbn [bind] in *. match type of H1 with bind ?m _ = _ => destruct m as [[]|]; [|discriminate H1] end. cbn [bind] in *.
      rewrite check_types_wn. destruct (check_types p_ret p_inputs vtypes p bs); [|discriminate]. assert (u = uniq) as -> by congruence. cbn [bind fst]. reflexivity.
    - rewrite mapM_deps by exact Hd. cbn [bind]. destruct (prim_back _ p s Hg (or_introl eq_refl) Hs) as (s' & -> & Hs'). cbn [bind fst snd]. exists s'. split; [|exact Hs']. unfold mk_trans in *. rewrite check_bases_wn, check_types_wn.
      destruct (check_bases bs); [|discriminate]. cbn [bind] in *. destruct (check_types p_ret p_inputs vtypes p bs); [reflexivity | discriminate].
    - assert (filter (fun n => negb (String.eqb n (funique g0))) (map funique (bs ++ [g0])) = map funique bs) as ->.
      { rewrite map_app, filter_app. cbn [map filter]. rewrite String.eqb_refl. cbn [negb]. rewrite app_nil_r. assert (forall l, incl l bs -> filter (fun n => negb (String.eqb n (funique g0))) (map funique l) = map funique l) as Hf; [|apply Hf; apply incl_refl].
        induction l as [|x l IH]; intros Hl; [reflexivity|]. cbn [map filter]. destruct (String.eqb_spec (funique x) (funique g0)) as [He|_]; [exfalso; exact (Hgroup p bs g0 nm x Hg (Hl x (or_introl eq_refl)) He)|]. cbn [negb]. f_equal. apply IH. intros y Hy. apply Hl. right. exact Hy. }
      rewrite mapM_deps by (intros b Hb; apply Hd; apply in_or_app; left; exact Hb). cbn [bind]. destruct (prim_back _ p s Hg (or_introl eq_refl) Hs) as (s' & -> & Hs'). cbn [bind fst snd]. unfold deps_get. rewrite (Hd g0) by (apply in_or_app; right; left; reflexivity). cbn [bind].
      exists s'. split; [|exact Hs']. unfold mk_group in *. rewrite wn_type. replace (map wn bs ++ [wn g0]) with (map wn (bs ++ [g0])) by (rewrite map_app; reflexivity). rewrite check_bases_wn, check_types_wn.
      destruct (negb (issub (ftype p_ret vtypes g0) YDiscrete)); [discriminate|]. destruct (check_bases (bs ++ [g0])); [|discriminate]. cbn [bind] in *. destruct (check_types p_ret p_inputs vtypes p (bs ++ [g0])); [reflexivity | discriminate].
    - unfold deps_get. rewrite (Hd b (or_introl eq_refl)). cbn [bind]. unfold mk_slice in *. rewrite wn_nout. destruct (Nat.ltb 1 (fnout b) && Nat.ltb n (fnout b))%bool; [|discriminate]. cbn [bind]. exists s. split; [reflexivity | exact Hs].
  Qed.

  (** *** The saved definitions *)
  Definition inv (L : list feat) (d : list (string * fdict args targs)) : Prop :=
    (forall f x, In f L -> reaches f x -> dget String.eqb (funique x) d <> None) /\
    (forall n e, dget String.eqb n d = Some e -> exists f x, In f L /\ reaches f x /\ funique x = n /\ e = to_dictionary x).

  Lemma add_def_get d x n : dget String.eqb n (add_def d x) = match dget String.eqb n d with Some e => Some e | None => if String.eqb n (funique x) then Some (to_dictionary x) else None end.
  Proof.
    unfold M_Serialize.add_def. destruct (dget String.eqb (funique x) d) as [e|] eqn:E.
    - destruct (dget String.eqb n d) eqn:En; [reflexivity|]. destruct (String.eqb_spec n (funique x)); [congruence | reflexivity].
    - destruct (String.eqb_spec n (funique x)) as [->|Hne]; [rewrite (dget_dset_same _ String.eqb_spec), E; reflexivity|]. rewrite (dget_dset_other _ String.eqb_spec) by congruence. destruct (dget String.eqb n d); reflexivity.
  Qed.
  Lemma add_defs_get l : forall d n, (forall e, dget String.eqb n d = Some e -> dget String.eqb n (fold_left add_def l d) = Some e) /\
    (dget String.eqb n d = None -> forall e, dget String.eqb n (fold_left add_def l d) = Some e -> exists x, In x l /\ funique x = n /\ e = to_dictionary x) /\
    (forall x, In x l -> funique x = n -> dget String.eqb n (fold_left add_def l d) <> None).
  Proof.
    induction l as [|x l IH]; intros d n; cbn [fold_left]; [split; [auto|]; split; [congruence | intros x []]|]. destruct (IH (add_def d x) n) as (I1 & I2 & I3). pose proof (add_def_get d x n) as Ha. split; [|split].
    - intros e He. apply I1. rewrite Ha, He. reflexivity.
    - intros Hn e He. rewrite Hn in Ha. destruct (String.eqb_spec n (funique x)) as [->|Hne].
      + rewrite (I1 _ Ha) in He. injection He as <-. exists x. split; [left; reflexivity | auto].
      + destruct (I2 Ha e He) as (y & Hy & H1 & H2). exists y. split; [right; exact Hy | auto].
    - intros y [->|Hy] Hyn; [|apply (I3 y Hy Hyn)]. rewrite Hyn, String.eqb_refl in Ha. destruct (dget String.eqb n d) as [e|]; rewrite (I1 _ Ha); discriminate.
  Qed.

  Lemma serialize_inv L d f : (forall x, In x (L ++ [f]) -> In x fs) -> inv L d -> inv (L ++ [f]) (serialize_feature d f).
  Proof.
    intros Hsub [I1 I2]. unfold M_Serialize.serialize_feature. destruct (dget String.eqb (funique f) d) as [e|] eqn:E.
    - split.
      + intros f' x Hf' Hr. apply in_app_or in Hf' as [Hf'|[<-|[]]]; [exact (I1 f' x Hf' Hr)|]. destruct (I2 _ _ E) as (f0 & g & Hf0 & Hg & Hgn & _).
        assert (wn f = wn g) as Hw. { apply Hnames; [exists f; split; [apply Hsub; apply in_or_app; right; left; reflexivity | constructor] | exists f0; split; [apply Hsub; apply in_or_app; left; exact Hf0 | exact Hg] | congruence]. }
        destruct (wn_reaches rels f g x Hw Hr) as (y & Hy & Hyx). rewrite <- wn_unique, <- Hyx, wn_unique. apply (I1 f0 y Hf0). eapply reaches_trans; eassumption.
      + intros n e' He'. destruct (I2 n e' He') as (f0 & x & H1 & H2). exists f0, x. split; [apply in_or_app; left; exact H1 | exact H2].
    - set (d1 := dset String.eqb (funique f) (to_dictionary f) d). split.
      + intros f' x Hf' Hr. destruct (add_defs_get (deep_deps rels [] f) d1 (funique x)) as (A1 & _ & A3). apply in_app_or in Hf' as [Hf'|[<-|[]]].
        * specialize (I1 f' x Hf' Hr). destruct (dget String.eqb (funique x) d) as [e|] eqn:Ex; [|contradiction]. unfold d1 in *. destruct (String.eqb_spec (funique x) (funique f)) as [He|Hne]; [congruence|].
          rewrite (A1 e); [discriminate|]. rewrite (dget_dset_other _ String.eqb_spec) by congruence. exact Ex.
        * apply (reaches_cases rels) in Hr as [->|Hr]; [|apply (A3 x Hr eq_refl)]. rewrite (A1 (to_dictionary f)); [discriminate|]. unfold d1. apply (dget_dset_same _ String.eqb_spec).
      + intros n e He. destruct (add_defs_get (deep_deps rels [] f) d1 n) as (A1 & A2 & _). destruct (dget String.eqb n d1) as [e1|] eqn:E1.
        * rewrite (A1 e1 eq_refl) in He. injection He as <-. unfold d1 in E1. destruct (String.eqb_spec n (funique f)) as [->|Hne].
          -- rewrite (dget_dset_same _ String.eqb_spec) in E1. injection E1 as <-. exists f, f. split; [apply in_or_app; right; left; reflexivity|]. split; [constructor | auto].
          -- rewrite (dget_dset_other _ String.eqb_spec) in E1 by congruence. destruct (I2 n e1 E1) as (f0 & x & H1 & H2). exists f0, x. split; [apply in_or_app; left; exact H1 | exact H2].
        * destruct (A2 eq_refl e He) as (x & Hx & H1 & H2). exists f, x. split; [apply in_or_app; right; left; reflexivity|]. split; [apply (reaches_cases rels); right; exact Hx | auto].
  Qed.
  Lemma serialize_all_inv l : forall L d, (forall x, In x (L ++ l) -> In x fs) -> inv L d -> inv (L ++ l) (fold_left serialize_feature l d).
  Proof.
    induction l as [|f l IH]; intros L d Hsub Hi; cbn [fold_left]; [rewrite app_nil_r; exact Hi|]. replace (L ++ f :: l) with ((L ++ [f]) ++ l) by (rewrite <- app_assoc; reflexivity). apply IH.
    - intros x Hx. apply Hsub. rewrite <- app_assoc in Hx. exact Hx.
    - apply serialize_inv; [|exact Hi]. intros x Hx. apply Hsub. apply in_app_or in Hx as [Hx|[<-|[]]]; apply in_or_app; [left; exact Hx | right; left; reflexivity].
  Qed.
  Definition defs : list (string * fdict args targs) := fold_left serialize_feature fs [].
  Lemma defs_inv : inv fs defs.
  Proof. apply (serialize_all_inv fs [] []); [auto|]. split; [intros f x [] | discriminate]. Qed.

  (** *** Loading *)
  Definition ok (s : dstate) : Prop :=
    looked_up classes (ds_prims s) /\ (forall n f, dget String.eqb n (ds_memo s) = Some f -> exists g, needed fs g /\ funique g = n /\ f = wn g) /\
    NoDup (ds_built s) /\ (forall n, In n (ds_built s) <-> dget String.eqb n (ds_memo s) <> None).
  Definition grows (s s' : dstate) : Prop := forall n f, dget String.eqb n (ds_memo s) = Some f -> dget String.eqb n (ds_memo s') = Some f.

  Definition adds (n : nat) (s s' : dstate) : Prop :=
    forall m, dget String.eqb m (ds_memo s') <> None -> dget String.eqb m (ds_memo s) <> None \/ exists x, needed fs x /\ funique x = m /\ fsize x <= n.

  Lemma deserialize_Ok fuel : forall g s, needed fs g -> fsize g <= fuel -> ok s ->
    exists s', deserialize_feature defs fuel (funique g) s = Ok (s', wn g) /\ ok s' /\ grows s s' /\ dget String.eqb (funique g) (ds_memo s') = Some (wn g) /\ adds (fsize g) s s'.
  Proof.
    induction fuel as [|fuel IH]; intros g s Hg Hf Hs; [pose proof (fsize_pos g); lia|]. cbn [M_Serialize.deserialize_feature].
    destruct (dget String.eqb (funique g) (ds_memo s)) as [f|] eqn:E.
    - destruct Hs as (Hp & Hm & Hs'). destruct (Hm _ _ E) as (g' & Hg' & Hn & ->). rewrite (Hnames g' g Hg' Hg Hn) in *. exists s. split; [reflexivity|]. split; [split; auto|]. split; [intros n f H; exact H|]. split; [exact E | intros m H; left; exact H].
    - destruct defs_inv as [D1 D2]. destruct Hg as (r & Hr & Hrg). destruct (dget String.eqb (funique g) defs) as [fd|] eqn:Ed; [|exfalso; exact (D1 r g Hr Hrg Ed)]. destruct (D2 _ _ Ed) as (f0 & g' & Hf0 & Hg' & Hn & ->).
      assert (needed fs g) as Hg by (exists r; auto). assert (needed fs g') as Hgn by (exists f0; auto). assert (wn g' = wn g) as Hw by (apply Hnames; assumption). assert (fsize g' = fsize g) as Hsz by (rewrite <- (wn_size rels g'), Hw, wn_size; reflexivity).
      cbn [to_dictionary fd_type fd_deps fd_args].
      assert (forall l, (forall d, In d l -> In d (fdeps g')) -> forall sd, ok (fst sd) ->
        exists s' ds, foldM (fun sd d => do sf <- deserialize_feature defs fuel d (fst sd); Ok (fst sf, dset String.eqb d (snd sf) (snd sd))) (map funique l) sd = Ok (s', ds) /\ ok s' /\ grows (fst sd) s' /\
          (forall m, dget String.eqb m (ds_memo s') <> None -> dget String.eqb m (ds_memo (fst sd)) <> None \/ exists x, needed fs x /\ funique x = m /\ fsize x < fsize g) /\ (forall d, In d l -> dget String.eqb (funique d) ds = Some (wn d)) /\
          (forall d, In d (fdeps g') -> dget String.eqb (funique d) (snd sd) = Some (wn d) -> dget String.eqb (funique d) ds = Some (wn d))) as Hfold.
      { induction l as [|d l IHl]; intros Hl [s0 ds0] Hs0; cbn [map foldM fst snd].
        - exists s0, ds0. split; [reflexivity|]. split; [exact Hs0|]. split; [intros n f H; exact H|]. split; [auto|]. split; [intros d [] | auto].
        - assert (In d (fdeps g')) as Hdin by (apply Hl; left; reflexivity). assert (needed fs d) as Hdn by (apply (needed_dep g' d Hgn Hdin)). pose proof (fsize_dep g' d Hdin). destruct (IH d s0 Hdn ltac:(lia) Hs0) as (s1 & -> & Hs1 & Hg1 & _ & Ha1). cbn [bind fst snd].
          destruct (IHl (fun x Hx => Hl x (or_intror Hx)) (s1, dset String.eqb (funique d) (wn d) ds0) Hs1) as (s2 & ds2 & E2 & Hs2 & Hg2 & H2 & H3 & H4). cbn [fst snd] in *. rewrite E2. exists s2, ds2. split; [reflexivity|]. split; [exact Hs2|]. split; [intros n f Hx; apply Hg2, Hg1; exact Hx|]. split; [|split].
          + intros m Hm. destruct (H2 m Hm) as [Hx|Hx]; [|right; exact Hx]. destruct (Ha1 m Hx) as [Hy|(x & H5 & H6 & H7)]; [left; exact Hy|]. right. exists x. split; [exact H5|]. split; [exact H6 | lia].
          + intros x [<-|Hx]; [|apply H3; exact Hx]. apply H4; [exact Hdin|]. apply (dget_dset_same _ String.eqb_spec).
          + intros x Hx Hxd. apply H4; [exact Hx|]. destruct (String.eqb_spec (funique x) (funique d)) as [Heq|Hne].
            * rewrite Heq, (dget_dset_same _ String.eqb_spec). f_equal. apply Hnames; [exact Hdn | apply (needed_dep g' x Hgn Hx) | congruence].
            * rewrite (dget_dset_other _ String.eqb_spec) by congruence. exact Hxd. }
      destruct (Hfold (fdeps g') (fun d H => H) (s, []) Hs) as (s1 & ds & -> & Hs1 & Hg1 & Ha1 & Hds & _). cbn [bind fst snd].
      destruct Hs1 as (Hp1 & Hm1 & Hb1 & Hbm1). destruct (rebuild_feature g' ds (ds_prims s1) Hgn Hds Hp1) as (p2 & -> & Hp2). cbn [bind fst snd]. rewrite Hw.
      exists (mkDs (dset String.eqb (funique g) (wn g) (ds_memo s1)) (ds_built s1 ++ [funique g]) p2). split; [reflexivity|].
      assert (grows s1 (mkDs (dset String.eqb (funique g) (wn g) (ds_memo s1)) (ds_built s1 ++ [funique g]) p2)) as Hgr.
      { intros n f Hx. cbn [ds_memo]. destruct (String.eqb_spec n (funique g)) as [->|Hne]; [|rewrite (dget_dset_other _ String.eqb_spec) by congruence; exact Hx]. rewrite (dget_dset_same _ String.eqb_spec). destruct (Hm1 _ _ Hx) as (g1 & Hg1' & Hn1 & ->). f_equal. apply Hnames; [exact Hg | exact Hg1' | congruence]. }
      split; [|split; [intros n f Hx; apply Hgr, Hg1; exact Hx|]; split; [cbn [ds_memo]; apply (dget_dset_same _ String.eqb_spec)|]; intros m Hmm; cbn [ds_memo] in Hmm; destruct (String.eqb_spec m (funique g)) as [->|Hne]; [right; exists g; auto|];
        rewrite (dget_dset_other _ String.eqb_spec) in Hmm by congruence; destruct (Ha1 m Hmm) as [Hy|(x & H5 & H6 & H7)]; [left; exact Hy | right; exists x; split; [exact H5|]; split; [exact H6 | lia]]].
      split; [exact Hp2|]. cbn [ds_memo ds_built]. split; [|split].
      + intros n f Hx. destruct (String.eqb_spec n (funique g)) as [->|Hne]; [rewrite (dget_dset_same _ String.eqb_spec) in Hx; injection Hx as <-; exists g; auto|]. rewrite (dget_dset_other _ String.eqb_spec) in Hx by congruence. apply Hm1; exact Hx.
      + apply NoDup_app_one; [exact Hb1|]. intros Hin. apply Hbm1 in Hin. destruct (Ha1 _ Hin) as [Hy|(x & H5 & H6 & H7)]; [exact (Hy E)|].
        assert (wn x = wn g) as Hxg by (apply Hnames; assumption). assert (fsize x = fsize g) by (rewrite <- (wn_size rels x), Hxg, wn_size; reflexivity). lia.
      + intros n. rewrite in_app_iff, Hbm1. cbn [In]. destruct (String.eqb_spec n (funique g)) as [->|Hne].
        * rewrite (dget_dset_same _ String.eqb_spec). split; [discriminate | auto].
        * rewrite (dget_dset_other _ String.eqb_spec) by congruence. split; [intros [H|[H|[]]]; [exact H | congruence] | auto].
  Qed.

  Lemma to_list_Ok fuel l : forall s, (forall f, In f l -> needed fs f /\ fsize f <= fuel) -> ok s ->
    exists s', to_list defs fuel (map funique l) s = Ok (s', map wn l) /\ ok s' /\ grows s s' /\ (forall f, In f l -> dget String.eqb (funique f) (ds_memo s') <> None).
  Proof.
    induction l as [|f l IH]; intros s Hl Hs; cbn [map M_Serialize.to_list]; [exists s; split; [reflexivity|]; split; [exact Hs|]; split; [intros n f H; exact H | intros f []]|].
    destruct (Hl f (or_introl eq_refl)) as [Hf Hsz]. destruct (deserialize_Ok fuel f s Hf Hsz Hs) as (s1 & -> & Hs1 & Hg1 & Hm1 & _). cbn [bind fst snd].
    destruct (IH s1 (fun x Hx => Hl x (or_intror Hx)) Hs1) as (s2 & -> & Hs2 & Hg2 & Hm2). cbn [bind fst snd]. exists s2. split; [reflexivity|]. split; [exact Hs2|]. split; [intros n x H; apply Hg2, Hg1; exact H|].
    intros x [<-|Hx]; [rewrite (Hg2 _ _ Hm1); discriminate | apply Hm2; exact Hx].
  Qed.
End C22.

Section C22_theorem.
  Variables (args : Type) (class_of : prim -> cls) (args_of : prim -> args) (construct : cls -> args -> res prim).
  Variables (targs : Type) (td_save : tdelta -> targs) (td_load : targs -> res tdelta).
  Variables (p_ret : prim -> option vtyp) (p_inputs : prim -> option (list (list vtyp))) (vtypes : string -> string -> option vtyp).
  Variables (rels : list relationship) (index_of : string -> option string) (prev_ok : string -> tdelta -> res unit) (classes : ctree).

  (** *** Loading what was saved gives the same definitions in the same order, each definition built exactly once *)
  Theorem C22_round_trip_partial fs : fs <> [] ->
    saveable args class_of args_of construct targs td_save td_load p_ret p_inputs vtypes rels index_of prev_ok classes fs ->
    exists sv, save_features args class_of args_of targs td_save rels fs = Ok sv /\
      forall fuel, (forall f, In f fs -> fsize f <= fuel) ->
        exists built, load_features args construct targs td_load p_ret p_inputs vtypes rels index_of prev_ok classes fuel sv = Ok (built, map (with_names rels) fs) /\
          NoDup built /\ (forall n, In n built -> exists g, needed fs g /\ funique rels g = n).
  Proof.
    intros Hne [H1 H2 H3 H4 H5 H6 H7]. destruct fs as [|f0 fs0] eqn:Efs; [contradiction|]. rewrite <- Efs in *. clear Hne.
    exists (mkSaved _ _ (map (funique rels) fs) (defs args class_of args_of targs td_save rels fs)). split; [unfold save_features; rewrite Efs; reflexivity|].
    intros fuel Hf. destruct (to_list_Ok args class_of args_of construct targs td_save td_load p_ret p_inputs vtypes rels index_of prev_ok classes fs H1 H2 H3 H4 H5 H6 H7 fuel fs (mkDs [] [] (ps_new classes))) as (s' & E & Hs' & _).
    - intros f Hin. split; [exists f; split; [exact Hin | constructor] | apply Hf; exact Hin].
    - split; [constructor|]. split; [discriminate|]. split; [constructor|]. intros n. cbn. tauto.
    - exists (ds_built s'). unfold load_features. cbn [sv_defs sv_list]. rewrite E. cbn [bind fst snd]. split; [reflexivity|]. destruct Hs' as (_ & Hm & Hb & Hbm). split; [exact Hb|].
      intros n Hn. apply Hbm in Hn. destruct (dget String.eqb n (ds_memo s')) as [f|] eqn:Ef; [|contradiction]. destruct (Hm n f Ef) as (g & Hg & Hgn & _). exists g. auto.
  Qed.

  (** *** A loaded feature has the names, entity, type, depth and inputs of the original *)
  Theorem C22_same_feature f : let f' := with_names rels f in
    fname rels f' = fname rels f /\ fnames rels f' = fnames rels f /\ fentity f' = fentity f /\ fnout f' = fnout f /\ fpath f' = fpath f /\ fclass f' = fclass f /\
    ftype p_ret vtypes f' = ftype p_ret vtypes f /\ fprev f' = fprev f /\ fdeps f' = map (with_names rels) (fdeps f) /\ fprims f' = fprims f.
  Proof.
    cbn zeta. split; [apply wn_name|]. split; [apply wn_names|]. split; [apply wn_entity|]. split; [apply wn_nout|]. split; [apply wn_path|]. split; [apply wn_class|]. split; [apply wn_type|].
    split; [destruct f; reflexivity|]. split; [apply wn_deps | destruct f; reflexivity].
  Qed.
End C22_theorem.

(** ** A concrete round trip *)
Definition dclass (p : prim) : cls := mkCls (p_name p) "std" 0.
Definition dmake (c : cls) (_ : unit) : res prim :=
  if String.eqb (c_name c) "Sum" then Ok X_Demo.p_sum else if String.eqb (c_name c) "WSum" then Ok X_Demo.p_wsum
  else if String.eqb (c_name c) "Absolute" then Ok X_Demo.p_abs else if String.eqb (c_name c) "CumSum" then Ok X_Demo.p_cumsum else Err TypeError.
Definition dlib : ctree := CNode (mkCls "PrimitiveBase" "base" 0) [CNode (mkCls "Sum" "std" 0) []; CNode (mkCls "CumSum" "std" 0) []; CNode (mkCls "WSum" "std" 0) []; CNode (mkCls "Absolute" "std" 0) []].
Definition dtypes (e v : string) : option vtyp :=
  dget String.eqb (e ++ "." ++ v)%string [("cust.id", YIndex); ("cust.age", YNumeric); ("sess.id", YIndex); ("sess.cid", YId); ("sess.t", YDatetimeTimeIndex); ("sess.dev", YNumeric);
    ("event.id", YIndex); ("event.sid", YId); ("event.t", YDatetimeTimeIndex); ("event.amt", YNumeric)].
Definition dinputs (p : prim) : option (list (list vtyp)) := if String.eqb (p_name p) "WSum" then Some [[YNumeric; YNumeric]] else Some [[YNumeric]].
Definition dret (p : prim) : option vtyp := Some YNumeric.
Definition dindex (e : string) : option string := Some "id".
Definition dprev (e : string) (d : tdelta) : res unit := Ok tt.
Definition dsave := save_features unit dclass (fun _ => tt) tdelta (fun d => d) X_Demo.demo_rels.
Definition dload := load_features unit dmake tdelta (fun d => Ok d) dret dinputs dtypes X_Demo.demo_rels dindex dprev dlib.
(** every feature [demo_fs] needs *)
Definition demo_all : list feat := X_Demo.demo_fs ++ flat_map (deep_deps X_Demo.demo_rels []) X_Demo.demo_fs.
Lemma demo_all_spec g : needed X_Demo.demo_fs g <-> In g demo_all.
Proof.
  unfold demo_all, needed. rewrite in_app_iff, in_flat_map. split.
  - intros (f & Hf & H). apply (reaches_cases X_Demo.demo_rels) in H as [->|H]; [left; exact Hf | right; exists f; auto].
  - intros [H|(f & Hf & H)]; [exists g; split; [exact H | constructor] | exists f; split; [exact Hf | apply (reaches_cases X_Demo.demo_rels); right; exact H]].
Qed.
Lemma demo_made : forall f, In f X_Demo.demo_fs -> made dret dinputs dtypes X_Demo.demo_rels dprev f.
Proof.
  assert (made dret dinputs dtypes X_Demo.demo_rels dprev X_Demo.f_amt) as Ha by (apply made_ident; reflexivity).
  assert (made dret dinputs dtypes X_Demo.demo_rels dprev X_Demo.f_sum) as Hs by (apply made_agg; [intros b [<-|[]]; exact Ha | discriminate | vm_compute; reflexivity]).
  intros f [<-|[<-|[<-|[<-|[]]]]]; [exact Hs | | |].
  - apply made_agg; [|discriminate | vm_compute; reflexivity]. intros b [<-|[<-|[]]]; [apply made_trans; [intros b [<-|[]]; exact Ha | vm_compute; reflexivity]|]. apply made_direct; [apply made_ident; reflexivity | reflexivity].
  - apply made_trans; [intros b [<-|[]]; exact Hs | vm_compute; reflexivity].
  - apply made_agg; [|discriminate | vm_compute; reflexivity]. intros b [<-|[]]. apply made_group; [intros b [<-|[]]; exact Ha | apply made_ident; reflexivity | vm_compute; reflexivity].
Qed.
Example C22_nonvacuous :
  saveable unit dclass (fun _ => tt) dmake tdelta (fun d => d) (fun d => Ok d) dret dinputs dtypes X_Demo.demo_rels dindex dprev dlib X_Demo.demo_fs /\
  (do sv <- dsave X_Demo.demo_fs; do r <- dload 5 sv; Ok (fst r, map (fname X_Demo.demo_rels) (snd r))) =
    Ok (["event: amt"; "cust: SUM(event.amt)"; "event: CUM_SUM(amt)"; "sess: dev"; "event: sess.dev"; "cust: WSUM(event.CUM_SUM(amt), sess.dev)"; "cust: ABSOLUTE(SUM(event.amt))"; "event: sid"; "event: CUM_SUM(amt) by sid"; "cust: SUM(event.CUM_SUM(amt) by sid)"],
        ["SUM(event.amt)"; "WSUM(event.CUM_SUM(amt), sess.dev)"; "ABSOLUTE(SUM(event.amt))"; "SUM(event.CUM_SUM(amt) by sid)"]).
Proof.
  split; [|vm_compute; reflexivity]. split.
  - intros f g Hf Hg. apply demo_all_spec in Hf, Hg. cbn in Hf, Hg.
    repeat (destruct Hf as [<-|Hf]; [repeat (destruct Hg as [<-|Hg]; [intros H; first [reflexivity | exfalso; vm_compute in H; discriminate H]|]); destruct Hg|]). destruct Hf.
  - exact demo_made.
  - intros a b Ha Hb. cbn in Ha, Hb. intuition (subst; cbn in *; try reflexivity; try discriminate).
  - intros f p Hf Hp. apply demo_all_spec in Hf. cbn in Hf. repeat (destruct Hf as [<-|Hf]; [cbn in Hp; (destruct Hp as [<-|[]] || destruct Hp); (split; [cbn; tauto | reflexivity])|]). destruct Hf.
  - reflexivity.
  - intros f r Hf Hr. apply demo_all_spec in Hf. cbn in Hf. repeat (destruct Hf as [<-|Hf]; [cbn in Hr; repeat (destruct Hr as [<-|Hr]; [vm_compute; reflexivity|]); destruct Hr|]). destruct Hf.
  - intros p bs g nm b Hf Hb. apply demo_all_spec in Hf. cbn in Hf. repeat (destruct Hf as [Hf|Hf]; [first [discriminate Hf | injection Hf as <- <- <- <-; destruct Hb as [<-|[]]; vm_compute; discriminate]|]). destruct Hf.
Qed.

(** A feature grouped by its own input, as [cum_count] grouped by the counted id: the loaded feature has no input left. *)
Definition p_ccount : prim := mkPrim "CumCount" 1 true false VNull false (fun bs => ("CUM_COUNT(" ++ String.concat ", " bs ++ ")")%string) (fun _ _ _ _ _ => ""%string)
  (fun _ cs => [map (fun n => VNum (Z.of_nat (S n))) (seq 0 (List.length (hd [] cs)))]) (fun _ _ => []).
Definition cc_make (c : cls) (_ : unit) : res prim := Ok p_ccount.
Definition cc_lib : ctree := CNode (mkCls "PrimitiveBase" "base" 0) [CNode (mkCls "CumCount" "std" 0) []].
Definition cc_inputs (p : prim) : option (list (list vtyp)) := Some [[YId]; [YDiscrete]].
Theorem C22_groupby_refuted : exists f sv f', made dret cc_inputs dtypes X_Demo.demo_rels dprev f /\
  f = FGroup p_ccount [X_Demo.f_esid] X_Demo.f_esid None /\ dsave [f] = Ok sv /\
  load_features unit cc_make tdelta (fun d => Ok d) dret cc_inputs dtypes X_Demo.demo_rels dindex dprev cc_lib 5 sv = Ok (["event: sid"; "event: CUM_COUNT(sid) by sid"], [f']) /\
  f' <> with_names X_Demo.demo_rels f /\ fname X_Demo.demo_rels f' = fname X_Demo.demo_rels f /\ List.length (fbases f) = 2%nat /\ List.length (fbases f') = 1%nat.
Proof.
  exists (FGroup p_ccount [X_Demo.f_esid] X_Demo.f_esid None). eexists. exists (FGroup p_ccount [] (FIdent "event" "sid" (Some "sid")) (Some "CUM_COUNT(sid) by sid")).
  split; [apply made_group; [intros b [<-|[]]; apply made_ident; reflexivity | apply made_ident; reflexivity | vm_compute; reflexivity]|].
  split; [reflexivity|]. split; [reflexivity|]. split; [vm_compute; reflexivity|]. split; [discriminate|]. split; [vm_compute; reflexivity|]. split; reflexivity.
Qed.

(** Two features with the same name: the second comes back as the first. *)
Theorem C22_same_name_refuted : exists f g sv f', f <> g /\ dsave [f; g] = Ok sv /\ dload 5 sv = Ok (["event: amt"], [f'; f']) /\
  f' = with_names X_Demo.demo_rels f /\ f' <> with_names X_Demo.demo_rels g.
Proof.
  exists X_Demo.f_amt, (FIdent "event" "sid" (Some "amt")). eexists. exists (FIdent "event" "amt" (Some "amt")).
  split; [discriminate|]. split; [reflexivity|]. split; [vm_compute; reflexivity|]. split; [reflexivity | discriminate].
Qed.

Print Assumptions C22_round_trip_partial.
Print Assumptions C22_same_feature.
