(** C66: types of features and the type checks of the constructors. *)
From Coq Require Import Relations.
From Verif Require Import Base BaseFacts M_Schema M_Feature M_Types M_Serialize S_Calc S_Types S_Serialize L_FeatureSet X_Demo P_Serialize.
Local Open Scope string_scope.

(** *** The subclass test is exactly the documented hierarchy of kinds. *)
Lemma parents_extends a b : In b (parents a) <-> extends a b.
Proof.
  split.
  - destruct a; cbn [parents In]; intros H; repeat (destruct H as [<-|H]; [first [apply ex_top; cbn; tauto | apply ex_discrete; cbn; tauto | apply ex_categorical; cbn; tauto | apply ex_time; cbn; tauto | apply ex_numeric | apply ex_datetime; cbn; tauto | apply ex_text]|]); destruct H.
  - intros H. destruct H as [t H|t H|t H|t H| |t H|]; try (cbn; tauto); cbn [In] in H; repeat (destruct H as [<-|H]; [cbn; tauto|]); destruct H.
Qed.
Lemma sub_fuel_sound n : forall a b, sub_fuel n a b = true -> kind_of a b.
Proof.
  induction n as [|n IH]; intros a b; cbn [sub_fuel]; rewrite orb_true_iff; unfold vtyp_eqb.
  - intros [H|H]; [destruct (vtyp_eq_dec a b) as [->|]; [apply rt_refl | discriminate] | discriminate].
  - intros [H|H]; [destruct (vtyp_eq_dec a b) as [->|]; [apply rt_refl | discriminate]|]. apply existsb_exists in H as (p & Hp & H). apply rt_trans with p; [apply rt_step, parents_extends; exact Hp | apply IH; exact H].
Qed.
Lemma issub_refl a : issub a a = true.
Proof. destruct a; reflexivity. Qed.
Lemma issub_step a b c : In b (parents a) -> issub b c = true -> issub a c = true.
Proof. destruct a; cbn [parents In]; intros H; repeat (destruct H as [<-|H]; [destruct c; vm_compute; congruence|]); destruct H. Qed.
Theorem C66_kinds : forall a b, issub a b = true <-> kind_of a b.
Proof.
  intros a b. split; [apply sub_fuel_sound|]. intros H. apply clos_rt_rt1n in H. induction H as [a|a c b H _ IH]; [apply issub_refl|]. apply (issub_step a c b); [apply parents_extends; exact H | exact IH].
Qed.

(** *** A feature has one type: that of its variable, of the parent's feature it copies, the one its primitive declares, or the
    demoted type of its first input. *)
Lemma weaken_demoted t t' : weaken t = t' <-> demoted t t'.
Proof.
  split.
  - intros <-. destruct t; cbn [weaken]; try (apply dem_other; cbn; intuition discriminate); constructor.
  - intros H. destruct H as [| | | |t H]; try reflexivity. destruct t; try reflexivity; exfalso; apply H; cbn; tauto.
Qed.
Section Types.
  Variables (p_ret : prim -> option vtyp) (p_inputs : prim -> option (list (list vtyp))) (vtypes : string -> string -> option vtyp).
  Notation ftype := (ftype p_ret vtypes).
  Notation typed := (S_Types.typed p_ret vtypes).

  Lemma ftype_typed f : (forall g, reaches f g -> formed vtypes g) -> typed f (ftype f).
  Proof.
    assert (forall f b, hd_error (fbases f) = Some b -> In b (fdeps f)) as Hd by (intros f0 b H; unfold fdeps; apply in_app_iff; left; destruct (fbases f0); [discriminate | injection H as ->; left; reflexivity]).
    induction f as [e v nm|r b nm IH|p bs path u wh prev nm IH IHw|p bs nm IH|p bs g nm IH IHg|b n nm IH] using list_feat_ind; intros Hf; pose proof (Hf _ (reaches_refl _)) as H0; cbn [formed] in H0.
    - cbn [M_Types.ftype]. destruct (vtypes e v) as [t|] eqn:E; [|contradiction]. apply ty_ident. exact E.
    - apply ty_direct. cbn [M_Types.ftype]. apply IH. intros g Hg. apply Hf. apply reaches_dep with b; [left; reflexivity | exact Hg].
    - cbn [M_Types.ftype]. destruct (p_ret p) as [t|] eqn:E; [apply (ty_declared _ _ _ p); [reflexivity | exact E]|]. destruct bs as [|b bs]; [contradiction|].
      apply (ty_inherited _ _ _ p b (ftype b)); [reflexivity | exact E | reflexivity | | apply weaken_demoted; reflexivity]. refine (Forall_inv IH _). intros g Hg. apply Hf. apply reaches_dep with b; [left; reflexivity | exact Hg].
    - cbn [M_Types.ftype]. destruct (p_ret p) as [t|] eqn:E; [apply (ty_declared _ _ _ p); [reflexivity | exact E]|]. destruct bs as [|b bs]; [contradiction|].
      apply (ty_inherited _ _ _ p b (ftype b)); [reflexivity | exact E | reflexivity | | apply weaken_demoted; reflexivity]. refine (Forall_inv IH _). intros g Hg. apply Hf. apply reaches_dep with b; [left; reflexivity | exact Hg].
    - cbn [M_Types.ftype]. destruct (p_ret p) as [t|] eqn:E; [apply (ty_declared _ _ _ p); [reflexivity | exact E]|]. destruct bs as [|b bs].
      + apply (ty_inherited _ _ _ p g (ftype g)); [reflexivity | exact E | reflexivity | | apply weaken_demoted; reflexivity]. apply IHg. intros x Hx. apply Hf. apply reaches_dep with g; [left; reflexivity | exact Hx].
      + apply (ty_inherited _ _ _ p b (ftype b)); [reflexivity | exact E | reflexivity | | apply weaken_demoted; reflexivity]. refine (Forall_inv IH _). intros x Hx. apply Hf. apply reaches_dep with b; [left; reflexivity | exact Hx].
    - assert (typed b (ftype b)) as Hb by (apply IH; intros x Hx; apply Hf; apply reaches_dep with b; [left; reflexivity | exact Hx]).
      destruct b as [| |p bs path u wh prev nm'|p bs nm'|p bs g nm'|]; try contradiction; cbn [M_Types.ftype] in *; (destruct (p_ret p) as [t|] eqn:E; [apply (ty_declared _ _ _ p); [reflexivity | exact E]|]; eapply (ty_inherited _ _ _ p); [reflexivity | exact E | reflexivity | exact Hb | apply weaken_demoted; reflexivity]).
  Qed.
  Lemma typed_ftype f t : typed f t -> ftype f = t.
  Proof.
    induction 1 as [e v nm t H|r b nm t _ IH|f p t Hp Hr|f p b t t' Hp Hr Hb _ IH Hd].
    - cbn [M_Types.ftype]. rewrite H. reflexivity.
    - exact IH.
    - destruct f as [| |q bs path u wh prev nm|q bs nm|q bs g nm|b n nm]; try discriminate; cbn [prim_of] in Hp; cbn [M_Types.ftype]; [injection Hp as ->; rewrite Hr; reflexivity | injection Hp as ->; rewrite Hr; reflexivity | injection Hp as ->; rewrite Hr; reflexivity|].
      destruct b; try discriminate; injection Hp as ->; rewrite Hr; reflexivity.
    - apply weaken_demoted in Hd. rewrite <- IH in Hd. subst t'. destruct f as [| |q bs path u wh prev nm|q bs nm|q bs g nm|b0 n nm]; try discriminate; cbn [prim_of] in Hp; cbn [fbases] in Hb; cbn [M_Types.ftype].
      + injection Hp as ->. rewrite Hr. destruct bs; [discriminate|]. injection Hb as ->. reflexivity.
      + injection Hp as ->. rewrite Hr. destruct bs; [discriminate|]. injection Hb as ->. reflexivity.
      + injection Hp as ->. rewrite Hr. destruct bs; injection Hb as ->; reflexivity.
      + injection Hb as ->. destruct b; try discriminate; injection Hp as ->; cbn [M_Types.ftype]; rewrite Hr; reflexivity.
  Qed.
  Theorem C66_types : forall f, (forall g, reaches f g -> formed vtypes g) -> forall t, ftype f = t <-> typed f t.
  Proof. intros f Hf t. split; [intros <-; apply ftype_typed; exact Hf | apply typed_ftype]. Qed.

  (** *** The result of a primitive is never an index, a link or a time index of an entity, unless the primitive declares it. *)
  Theorem C66_no_second_index : forall f p, prim_of f = Some p -> fbases f <> [] ->
    (forall t, p_ret p = Some t -> ~ In t [YIndex; YId; YDatetimeTimeIndex; YNumericTimeIndex]) ->
    ~ In (ftype f) [YIndex; YId; YDatetimeTimeIndex; YNumericTimeIndex].
  Proof.
    assert (forall t, ~ In (weaken t) [YIndex; YId; YDatetimeTimeIndex; YNumericTimeIndex]) as Hw by (intros t; destruct t; cbn; intuition discriminate).
    intros f p Hp Hb Hr. destruct f as [| |q bs path u wh prev nm|q bs nm|q bs g nm|b n nm]; try discriminate; cbn [prim_of] in Hp; cbn [M_Types.ftype].
    - injection Hp as ->. destruct (p_ret p) as [t|]; [apply Hr; reflexivity|]. destruct bs; [exfalso; apply Hb; reflexivity | apply Hw].
    - injection Hp as ->. destruct (p_ret p) as [t|]; [apply Hr; reflexivity|]. destruct bs; [exfalso; apply Hb; reflexivity | apply Hw].
    - injection Hp as ->. destruct (p_ret p) as [t|]; [apply Hr; reflexivity|]. destruct bs; apply Hw.
    - destruct b; try discriminate; injection Hp as ->; (destruct (p_ret p) as [t|]; [apply Hr; reflexivity | apply Hw]).
  Qed.

  (** *** A transform is built exactly when its inputs are single columns of one entity and fit, position by position, one of the
      declared lists of input types. *)
  Definition fits (ts : list vtyp) (bs : list feat) : Prop := forall i t b, nth_error ts i = Some t -> nth_error bs i = Some b -> kind_of (ftype b) t.
  Lemma zip_fits ts : forall bs, zip_sub p_ret vtypes ts bs = true <-> fits ts bs.
  Proof.
    induction ts as [|t ts IH]; intros bs; [split; [intros _ [|i] ? ?; discriminate | reflexivity]|]. destruct bs as [|b bs]; [split; [intros _ [|i] ? ?; discriminate | reflexivity]|].
    cbn [zip_sub]. rewrite andb_true_iff, C66_kinds, IH. split.
    - intros [H1 H2] [|i] t' b' Ht Hb; [injection Ht as <-; injection Hb as <-; exact H1 | exact (H2 i t' b' Ht Hb)].
    - intros H. split; [exact (H 0 t b eq_refl eq_refl) | intros i; exact (H (S i))].
  Qed.
  Theorem C66_transform_built : forall p bs nm, (exists f, mk_trans p_ret p_inputs vtypes p bs nm = Ok f) <->
    bs <> [] /\ (forall b b', In b bs -> In b' bs -> fentity b = fentity b') /\ (forall b, In b bs -> fnout b <= 1) /\
    (p_inputs p = None \/ exists alts ts, p_inputs p = Some alts /\ In ts alts /\ fits ts bs).
  Proof.
    intros p bs nm.
    assert (forall bs, check_bases bs = Ok tt <-> bs <> [] /\ (forall b b', In b bs -> In b' bs -> fentity b = fentity b') /\ (forall b, In b bs -> fnout b <= 1)) as Hc.
    { clear. intros [|b bs]; [split; [discriminate | intros [H _]; contradiction]|]. unfold check_bases. split.
      - destruct (forallb (fun b' => String.eqb (fentity b') (fentity b)) bs) eqn:E1; [|discriminate]. cbn [negb]. destruct (existsb _ (b :: bs)) eqn:E2; [discriminate|]. intros _.
        assert (forall x, In x (b :: bs) -> fentity x = fentity b) as H1 by (intros x [<-|Hx]; [reflexivity | rewrite forallb_forall in E1; apply String.eqb_eq, E1; exact Hx]).
        split; [discriminate|]. split; [intros x y Hx Hy; rewrite (H1 x Hx), (H1 y Hy); reflexivity|]. intros x Hx. destruct (Nat.leb_spec (fnout x) 1) as [H|H]; [exact H|]. exfalso.
        assert (existsb (fun b' => Nat.ltb 1 (fnout b')) (b :: bs) = true) as E by (apply existsb_exists; exists x; split; [exact Hx | apply Nat.ltb_lt; exact H]). congruence.
      - intros (_ & H1 & H2). assert (forallb (fun b' => String.eqb (fentity b') (fentity b)) bs = true) as -> by (apply forallb_forall; intros x Hx; apply String.eqb_eq, H1; [right; exact Hx | left; reflexivity]). cbn [negb].
        destruct (existsb (fun b' => Nat.ltb 1 (fnout b')) (b :: bs)) eqn:E; [|reflexivity]. apply existsb_exists in E as (x & Hx & Hl). apply Nat.ltb_lt in Hl. specialize (H2 x Hx). lia. }
    assert (bs <> [] -> (check_types p_ret p_inputs vtypes p bs = true <-> p_inputs p = None \/ exists alts ts, p_inputs p = Some alts /\ In ts alts /\ fits ts bs)) as Ht.
    { intros Hne. unfold check_types. destruct bs as [|b bs]; [contradiction|]. destruct (p_inputs p) as [alts|]; [|split; [auto | reflexivity]]. rewrite existsb_exists. split.
      - intros (ts & Hin & H). right. exists alts, ts. split; [reflexivity|]. split; [exact Hin | apply zip_fits; exact H].
      - intros [H|(a & ts & E & Hin & H)]; [discriminate|]. injection E as <-. exists ts. split; [exact Hin | apply zip_fits; exact H]. }
    unfold mk_trans. specialize (Hc bs). split.
    - intros [f H]. destruct (check_bases bs) as [[]|] eqn:E; [|discriminate]. cbn [bind] in H. destruct (proj1 Hc eq_refl) as (H1 & H2 & H3). split; [exact H1|]. split; [exact H2|]. split; [exact H3|]. apply Ht; [exact H1|]. destruct (check_types p_ret p_inputs vtypes p bs); [reflexivity | discriminate].
    - intros (H1 & H2 & H3 & H4). rewrite (proj2 Hc (conj H1 (conj H2 H3))). cbn [bind]. rewrite (proj2 (Ht H1) H4). eexists. reflexivity.
  Qed.
End Types.

(** The number of inputs is not checked: a primitive of two inputs is built with one, and with three. *)
Definition two_inputs (p : prim) : option (list (list vtyp)) := Some [[YNumeric; YNumeric]].
Theorem C66_arity_refuted : exists p bs, two_inputs p = Some [[YNumeric; YNumeric]] /\ List.length bs = 1 /\
  mk_trans dret two_inputs dtypes p bs None = Ok (FTrans p bs None) /\
  exists bs', List.length bs' = 3 /\ mk_trans dret two_inputs dtypes p bs' None = Ok (FTrans p bs' None).
Proof.
  exists p_ccount, [X_Demo.f_amt]. split; [reflexivity|]. split; [reflexivity|]. split; [vm_compute; reflexivity|]. exists [X_Demo.f_amt; X_Demo.f_amt; X_Demo.f_amt]. split; [reflexivity | vm_compute; reflexivity].
Qed.
(** A value copied from a parent's index is again an index: the child then has two features of type Index. *)
Theorem C66_direct_index_refuted : exists r b, mk_direct r b None = Ok (FDirect r b None) /\ ftype dret dtypes (FDirect r b None) = YIndex /\ fentity (FDirect r b None) = "event".
Proof. exists (mkRel "sess" "id" "event" "sid"), (FIdent "sess" "id" None). split; [reflexivity|]. split; reflexivity. Qed.

(** Non-vacuity: the last id of the events is a category; a mismatched input is refused. *)
Definition no_ret (p : prim) : option vtyp := None.
Definition num_inputs (p : prim) : option (list (list vtyp)) := Some [[YNumeric]; [YDiscrete]].
Example C66_nonvacuous :
  (forall g, reaches (FTrans p_ccount [X_Demo.f_esid] None) g -> formed dtypes g) /\
  ftype no_ret dtypes (FTrans p_ccount [X_Demo.f_esid] None) = YCategorical /\
  ftype dret dtypes (FTrans p_ccount [X_Demo.f_esid] None) = YNumeric /\
  mk_trans no_ret num_inputs dtypes p_ccount [X_Demo.f_esid] None = Ok (FTrans p_ccount [X_Demo.f_esid] None) /\
  mk_trans no_ret num_inputs dtypes p_ccount [FIdent "event" "t" None] None = Err AssertionError /\
  issub YZIPCode YDiscrete = true /\ issub YDateOfBirth YDatetime = true /\ issub YBoolean YDiscrete = false.
Proof.
  split.
  { intros g H. inversion H as [|f d g' Hin Hr]; subst; [cbn; discriminate|]. destruct Hin as [<-|[]]. inversion Hr as [|f d g' Hin Hr']; subst; [vm_compute; discriminate | destruct Hin]. }
  split; [reflexivity|]. split; [reflexivity|]. split; [vm_compute; reflexivity|]. split; [vm_compute; reflexivity|]. split; [reflexivity|]. split; reflexivity.
Qed.

Print Assumptions C66_kinds.
Print Assumptions C66_types.
Print Assumptions C66_no_second_index.
Print Assumptions C66_transform_built.
