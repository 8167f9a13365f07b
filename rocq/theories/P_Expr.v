(** C61: an expression over features means, for every instance, that expression over their values. *)
From Verif Require Import Base BaseFacts M_Schema M_Trie M_Table M_Query M_Feature M_FeatureSet M_Calc S_Query S_Calc S_Sem S_Value X_Demo
  L_Frame L_Value1 L_Value2 L_Value3 P_Value P_ValueUse M_Prims M_Expr S_Expr.

Definition fn (op : binop) : val -> val -> val :=
  match op with
  | OpEq => fun a b => VBool (cell_eq a b)
  | OpNe => fun a b => VBool (negb (cell_eq a b))
  | OpGt => compare Z.gtb
  | OpGe => compare Z.geb
  | OpLt => compare Z.ltb
  | OpLe => compare Z.leb
  | OpAdd => arith Z.add
  | OpSub => arith Z.sub
  | OpMul => arith Z.mul
  | OpMod => modulo
  | OpAnd => fun a b => VBool (truthy a && truthy b)
  | OpOr => fun a b => VBool (truthy a || truthy b)
  end.
Definition both_bool (a b : val) : Prop := exists x y, a = VBool x /\ b = VBool y.
Lemma fn_ok op a b v : apply op a b = Some v -> (op = OpMul -> ~ both_bool a b) -> fn op a b = v.
Proof.
  intros H Hb. destruct op; cbn [apply fn] in *.
  - destruct a as [|x|x|x], b as [|y|y|y]; try discriminate; injection H as <-; repeat match goal with x : bool |- _ => destruct x end; reflexivity.
  - destruct a as [|x|x|x], b as [|y|y|y]; try discriminate; injection H as <-; repeat match goal with x : bool |- _ => destruct x end; reflexivity.
  - destruct a as [|x|x|x], b as [|y|y|y]; try discriminate; injection H as <-; try reflexivity. unfold compare. cbn [as_num]. rewrite Z.gtb_ltb. reflexivity.
  - destruct a as [|x|x|x], b as [|y|y|y]; try discriminate; injection H as <-; try reflexivity. unfold compare. cbn [as_num]. rewrite Z.geb_leb. reflexivity.
  - destruct a as [|x|x|x], b as [|y|y|y]; try discriminate; injection H as <-; reflexivity.
  - destruct a as [|x|x|x], b as [|y|y|y]; try discriminate; injection H as <-; reflexivity.
  - destruct a as [|x|x|x], b as [|y|y|y]; try discriminate; injection H as <-; reflexivity.
  - destruct a as [|x|x|x], b as [|y|y|y]; try discriminate; injection H as <-; reflexivity.
  - destruct a as [|x|x|x], b as [|y|y|y]; try discriminate; injection H as <-; try reflexivity.
    + destruct y; unfold arith; cbn [as_num]; f_equal; lia.
    + destruct x; unfold arith; cbn [as_num]; f_equal; lia.
    + destruct (Hb eq_refl). exists x, y. auto.
  - destruct b as [|y|y|y]; [| |destruct a; discriminate|destruct a; discriminate].
    + destruct a as [|x|x|x]; try discriminate; injection H as <-; reflexivity.
    + unfold modulo, cell_eq. cbn [as_num]. destruct (Z.eqb_spec y 0) as [->|Hy]; [destruct a; try discriminate; injection H as <-; reflexivity|].
      assert (arithmetic Z.modulo a (VNum y) = Some v) as H' by (destruct y; [congruence | destruct a; exact H | destruct a; exact H]).
      destruct a as [|x|x|x]; try discriminate; injection H' as <-; reflexivity.
  - destruct a as [|x|x|x], b as [|y|y|y]; try discriminate; injection H as <-; reflexivity.
  - destruct a as [|x|x|x], b as [|y|y|y]; try discriminate; injection H as <-; reflexivity.
Qed.

Lemma same_comm a b : same a b = same b a.
Proof. destruct a, b; cbn [same]; try reflexivity; apply f_equal; [apply Z.eqb_sym | destruct b, b0; reflexivity | apply String.eqb_sym]. Qed.

Section Meaning.
  Variables (es : entityset) (T : Z) (tw : option window) (incl : bool) (is_bool : feat -> bool).
  Hypothesis Hes : good_es es.
  Hypothesis Hip : index_present es.
  Hypothesis Hw : win_time tw.
  Notation R := (rows_at es T tw incl).
  Notation sem := (sem es T tw incl).
  (** the value of a feature with one output *)
  Definition at_ (r : row) (f : feat) : val := hd VNull (sem f r).

  Lemma at_row_map (g : row -> val) eid r : In r (R eid) -> at_row (index_of es eid) (R eid) (cell (index_of es eid) r) (map g (R eid)) = g r.
  Proof.
    intros Hr. destruct (In_nth_error _ _ Hr) as (k & Hk). rewrite (at_row_nth _ _ _ k r); [|apply R_NoDup; assumption | apply map_length | exact Hk].
    rewrite (nth_map_null g (R eid) k r) by (apply nth_error_Some; congruence). rewrite (nth_error_nth' (R eid) k r r Hk). reflexivity.
  Qed.
  Lemma at_unary p g f r : (forall t c, p_trans p t [c] = [map g c]) -> In r (R (fentity f)) -> sem (FTrans p [f] None) r = [g (at_ r f)].
  Proof.
    intros Hp Hr. cbn [S_Sem.sem map fentity]. rewrite Hp. cbn [map]. f_equal. rewrite map_map. apply (at_row_map (fun r' => g (hd VNull (sem f r')))). exact Hr.
  Qed.
  Lemma combine_map {A B C} (f : A -> B) (g : A -> C) l : combine (map f l) (map g l) = map (fun a => (f a, g a)) l.
  Proof. induction l as [|a l IH]; [reflexivity|]. cbn [map combine]. rewrite IH. reflexivity. Qed.
  Lemma at_binary p h f g r : (forall t c d, p_trans p t [c; d] = [map (fun xy => h (fst xy) (snd xy)) (combine c d)]) -> In r (R (fentity f)) ->
    sem (FTrans p [f; g] None) r = [h (at_ r f) (at_ r g)].
  Proof.
    intros Hp Hr. cbn [S_Sem.sem map fentity]. rewrite Hp. cbn [map]. f_equal. rewrite combine_map, map_map. cbn [fst snd].
    apply (at_row_map (fun r' => h (hd VNull (sem f r')) (hd VNull (sem g r')))). exact Hr.
  Qed.

  (** what make_trans accepts *)
  Lemma make_trans_Ok p bs f : make_trans p bs = Ok f -> f = FTrans p bs None /\ (forall b, In b bs -> fentity b = fentity f /\ fnout b <= 1).
  Proof.
    unfold make_trans. destruct bs as [|b bs]; [discriminate|]. destruct (forallb _ (b :: bs)) eqn:E1; [|discriminate]. destruct (existsb _ (b :: bs)) eqn:E2; [discriminate|].
    intros [= <-]. split; [reflexivity|]. intros x Hx. rewrite forallb_forall in E1. specialize (E1 x Hx). apply String.eqb_eq in E1. cbn [fentity]. split; [exact E1|].
    destruct (Nat.ltb 1 (fnout x)) eqn:E; [|apply Nat.ltb_ge in E; exact E]. exfalso. assert (existsb (fun x => Nat.ltb 1 (fnout x)) (b :: bs) = true) by (apply existsb_exists; exists x; auto). congruence.
  Qed.

  (** booleans are typed as such: a part of the expression typed Boolean does not hold numbers, and one that holds a boolean is typed Boolean *)
  Definition typed (e : expr) (r : row) : Prop := forall a f, In a (parts e) -> build is_bool a = Ok (OFeat f) ->
    (is_bool f = true -> forall z, at_ r f <> VNum z) /\ (forall b, at_ r f = VBool b -> is_bool f = true).

  Lemma parts_self e : In e (parts e).
  Proof. destruct e; left; reflexivity. Qed.
  Lemma build_const e c : build is_bool e = Ok (OConst c) -> e = EConst c.
  Proof.
    destruct e as [f|v|op a b|a|a|a|a|a l]; cbn [build]; try discriminate; try (intros [= ->]; reflexivity).
    1: { intros H. apply bind_Ok in H as (x & _ & H). apply bind_Ok in H as (y & _ & H). destruct x, y; cbn [py_binary] in H; try discriminate; apply bind_Ok in H as (g & _ & H); discriminate. }
    all: intros H; apply bind_Ok in H as (x & _ & H); destruct x; cbn [py_unary] in H; try discriminate; apply bind_Ok in H as (g & _ & H); discriminate.
  Qed.

  Lemma handle_ok op P PS f o g r : (forall t c d, p_trans P t [c; d] = [map (fun xy => fn op (fst xy) (snd xy)) (combine c d)]) ->
    (forall v t c, p_trans (PS v) t [c] = [map (fun x => fn op x v) c]) ->
    handle_binary f o P PS = Ok g -> In r (R (fentity g)) ->
    fentity f = fentity g /\ at_ r g = fn op (at_ r f) (match o with OFeat f' => at_ r f' | OConst c => c end) /\ (forall f', o = OFeat f' -> fentity f' = fentity g).
  Proof.
    intros H2 H1 H Hr. destruct o as [f'|c]; cbn [handle_binary] in H; apply make_trans_Ok in H as [-> Hb].
    - split; [apply Hb; left; reflexivity|]. split; [|intros f'' [= <-]; apply Hb; right; left; reflexivity]. unfold at_ at 1. rewrite (at_binary P (fn op)); [reflexivity | exact H2 | exact Hr].
    - split; [apply Hb; left; reflexivity|]. split; [|discriminate]. unfold at_ at 1. rewrite (at_unary _ (fun x => fn op x c)); [reflexivity | apply H1 | exact Hr].
  Qed.

  (** the method of the left operand computes the operator *)
  Lemma method_ok op f o g r va vb v : method is_bool op f o = Ok g -> In r (R (fentity g)) ->
    at_ r f = va -> match o with OFeat f' => at_ r f' = vb | OConst c => c = vb end ->
    ((is_bool f = true -> forall z, va <> VNum z) /\ (forall b, va = VBool b -> is_bool f = true)) ->
    (forall f', o = OFeat f' -> (is_bool f' = true -> forall z, vb <> VNum z) /\ (forall b, vb = VBool b -> is_bool f' = true)) ->
    apply op va vb = Some v ->
    fentity f = fentity g /\ (forall f', o = OFeat f' -> fentity f' = fentity g) /\ at_ r g = v.
  Proof.
    intros H Hr Ha Hb Tf To Hv.
    assert (forall P PS, (forall t c d, p_trans P t [c; d] = [map (fun xy => fn op (fst xy) (snd xy)) (combine c d)]) ->
      (forall v t c, p_trans (PS v) t [c] = [map (fun x => fn op x v) c]) -> handle_binary f o P PS = Ok g -> (op = OpMul -> ~ both_bool va vb) ->
      fentity f = fentity g /\ (forall f', o = OFeat f' -> fentity f' = fentity g) /\ at_ r g = v) as HH.
    { intros P PS H2 H1 Hg Hm. destruct (handle_ok op P PS f o g r H2 H1 Hg Hr) as (E1 & E2 & E3). split; [exact E1|]. split; [exact E3|]. rewrite E2, Ha.
      assert (match o with OFeat f' => at_ r f' | OConst c => c end = vb) as -> by (destruct o; exact Hb). apply fn_ok; assumption. }
    destruct op; cbn [method] in H; try (eapply HH; [| |exact H|intros E; discriminate E]; reflexivity).
    - (* multiplication *)
      unfold mul in H. destruct o as [f'|c].
      + destruct (is_bool f && is_bool f') eqn:Eb.
        * apply andb_true_iff in Eb as [B1 B2]. destruct (To f' eq_refl) as [T1 T2]. destruct Tf as [T3 T4].
          apply make_trans_Ok in H as [-> Hbs]. split; [apply Hbs; left; reflexivity|]. split; [intros f'' [= <-]; apply Hbs; right; left; reflexivity|].
          unfold at_ at 1. rewrite (at_binary MultiplyBoolean (fun a b => match a, b with VBool x, VBool y => VBool (x && y) | _, _ => VNull end)); [|reflexivity | exact Hr].
          cbn [hd]. rewrite Ha, Hb. cbn [apply] in Hv. specialize (T1 B2). specialize (T3 B1).
          destruct va as [|x|x|x], vb as [|y|y|y]; cbn [arithmetic] in Hv; try discriminate; try (injection Hv as <-; reflexivity); try (destruct (T3 _ eq_refl)); try (destruct (T1 _ eq_refl)).
        * eapply HH; [| |exact H|]; [reflexivity | reflexivity |]. intros _ (x & y & -> & ->). destruct (To f' eq_refl) as [_ T2]. destruct Tf as [_ T4].
          rewrite (T4 _ eq_refl), (T2 _ eq_refl) in Eb. discriminate.
      + destruct (is_bool f) eqn:Eb; [discriminate|]. eapply HH; [| |exact H|]; [reflexivity | reflexivity |]. intros _ (x & y & -> & _). destruct Tf as [_ T4]. discriminate (T4 _ eq_refl).
    - unfold logical in H. cbn [check_feature bind] in H. destruct o as [f'|c]; cbn [check_feature bind] in H; [|discriminate].
      apply make_trans_Ok in H as [-> Hbs]. split; [apply Hbs; left; reflexivity|]. split; [intros f'' [= <-]; apply Hbs; right; left; reflexivity|].
      unfold at_ at 1. rewrite (at_binary And (fn OpAnd)); [|reflexivity | exact Hr]. cbn [hd]. rewrite Ha, Hb. apply fn_ok; [exact Hv | intros E; discriminate E].
    - unfold logical in H. cbn [check_feature bind] in H. destruct o as [f'|c]; cbn [check_feature bind] in H; [|discriminate].
      apply make_trans_Ok in H as [-> Hbs]. split; [apply Hbs; left; reflexivity|]. split; [intros f'' [= <-]; apply Hbs; right; left; reflexivity|].
      unfold at_ at 1. rewrite (at_binary Or (fn OpOr)); [|reflexivity | exact Hr]. cbn [hd]. rewrite Ha, Hb. apply fn_ok; [exact Hv | intros E; discriminate E].
  Qed.

  Lemma handle_entity f o P PS g : handle_binary f o P PS = Ok g -> fentity f = fentity g /\ (forall f', o = OFeat f' -> fentity f' = fentity g).
  Proof.
    intros H. destruct o as [f'|c]; cbn [handle_binary] in H; apply make_trans_Ok in H as [_ Hb]; (split; [apply Hb; left; reflexivity|]); [intros f'' [= <-]; apply Hb; right; left; reflexivity | discriminate].
  Qed.
  Lemma method_entity op f o g : method is_bool op f o = Ok g -> fentity f = fentity g /\ (forall f', o = OFeat f' -> fentity f' = fentity g).
  Proof.
    intros H. destruct op; cbn [method] in H; try (eapply handle_entity; exact H).
    - unfold mul in H. destruct o as [f'|c].
      + destruct (is_bool f && is_bool f'); [|eapply handle_entity; exact H]. apply make_trans_Ok in H as [_ Hb]. split; [apply Hb; left; reflexivity | intros f'' [= <-]; apply Hb; right; left; reflexivity].
      + destruct (is_bool f); [discriminate | eapply handle_entity; exact H].
    - unfold logical in H. cbn [check_feature bind] in H. destruct o as [f'|c]; cbn [check_feature bind] in H; [|discriminate]. apply make_trans_Ok in H as [_ Hb]. split; [apply Hb; left; reflexivity | intros f'' [= <-]; apply Hb; right; left; reflexivity].
    - unfold logical in H. cbn [check_feature bind] in H. destruct o as [f'|c]; cbn [check_feature bind] in H; [|discriminate]. apply make_trans_Ok in H as [_ Hb]. split; [apply Hb; left; reflexivity | intros f'' [= <-]; apply Hb; right; left; reflexivity].
  Qed.
  Lemma reflected_entity op f c g : reflected is_bool op f c = Ok g -> fentity f = fentity g.
  Proof.
    intros H. destruct op; cbn [reflected] in H; try (apply method_entity in H; exact (proj1 H)).
    - apply make_trans_Ok in H as [_ Hb]. apply Hb. left. reflexivity.
    - destruct c; try discriminate; apply make_trans_Ok in H as [_ Hb]; apply Hb; left; reflexivity.
    - unfold logical in H. cbn [check_feature bind] in H. discriminate.
    - unfold logical in H. cbn [check_feature bind] in H. discriminate.
  Qed.
  (** and so does the method of the right operand *)
  Lemma reflected_ok op f c g r vb v : reflected is_bool op f c = Ok g -> In r (R (fentity g)) -> at_ r f = vb ->
    ((is_bool f = true -> forall z, vb <> VNum z) /\ (forall b, vb = VBool b -> is_bool f = true)) ->
    apply op c vb = Some v -> at_ r g = v.
  Proof.
    intros H Hr Hb Tf Hv.
    assert (forall op' v', method is_bool op' f (OConst c) = Ok g -> apply op' vb c = Some v' -> at_ r g = v') as HM.
    { intros op' v' Hm Ha. refine (proj2 (proj2 (method_ok op' f (OConst c) g r vb c v' Hm Hr Hb eq_refl Tf _ Ha))). discriminate. }
    assert (forall p, make_trans p [f] = Ok g -> (forall t d, p_trans p t [d] = [map (fun x => fn op c x) d]) -> (op = OpMul -> ~ both_bool c vb) -> at_ r g = v) as HT.
    { intros p Hm Hp Hop. pose proof Hr as Hr'. apply make_trans_Ok in Hm as [-> _]. unfold at_ at 1. rewrite (at_unary p (fun x => fn op c x)); [|exact Hp | exact Hr']. cbn [hd]. rewrite Hb. apply fn_ok; assumption. }
    destruct op; cbn [reflected] in H.
    - apply (HM OpEq); [exact H|]. cbn [apply] in *. rewrite same_comm. exact Hv.
    - apply (HM OpNe); [exact H|]. cbn [apply] in *. rewrite same_comm. exact Hv.
    - apply (HM OpLt); [exact H|]. cbn [apply] in *. rewrite <- Hv. destruct c, vb; reflexivity.
    - apply (HM OpLe); [exact H|]. cbn [apply] in *. rewrite <- Hv. destruct c, vb; reflexivity.
    - apply (HM OpGt); [exact H|]. cbn [apply] in *. rewrite <- Hv. destruct c, vb; reflexivity.
    - apply (HM OpGe); [exact H|]. cbn [apply] in *. rewrite <- Hv. destruct c, vb; reflexivity.
    - apply (HM OpAdd); [exact H|]. cbn [apply] in *. rewrite <- Hv. destruct c, vb; try reflexivity. cbn [arithmetic]. do 2 f_equal. lia.
    - apply (HT _ H); [reflexivity | intros E; discriminate E].
    - apply (HM OpMul); [exact H|]. cbn [apply] in *. rewrite <- Hv. destruct c, vb; try reflexivity; cbn [arithmetic]; do 2 f_equal; [lia | apply andb_comm].
    - destruct c; try discriminate; (apply (HT _ H); [reflexivity | intros E; discriminate E]).
    - unfold logical in H. cbn [check_feature bind] in H. discriminate.
    - unfold logical in H. cbn [check_feature bind] in H. discriminate.
  Qed.

  Lemma unary_ok p f g r h : py_unary p (OFeat f) = Ok (OFeat g) -> (forall t d, p_trans p t [d] = [map h d]) -> In r (R (fentity g)) -> fentity f = fentity g /\ at_ r g = h (at_ r f).
  Proof.
    intros H Hp Hr. cbn [py_unary] in H. apply bind_Ok in H as (g' & H & [= ->]). apply make_trans_Ok in H as [-> Hb]. split; [apply Hb; left; reflexivity|].
    unfold at_ at 1. rewrite (at_unary p h); [reflexivity | exact Hp | exact Hr].
  Qed.

  (** an expression that is accepted evaluates, for every row, to the value of the expression *)
  Theorem C61_expression e : forall f r v, build is_bool e = Ok (OFeat f) -> In r (R (fentity f)) -> typed e r -> value (at_ r) e = Some v -> at_ r f = v.
  Proof.
    assert (forall a e r, List.incl (parts a) (parts e) -> typed e r -> typed a r) as Htp by (intros a e' r Hi Ht x f Hx; apply Ht; apply Hi; exact Hx).
    induction e as [f0|c|op a IHa b IHb|a IHa|a IHa|a IHa|a IHa|a IHa l]; intros f r v Hb Hr Ht Hv; cbn [build] in Hb; cbn [value] in Hv.
    - injection Hb as <-. injection Hv as <-. reflexivity.
    - discriminate.
    - apply bind_Ok in Hb as (x & Hx & Hb). apply bind_Ok in Hb as (y & Hy & Hb).
      assert (typed a r) as Ta by (apply (Htp a (EBin op a b)); [intros z Hz; cbn [parts]; right; apply in_or_app; auto | exact Ht]).
      assert (typed b r) as Tb by (apply (Htp b (EBin op a b)); [intros z Hz; cbn [parts]; right; apply in_or_app; auto | exact Ht]).
      destruct (value (at_ r) a) as [va|] eqn:Eva; [|discriminate]. destruct (value (at_ r) b) as [vb|] eqn:Evb; [|discriminate].
      destruct x as [fa|c]; cbn [py_binary] in Hb.
      + apply bind_Ok in Hb as (g & Hm & [= ->]). destruct (method_entity op fa y f Hm) as [E1 E2].
        assert (at_ r fa = va) as Ea by (apply (IHa fa r va Hx); [rewrite E1; exact Hr | exact Ta | exact Eva]).
        refine (proj2 (proj2 (method_ok op fa y f r va vb v Hm Hr Ea _ _ _ Hv))).
        * destruct y as [fb|c]; [apply (IHb fb r vb Hy); [rewrite (E2 fb eq_refl); exact Hr | exact Tb | exact Evb]|].
          apply build_const in Hy. subst b. cbn [value] in Evb. congruence.
        * subst va. apply (Ta a fa (parts_self a) Hx).
        * intros fb ->. assert (at_ r fb = vb) as Eb by (apply (IHb fb r vb Hy); [rewrite (E2 fb eq_refl); exact Hr | exact Tb | exact Evb]). subst vb. apply (Tb b fb (parts_self b) Hy).
      + destruct y as [fb|c']; [|discriminate]. apply bind_Ok in Hb as (g & Hm & [= ->]). pose proof (reflected_entity op fb c f Hm) as E1.
        assert (at_ r fb = vb) as Eb by (apply (IHb fb r vb Hy); [rewrite E1; exact Hr | exact Tb | exact Evb]).
        apply build_const in Hx. subst a. cbn [value] in Eva. injection Eva as <-. apply (reflected_ok op fb c f r vb v Hm Hr Eb); [|exact Hv].
        subst vb. apply (Tb b fb (parts_self b) Hy).
    - apply bind_Ok in Hb as (x & Hx & Hb). destruct x as [fa|c]; [|discriminate]. destruct (unary_ok _ _ _ r _ Hb ltac:(intros; reflexivity) Hr) as [E ->].
      destruct (value (at_ r) a) as [va|] eqn:Eva; [|discriminate]. rewrite (IHa fa r va Hx); [|rewrite E; exact Hr | apply (Htp a (ENeg a)); [intros z Hz; right; exact Hz | exact Ht] | exact Eva].
      destruct va; try discriminate; injection Hv as <-; [reflexivity|]. unfold arith. cbn [as_num]. f_equal. lia.
    - apply bind_Ok in Hb as (x & Hx & Hb). destruct x as [fa|c]; [|discriminate]. destruct (unary_ok _ _ _ r _ Hb ltac:(intros; reflexivity) Hr) as [E ->].
      destruct (value (at_ r) a) as [va|] eqn:Eva; [|discriminate]. rewrite (IHa fa r va Hx); [|rewrite E; exact Hr | apply (Htp a (EAbs a)); [intros z Hz; right; exact Hz | exact Ht] | exact Eva].
      destruct va; try discriminate; injection Hv as <-; reflexivity.
    - apply bind_Ok in Hb as (x & Hx & Hb). destruct x as [fa|c]; [|discriminate]. destruct (unary_ok _ _ _ r _ Hb ltac:(intros; reflexivity) Hr) as [E ->].
      destruct (value (at_ r) a) as [va|] eqn:Eva; [|discriminate]. rewrite (IHa fa r va Hx); [|rewrite E; exact Hr | apply (Htp a (ENot a)); [intros z Hz; right; exact Hz | exact Ht] | exact Eva].
      destruct va; try discriminate; injection Hv as <-; reflexivity.
    - apply bind_Ok in Hb as (x & Hx & Hb). destruct x as [fa|c]; [|discriminate]. destruct (unary_ok _ _ _ r _ Hb ltac:(intros; reflexivity) Hr) as [E ->].
      destruct (value (at_ r) a) as [va|] eqn:Eva; [|discriminate]. rewrite (IHa fa r va Hx); [|rewrite E; exact Hr | apply (Htp a (EIsNull a)); [intros z Hz; right; exact Hz | exact Ht] | exact Eva].
      injection Hv as <-; reflexivity.
    - apply bind_Ok in Hb as (x & Hx & Hb). destruct x as [fa|c]; [|discriminate]. destruct (unary_ok _ _ _ r _ Hb ltac:(intros; reflexivity) Hr) as [E ->].
      destruct (value (at_ r) a) as [va|] eqn:Eva; [|discriminate]. rewrite (IHa fa r va Hx); [|rewrite E; exact Hr | apply (Htp a (EIsIn a l)); [intros z Hz; right; exact Hz | exact Ht] | exact Eva].
      assert (forall w, (exists z, w = VNum z) \/ (exists s, w = VStr s) -> existsb (fun y => match y with VBool _ => true | _ => false end) l = false ->
        existsb (fun x => cell_eq w x || (is_null w && is_null x)) l = existsb (val_eqb w) l) as Hin.
      { clear. intros w Hw. induction l as [|y l IH]; intros H; [reflexivity|]. cbn [existsb] in *. apply orb_false_iff in H as [H1 H2]. rewrite (IH H2). f_equal.
        destruct Hw as [[z ->]|[s ->]]; destruct y; try discriminate; cbn; rewrite ?orb_false_r; reflexivity. }
      destruct va as [|z|b|s]; try discriminate; (destruct (existsb _ l) eqn:El in Hv; [discriminate|]); injection Hv as <-; f_equal; apply Hin; eauto.
  Qed.

  (** every feature an accepted expression mentions belongs to the entity of the result *)
  Theorem C61_one_entity e : forall f, build is_bool e = Ok (OFeat f) -> forall g, In g (leaves e) -> fentity g = fentity f.
  Proof.
    assert (forall e o, build is_bool e = Ok o -> match o with OConst _ => leaves e = [] | OFeat f => forall g, In g (leaves e) -> fentity g = fentity f end) as H.
    2: { intros f Hf. exact (H e (OFeat f) Hf). }
    clear e. unfold leaves. induction e as [f0|c|op a IHa b IHb|a IHa|a IHa|a IHa|a IHa|a IHa l]; intros o Ho; cbn [build] in Ho; cbn [parts flat_map app].
    - injection Ho as <-. intros g [<-|[]]. reflexivity.
    - injection Ho as <-. reflexivity.
    - apply bind_Ok in Ho as (x & Hx & Ho). apply bind_Ok in Ho as (y & Hy & Ho). specialize (IHa x Hx). specialize (IHb y Hy). rewrite flat_map_app.
      destruct x as [fa|c]; cbn [py_binary] in Ho.
      + apply bind_Ok in Ho as (g & Hm & [= <-]). destruct (method_entity op fa y g Hm) as [E1 E2]. intros h Hh. apply in_app_or in Hh as [Hh|Hh]; [rewrite <- E1; apply IHa; exact Hh|].
        destruct y as [fb|c]; [rewrite <- (E2 fb eq_refl); apply IHb; exact Hh | rewrite IHb in Hh; destruct Hh].
      + destruct y as [fb|c']; [|discriminate]. apply bind_Ok in Ho as (g & Hm & [= <-]). rewrite IHa. cbn [app]. intros h Hh. rewrite <- (reflected_entity op fb c g Hm). apply IHb; exact Hh.
    - apply bind_Ok in Ho as (x & Hx & Ho). destruct x as [fa|c]; [|discriminate]. apply bind_Ok in Ho as (g & Hm & [= <-]). apply make_trans_Ok in Hm as [_ Hb]. intros h Hh. rewrite <- (proj1 (Hb fa (or_introl eq_refl))). apply (IHa _ Hx h Hh).
    - apply bind_Ok in Ho as (x & Hx & Ho). destruct x as [fa|c]; [|discriminate]. apply bind_Ok in Ho as (g & Hm & [= <-]). apply make_trans_Ok in Hm as [_ Hb]. intros h Hh. rewrite <- (proj1 (Hb fa (or_introl eq_refl))). apply (IHa _ Hx h Hh).
    - apply bind_Ok in Ho as (x & Hx & Ho). destruct x as [fa|c]; [|discriminate]. apply bind_Ok in Ho as (g & Hm & [= <-]). apply make_trans_Ok in Hm as [_ Hb]. intros h Hh. rewrite <- (proj1 (Hb fa (or_introl eq_refl))). apply (IHa _ Hx h Hh).
    - apply bind_Ok in Ho as (x & Hx & Ho). destruct x as [fa|c]; [|discriminate]. apply bind_Ok in Ho as (g & Hm & [= <-]). apply make_trans_Ok in Hm as [_ Hb]. intros h Hh. rewrite <- (proj1 (Hb fa (or_introl eq_refl))). apply (IHa _ Hx h Hh).
    - apply bind_Ok in Ho as (x & Hx & Ho). destruct x as [fa|c]; [|discriminate]. apply bind_Ok in Ho as (g & Hm & [= <-]). apply make_trans_Ok in Hm as [_ Hb]. intros h Hh. rewrite <- (proj1 (Hb fa (or_introl eq_refl))). apply (IHa _ Hx h Hh).
  Qed.
End Meaning.

(** the feature matrix holds the value of the expression, for every requested instance whose row is visible at the cutoff *)
Theorem C61_matrix_partial es idvars ord T tw incl fs eid ids m is_bool : valid_request es idvars ord tw fs eid ->
  (forall f, In f fs -> some_value es T tw incl eid ids f) ->
  run es idvars ord fs no_appr no_pre T tw incl ids = Ok m ->
  forall e f i r n v w, In f fs -> build is_bool e = Ok (OFeat f) -> typed es T tw incl is_bool e r ->
    nth_error (fnames (es_rels es) f) 0 = Some n ->
    In r (rows_at es T tw incl eid) -> cell (index_of es eid) r = i -> value (at_ es T tw incl r) e = Some v ->
    entry m i n w -> w = v.
Proof.
  intros Hv Hd Hrun e f i r n v w Hf He Ht Hn Hr Hi Hval Hent.
  pose proof (C06_entries_partial es idvars ord T tw incl fs eid ids m Hv Hd Hrun f 0 n i w Hf Hn Hent) as H. unfold value_of in H.
  destruct (vr_features _ _ _ _ _ _ Hv f Hf) as (_ & _ & Ef). rewrite Ef in H. subst i.
  rewrite row_with_unique in H; [|apply R_NoDup; apply Hv | exact Hr].
  pose proof (C61_expression es T tw incl is_bool (vr_es _ _ _ _ _ _ Hv) (vr_index _ _ _ _ _ _ Hv) (vr_window _ _ _ _ _ _ Hv) e f r v He) as HC.
  rewrite Ef in HC. specialize (HC Hr Ht Hval). unfold at_ in HC. destruct (sem es T tw incl f r) as [|x l]; [discriminate H|]. cbn [nth_error hd] in *. congruence.
Qed.

(** The negation of a comparison is not the opposite comparison: for a missing value both are false or both true. *)
Definition null_es : entityset :=
  mkES [mkEntity "event" "id" None [] None (mkDf ["id"; "amt"] [[("id", VNum 1); ("amt", VNull)]; [("id", VNum 2); ("amt", VNum 7)]])]%string [].
Theorem C61_negation_refuted :
  let gt := EBin OpGt (EFeat f_amt) (EConst (VNum 3)) in
  let le := EBin OpLe (EFeat f_amt) (EConst (VNum 3)) in
  exists f g m, build (fun _ => false) (ENot gt) = Ok (OFeat f) /\ build (fun _ => false) le = Ok (OFeat g) /\
    run null_es (fun _ => ["id"]%string) (fun l => l) [f; g] no_appr no_pre 10 None true [VNum 1; VNum 2] = Ok m /\
    m_rows m = [(VNum 1, [VBool true; VBool false]); (VNum 2, [VBool false; VBool false])].
Proof. do 3 eexists. split; [reflexivity|]. split; [reflexivity|]. split; vm_compute; reflexivity. Qed.
(** The name of an operation says which operation on which operands. *)
Theorem C61_names is_bool rels op a b f : py_binary is_bool op a b = Ok (OFeat f) -> fname rels f = written op a b (fname rels).
Proof.
  intros H. destruct a as [g|c], b as [h|d]; [| | |discriminate H].
  - cbn [py_binary] in H. destruct op; cbn [method handle_binary logical mul check_feature bind] in H;
      try (unfold make_trans in H; destruct (forallb _ _); [|discriminate H]; destruct (existsb _ _); [discriminate H|]; injection H as <-; reflexivity).
    destruct (is_bool g && is_bool h); unfold make_trans in H; (destruct (forallb _ _); [|discriminate H]; destruct (existsb _ _); [discriminate H|]; injection H as <-; reflexivity).
  - cbn [py_binary] in H. destruct op; cbn [method handle_binary logical mul check_feature bind] in H; try discriminate H;
      try (unfold make_trans in H; destruct (forallb _ _); [|discriminate H]; destruct (existsb _ _); [discriminate H|]; injection H as <-; reflexivity).
    destruct (is_bool g); [discriminate H|]; unfold make_trans in H; (destruct (forallb _ _); [|discriminate H]; destruct (existsb _ _); [discriminate H|]; injection H as <-; reflexivity).
  - cbn [py_binary] in H. destruct op; cbn [reflected method handle_binary logical mul check_feature bind] in H; try discriminate H;
      try (unfold make_trans in H; destruct (forallb _ _); [|discriminate H]; destruct (existsb _ _); [discriminate H|]; injection H as <-; reflexivity).
    + destruct (is_bool h); [discriminate H|]; unfold make_trans in H; (destruct (forallb _ _); [|discriminate H]; destruct (existsb _ _); [discriminate H|]; injection H as <-; reflexivity).
    + destruct c; try discriminate H; (unfold make_trans in H; destruct (forallb _ _); [|discriminate H]; destruct (existsb _ _); [discriminate H|]; injection H as <-; reflexivity).
Qed.
(** A constant cannot be combined with a feature by & or |, in either order. *)
Theorem C61_constant_logic is_bool op a c : op = OpAnd \/ op = OpOr ->
  (exists err, build is_bool (EBin op (EFeat a) (EConst c)) = Err err) /\ (exists err, build is_bool (EBin op (EConst c) (EFeat a)) = Err err).
Proof. intros [-> | ->]; split; eexists; reflexivity. Qed.

(** ** example: (10 - amt) > amt *)
Definition demo_expr : expr := EBin OpGt (EBin OpSub (EConst (VNum 10)) (EFeat f_amt)) (EFeat f_amt).
Definition f_rest : feat := FTrans (ScalarSubtractNumericFeature (VNum 10)) [f_amt] None.
Definition f_more : feat := FTrans GreaterThan [f_rest; f_amt] None.
Definition demo_bool (f : feat) : bool := match f with FTrans p _ _ => String.eqb (p_name p) "GreaterThan" | _ => false end.
Lemma more_needed f : needed [f_more] f -> In f [f_more; f_rest; f_amt].
Proof.
  intros (f0 & Hf0 & Hr). assert (In f0 [f_more; f_rest; f_amt]) as H0 by (cbn in *; tauto). clear Hf0.
  induction Hr as [f|f d g Hd Hr IH]; [exact H0|]. apply IH. cbn in H0. in_cases H0; cbn in Hd; cbn; in_cases Hd; tauto.
Qed.
Lemma unary_rowwise cls gen g : rowwise 1 (unary cls gen g).
Proof.
  exists (fun _ vs => [g (hd VNull vs)]). intros t cs n Hc Hl. destruct cs as [|c [|c' cs]]; try discriminate Hc. cbn [unary p_trans p_nout hd seq map nth]. f_equal.
  rewrite <- (Hl c (or_introl eq_refl)). symmetry. apply (map_seq_nth g c VNull).
Qed.
Lemma binary_rowwise cls op g : rowwise 2 (binary cls op g).
Proof.
  exists (fun _ vs => [g (nth 0 vs VNull) (nth 1 vs VNull)]). intros t cs n Hc Hl. destruct cs as [|a [|b [|c cs]]]; try discriminate Hc.
  cbn [binary p_trans p_nout seq map nth]. f_equal. pose proof (Hl a (or_introl eq_refl)) as Ha. pose proof (Hl b (or_intror (or_introl eq_refl))) as Hb. clear - Ha Hb.
  subst n. revert b Hb. induction a as [|x a IH]; intros [|y b] Hb; try discriminate; [reflexivity|].
  cbn [combine map List.length seq nth fst snd]. f_equal. rewrite <- seq_shift, map_map. cbn [nth]. apply IH. cbn [List.length] in Hb. lia.
Qed.
Lemma more_request : valid_request (demo_es []) demo_idvars (fun l => l) None [f_more] "event"%string.
Proof.
  pose proof (demo_request (fun l => l) (fun l => Permutation_refl l)) as Hd. constructor; try apply Hd.
  - assert (wt demo_rels f_rest) as Hrest.
    { apply wt_trans with "event"%string; [discriminate | intros b [<-|[]]; constructor | intros b [<-|[]]; split; reflexivity]. }
    intros f [<-|[]]. split; [|split; [intros [] | reflexivity]].
    apply wt_trans with "event"%string; [discriminate | intros b [<-|[<-|[]]]; [exact Hrest | constructor] | intros b [<-|[<-|[]]]; split; reflexivity].
  - constructor.
    + intros f g Hf Hg. apply more_needed in Hf, Hg. cbn in Hf, Hg. in_cases Hf; in_cases Hg; vm_compute; intros E; try reflexivity; discriminate E.
    + intros f g i j n [Hf _] [Hg _] E Hi Hj. apply more_needed in Hf, Hg. cbn in Hf, Hg.
      in_cases Hf; in_cases Hg; try discriminate E; vm_compute in Hi, Hj; destruct i as [|[|i]]; try discriminate Hi; destruct j as [|[|j]]; try discriminate Hj; injection Hi as <-; try discriminate Hj; split; reflexivity.
    + intros f e n [Hf _] He Hn Hc. apply more_needed in Hf. cbn in Hf. in_cases Hf; try exact I; vm_compute in He; injection He as <-; vm_compute in Hn, Hc; in_cases Hn; exfalso; repeat (destruct Hc as [Hc|Hc]; [discriminate Hc|]); destruct Hc.
    + intros e v nm Hf. apply more_needed in Hf. cbn in Hf. repeat (destruct Hf as [Hf|Hf]; [try discriminate Hf; injection Hf as <- <- <-; reflexivity|]). destruct Hf.
    + intros b n nm Hf. apply more_needed in Hf. cbn in Hf. repeat (destruct Hf as [Hf|Hf]; [discriminate Hf|]). destruct Hf.
    + intros eid c Hl. apply demo_links in Hl as [-> El]. change (es_rels (demo_es [])) with demo_rels. rewrite El. split.
      * intros e He Hc. vm_compute in He. injection He as <-. vm_compute in Hc. repeat (destruct Hc as [Hc|Hc]; [discriminate Hc|]); destruct Hc.
      * intros f [Hf _] E Hc. apply more_needed in Hf. cbn in Hf. in_cases Hf; try discriminate E; vm_compute in Hc; repeat (destruct Hc as [Hc|Hc]; [discriminate Hc|]); destruct Hc.
  - constructor.
    + intros f g [Hf _] [Hg _] E Ec _. apply more_needed in Hf, Hg. cbn in Hf, Hg. in_cases Hf; in_cases Hg; try discriminate E; try discriminate Ec; reflexivity.
    + intros f [Hf _]. apply more_needed in Hf. cbn in Hf. in_cases Hf; try exact I; do 2 eexists; (split; [reflexivity | discriminate]).
    + intros f g a b [Hf _] [Hg _] E E'. apply more_needed in Hf, Hg. cbn in Hf, Hg. in_cases Hf; in_cases Hg; try discriminate E; try discriminate E'; injection E as <-; injection E' as <-; try reflexivity; discriminate.
    + intros f d n [Hf _] E En. apply more_needed in Hf. cbn in Hf. in_cases Hf; try discriminate E; injection E as <-; try discriminate En; injection En as <-; reflexivity.
    + intros p bs path u wh prev nm [Hf _] r Hr. apply more_needed in Hf. cbn in Hf. repeat (destruct Hf as [Hf|Hf]; [discriminate Hf|]). destruct Hf.
    + intros p bs path u w prev nm [Hf _]. apply more_needed in Hf. cbn in Hf. repeat (destruct Hf as [Hf|Hf]; [discriminate Hf|]). destruct Hf.
    + intros r b nm b' nm' n [Hf _]. apply more_needed in Hf. cbn in Hf. repeat (destruct Hf as [Hf|Hf]; [discriminate Hf|]). destruct Hf.
    + intros f [Hf _]. apply more_needed in Hf. cbn in Hf. in_cases Hf; try exact I; intros t cs Hcs; destruct cs as [|? [|? [|? ?]]]; try discriminate Hcs; reflexivity.
    + intros p bs nm [Hf _]. apply more_needed in Hf. cbn in Hf.
      destruct Hf as [Hf|[Hf|[Hf|[]]]]; try discriminate Hf; injection Hf as <- <- <-; intros _; [apply binary_rowwise | apply unary_rowwise].
    + intros p bs g nm [Hf _]. apply more_needed in Hf. cbn in Hf. repeat (destruct Hf as [Hf|Hf]; [discriminate Hf|]). destruct Hf.
Qed.
Example C61_nonvacuous :
  valid_request (demo_es []) demo_idvars (fun l => l) None [f_more] "event"%string /\
  build demo_bool demo_expr = Ok (OFeat f_more) /\
  (forall r, In r (rows_at (demo_es []) 8 None true "event"%string) -> typed (demo_es []) 8 None true demo_bool demo_expr r) /\
  (exists m, run (demo_es []) demo_idvars (fun l => l) [f_more] no_appr no_pre 8 None true [VNum 100; VNum 101; VNum 102; VNum 103] = Ok m /\
    m_rows m = [(VNum 100, [VBool false]); (VNum 101, [VBool false]); (VNum 102, [VBool false]); (VNum 103, [VBool true])]).
Proof.
  split; [exact more_request|]. split; [reflexivity|]. split.
  - intros r Hr a f Ha Hb. cbn in Ha. vm_compute in Hr.
    in_cases Hr; in_cases Ha; cbn in Hb; try discriminate Hb; injection Hb as <-; vm_compute; (split; [intros H; try discriminate H; intros z; discriminate | intros b Hb; try discriminate Hb; reflexivity]).
  - eexists. split; [vm_compute; reflexivity | reflexivity].
Qed.
Print Assumptions C61_expression.
Print Assumptions C61_one_entity.
Print Assumptions C61_matrix_partial.
Print Assumptions C61_negation_refuted.
Print Assumptions C61_constant_logic.
Print Assumptions C61_names.
