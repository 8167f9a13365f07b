(** C89: division and arithmetic on fractions. *)
From Coq Require Import List String QArith Lqa Bool Lia Setoid Morphisms.
From Verif Require Import Base BaseFacts M_Divide S_Divide.
Import ListNotations.
Local Open Scope list_scope.

(** the value at one row *)
Fixpoint at_row (r : string -> num) (f : afeat) : num :=
  match f with
  | ABase c => r c
  | ABoth op f g => elementwise op (at_row r f) (at_row r g)
  | AScalar op f c => elementwise op (at_row r f) (Fin c)
  | AFrom op c f => elementwise op (Fin c) (at_row r f)
  end.
Lemma column_rows rows f : column rows f = map (fun r => at_row r f) rows.
Proof.
  induction f as [c|op f IHf g IHg|op f IH c|op c f IH]; cbn [column at_row]; [reflexivity | | rewrite IH, map_map; reflexivity | rewrite IH, map_map; reflexivity].
  rewrite IHf, IHg. clear. induction rows as [|r rows IH]; [reflexivity|]. cbn [map combine fst snd]. rewrite IH. reflexivity.
Qed.

Lemma is_zero_iff q : is_zero q = true <-> q == 0.
Proof. unfold is_zero. destruct (Qcompare_spec q 0) as [H|H|H]; split; intros K; try reflexivity; try discriminate K; try assumption; lra. Qed.
Lemma is_neg_iff q : is_neg q = true <-> q < 0.
Proof. unfold is_neg. destruct (Qcompare_spec q 0) as [H|H|H]; split; intros K; try reflexivity; try discriminate K; try assumption; lra. Qed.

Lemma same_refl a : same a a.
Proof. destruct a; cbn; [reflexivity | reflexivity | exact I]. Qed.
(** the value of what an expression builds *)
Definition val_of (r : string -> num) (v : aval) : num := match v with AFeat f => at_row r f | ANum q => Fin q end.

Lemma is_zero_comp x y : x == y -> is_zero x = is_zero y.
Proof. intros H. destruct (is_zero x) eqn:A, (is_zero y) eqn:B; try reflexivity; exfalso; [apply is_zero_iff in A; rewrite H in A; apply is_zero_iff in A | apply is_zero_iff in B; rewrite <- H in B; apply is_zero_iff in B]; congruence. Qed.
Lemma is_neg_comp x y : x == y -> is_neg x = is_neg y.
Proof. intros H. destruct (is_neg x) eqn:A, (is_neg y) eqn:B; try reflexivity; exfalso; [apply is_neg_iff in A; rewrite H in A; apply is_neg_iff in A | apply is_neg_iff in B; rewrite <- H in B; apply is_neg_iff in B]; congruence. Qed.
Lemma op_same op a a' b b' : same a a' -> same b b' -> same (elementwise op a b) (elementwise op a' b').
Proof.
  destruct op, a as [x|s|], a' as [x'|s'|]; cbn [same]; intros Ha; try (destruct Ha; fail); destruct b as [y|t|], b' as [y'|t'|]; cbn [same]; intros Hb; try (destruct Hb; fail);
    cbn [elementwise nadd nsub nneg nmul ndiv same]; subst; try exact I; try reflexivity;
    repeat match goal with H : ?x == ?y |- _ => match goal with |- context [is_zero x] => rewrite (is_zero_comp x y H) | |- context [is_neg x] => rewrite (is_neg_comp x y H) end end;
    repeat match goal with |- context [if ?c then _ else _] => destruct c end; cbn [same]; try exact I; try reflexivity; try (rewrite Ha, Hb; reflexivity).
Qed.
Lemma same_trans a b c : same a b -> same b c -> same a c.
Proof. destruct a, b, c; cbn; intros H K; try (destruct H; fail); try (destruct K; fail); try exact I; [rewrite H; exact K | congruence]. Qed.
Lemma add_swap a b : same (nadd a b) (nadd b a).
Proof. destruct a as [x|[]|], b as [y|[]|]; cbn; try exact I; try reflexivity; ring. Qed.
Lemma mul_swap a b : same (nmul a b) (nmul b a).
Proof. destruct a as [x|[]|], b as [y|[]|]; cbn; try exact I; try reflexivity; try ring; destruct (is_zero _); cbn; try exact I; try reflexivity. Qed.

(** the operators of Python on values *)
Fixpoint eval (r : string -> num) (e : aexpr) : num :=
  match e with XVar c => r c | XNum q => Fin q | XOp op a b => elementwise op (eval r a) (eval r b) end.
Lemma apply_val op a b v r : apply_op op a b = Ok v -> same (val_of r v) (elementwise op (val_of r a) (val_of r b)).
Proof.
  destruct a as [f|c], b as [g|d]; cbn [apply_op]; intros H.
  - injection H as <-. apply same_refl.
  - injection H as <-. apply same_refl.
  - injection H as <-. destruct op; cbn [val_of at_row elementwise]; [apply add_swap | apply same_refl | apply mul_swap | apply same_refl].
  - destruct op; [injection H as <- | injection H as <- | injection H as <- |]; cbn [val_of elementwise nadd nsub nneg nmul ndiv same]; try reflexivity.
    destruct (is_zero d); [discriminate H|]. injection H as <-. cbn. reflexivity.
Qed.
Lemma build_val e v r : abuild e = Ok v -> same (val_of r v) (eval r e).
Proof.
  revert v. induction e as [c|q|op a IHa b IHb]; intros v H; cbn [abuild] in H.
  - injection H as <-. apply same_refl.
  - injection H as <-. apply same_refl.
  - apply bind_Ok in H as (x & Hx & H). apply bind_Ok in H as (y & Hy & H). cbn [eval].
    eapply same_trans; [exact (apply_val _ _ _ _ r H)|]. apply op_same; [exact (IHa _ Hx) | exact (IHb _ Hy)].
Qed.
Lemma exact_eval r e q : exactly r e q -> same (eval r e) (Fin q).
Proof.
  induction 1 as [c q H|q|a b x y _ IHa _ IHb|a b x y _ IHa _ IHb|a b x y _ IHa _ IHb|a b x y _ IHa _ IHb Hy]; cbn [eval].
  - rewrite H. apply same_refl.
  - apply same_refl.
  - exact (op_same Add _ _ _ _ IHa IHb).
  - exact (op_same Sub _ _ _ _ IHa IHb).
  - exact (op_same Mul _ _ _ _ IHa IHb).
  - eapply same_trans; [exact (op_same Div _ _ _ _ IHa IHb)|]. cbn [elementwise ndiv]. destruct (is_zero y) eqn:E; [exfalso; apply Hy, is_zero_iff, E | apply same_refl].
Qed.

(** *** Where an expression is defined, the feature built from it has its exact value. *)
Theorem C89_exact rows e f i r q : abuild e = Ok (AFeat f) -> nth_error rows i = Some r -> exactly r e q ->
  exists v, nth_error (column rows f) i = Some (Fin v) /\ v == q.
Proof.
  intros Hb Hi He. rewrite column_rows, (map_nth_error _ _ _ Hi).
  pose proof (same_trans _ _ _ (build_val e (AFeat f) r Hb) (exact_eval r e q He)) as H. cbn [val_of] in H.
  destruct (at_row r f) as [v|s|]; cbn in H; [exists v; auto | destruct H | destruct H].
Qed.
(** *** Dividing a number that is not zero by zero gives the infinity of its sign, and zero by zero a missing value. *)
Theorem C89_by_zero rows a b f i r x y : abuild (XOp Div a b) = Ok (AFeat f) -> nth_error rows i = Some r -> exactly r a x -> exactly r b y -> y == 0 ->
  nth_error (column rows f) i = Some (if Qeq_bool x 0 then NaN else Inf (negb (Qle_bool 0 x))).
Proof.
  intros Hb Hi Hx Hy Hz. rewrite column_rows, (map_nth_error _ _ _ Hi). f_equal.
  pose proof (same_trans _ _ _ (build_val _ (AFeat f) r Hb) (op_same Div _ _ _ _ (exact_eval r a x Hx) (exact_eval r b y Hy))) as H.
  cbn [val_of elementwise ndiv] in H. rewrite (proj2 (is_zero_iff y) Hz) in H. destruct (is_zero x) eqn:E.
  - apply is_zero_iff in E. rewrite (Qeq_eq_bool _ _ E). destruct (at_row r f); cbn in H; [destruct H | destruct H | reflexivity].
  - destruct (Qeq_bool x 0) eqn:E'; [apply Qeq_bool_eq in E'; apply is_zero_iff in E'; congruence|].
    destruct (at_row r f) as [v|s|]; cbn in H; [destruct H | | destruct H]. subst s. f_equal.
    destruct (is_neg x) eqn:En, (Qle_bool 0 x) eqn:El; try reflexivity; exfalso.
    + apply is_neg_iff in En. apply Qle_bool_iff in El. lra.
    + assert (~ 0 <= x) as Hn by (intros K; apply Qle_bool_iff in K; congruence). assert (~ x < 0) as Hn' by (intros K; apply is_neg_iff in K; congruence). lra.
Qed.
(** *** Where a variable that is used is missing, the feature is missing. *)
Theorem C89_missing rows e f i r c : abuild e = Ok (AFeat f) -> nth_error rows i = Some r -> uses e c -> r c = NaN -> nth_error (column rows f) i = Some NaN.
Proof.
  intros Hb Hi Hu Hc. rewrite column_rows, (map_nth_error _ _ _ Hi). f_equal.
  assert (eval r e = NaN) as He.
  { clear Hb. induction e as [c'|q|op a IHa b IHb]; cbn [uses eval] in *; [subst c'; exact Hc | destruct Hu|].
    assert (forall v, elementwise op NaN v = NaN /\ elementwise op v NaN = NaN) as Hn by (intros [x|s|]; destruct op; split; reflexivity).
    destruct Hu as [Hu | Hu]; [rewrite (IHa Hu); apply Hn | rewrite (IHb Hu); apply Hn]. }
  pose proof (build_val _ (AFeat f) r Hb) as H. rewrite He in H. cbn in H. destruct (at_row r f); cbn in H; [destruct H | destruct H | reflexivity].
Qed.
(** *** An operator between a feature and a feature or a number always builds a feature, in both orders. *)
Theorem C89_built a b op c : (exists f, abuild a = Ok (AFeat f)) -> abuild b = Ok (ANum c) \/ (exists g, abuild b = Ok (AFeat g)) ->
  (exists f, abuild (XOp op a b) = Ok (AFeat f)) /\ (exists f, abuild (XOp op b a) = Ok (AFeat f)).
Proof. intros [f Ha] [Hb | [g Hb]]; split; cbn [abuild]; rewrite Ha, Hb; cbn [bind apply_op]; eauto. Qed.

(** A division by zero does not always show: it is hidden when the result is a divisor again. *)
Theorem C89_hidden_refuted : exists e f r, abuild e = Ok (AFeat f) /\ (forall c, exists q, r c = Fin q) /\ (forall q, ~ exactly r e q) /\ column [r] f = [Fin 0].
Proof.
  exists (XOp Div (XNum 1) (XOp Div (XVar "amount") (XVar "count"))), (AFrom Div 1 (ABoth Div (ABase "amount") (ABase "count"))),
    (fun c => if String.eqb c "count" then Fin 0 else Fin 5).
  split; [reflexivity|]. split; [intros c; destruct (String.eqb c "count"); eauto|]. split; [|reflexivity].
  intros q H. inversion H as [| | | | |? ? ? y Ha Hb Hy]; subst. inversion Hb as [| | | | |? ? ? z Hc Hd Hz]; subst. inversion Hd as [? ? E| | | | |]; subst.
  cbn in E. injection E as <-. apply Hz. reflexivity.
Qed.
(** The name of a feature does not say how it is computed: the names of (a + b) / c and a + b / c are the same. *)
Theorem C89_name_refuted str : exists e e' f g r x y, abuild e = Ok (AFeat f) /\ abuild e' = Ok (AFeat g) /\ aname str f = aname str g /\
  column [r] f = [Fin x] /\ column [r] g = [Fin y] /\ x == 2 /\ y == 3.
Proof.
  exists (XOp Div (XOp Add (XVar "a") (XVar "b")) (XVar "c")), (XOp Add (XVar "a") (XOp Div (XVar "b") (XVar "c"))).
  eexists _, _, (fun c => Fin 2), _, _. repeat (split; [reflexivity|]). reflexivity.
Qed.

Example C89_nonvacuous :
  let e := XOp Div (XNum 10) (XOp Sub (XVar "x") (XVar "y")) in
  let row x y := fun c : string => if String.eqb c "x" then x else y in
  exists f, abuild e = Ok (AFeat f) /\ exactly (row (Fin 7) (Fin 3)) e (10 / (7 - 3)) /\
    column [row (Fin 7) (Fin 3); row (Fin 3) (Fin 3); row NaN (Fin 3)] f = [Fin (10 / (7 - 3)); Inf false; NaN].
Proof.
  cbn zeta. eexists. split; [reflexivity|]. split; [|reflexivity].
  apply exact_div; [apply exact_num | apply exact_sub; apply exact_var; reflexivity | intros H; discriminate H].
Qed.

Print Assumptions C89_exact. Print Assumptions C89_by_zero. Print Assumptions C89_missing. Print Assumptions C89_built.
Print Assumptions C89_hidden_refuted. Print Assumptions C89_name_refuted.
