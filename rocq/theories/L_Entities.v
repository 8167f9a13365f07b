From Verif Require Import Base BaseFacts M_Schema M_Table M_LastTime M_Entities S_Entities.
From Verif Require Import P_Equality.
Local Open Scope string_scope.
Local Open Scope list_scope.

(** ** the state monad *)
Lemma sbind_Ok {S A B} (x : ST S A) (f : A -> ST S B) s s' b :
  sbind x f s = (s', Ok b) -> exists a s1, x s = (s1, Ok a) /\ f a s1 = (s', Ok b).
Proof. unfold sbind. destruct (x s) as [s1 [a|e]] eqn:E; intros H; [eauto | discriminate]. Qed.
Lemma sbind_any {S A B} (x : ST S A) (f : A -> ST S B) s s' r :
  sbind x f s = (s', r) -> (exists a s1, x s = (s1, Ok a) /\ f a s1 = (s', r)) \/ (exists e, x s = (s', Err e) /\ r = Err e).
Proof. unfold sbind. destruct (x s) as [s1 [a|e]] eqn:E; intros H; [left; eauto | right; injection H as <- <-; eauto]. Qed.
Lemma sguard_Ok {S} b e (s s' : S) u : sguard b e s = (s', Ok u) -> b = true /\ s' = s.
Proof. unfold sguard. destruct b; intros H; [injection H as <- <-; auto | discriminate]. Qed.
Lemma slift_Ok {S A} (r : res A) (s s' : S) a : slift r s = (s', Ok a) -> r = Ok a /\ s' = s.
Proof. unfold slift. intros H. injection H as <- ->. auto. Qed.
Lemma sguard_state {S} b e (s s' : S) r : sguard b e s = (s', r) -> s' = s.
Proof. unfold sguard. congruence. Qed.
Lemma slift_state {S A} (x : res A) (s s' : S) r : slift x s = (s', r) -> s' = s.
Proof. unfold slift. congruence. Qed.

(** a property kept by a computation, whatever its result *)
Definition keeps {S A} (P : S -> Prop) (m : ST S A) : Prop := forall s s' r, P s -> m s = (s', r) -> P s'.
Lemma keeps_bind {S A B} P (x : ST S A) (f : A -> ST S B) : keeps P x -> (forall a, keeps P (f a)) -> keeps P (sbind x f).
Proof. intros Hx Hf s s' r H E. apply sbind_any in E as [(a & s1 & E1 & E2)|(e & E1 & _)]; [apply (Hf a s1 s' r); [exact (Hx s s1 _ H E1) | exact E2] | exact (Hx s s' _ H E1)]. Qed.
Lemma keeps_ret {S A} P (a : A) : @keeps S A P (sret a).
Proof. intros s s' r H E. unfold sret in E. congruence. Qed.
Lemma keeps_fail {S A} P e : @keeps S A P (sfail e).
Proof. intros s s' r H E. unfold sfail in E. congruence. Qed.
Lemma keeps_lift {S A} P (x : res A) : @keeps S A P (slift x).
Proof. intros s s' r H E. apply slift_state in E. congruence. Qed.
Lemma keeps_guard {S} P b e : @keeps S unit P (sguard b e).
Proof. intros s s' r H E. apply sguard_state in E. congruence. Qed.
Lemma keeps_get {S} P : @keeps S S P sget.
Proof. intros s s' r H E. unfold sget in E. congruence. Qed.
Lemma keeps_mod {S} (P : S -> Prop) f : (forall s, P s -> P (f s)) -> keeps P (smod f).
Proof. intros Hf s s' r H E. unfold smod in E. injection E as <- <-. auto. Qed.
Lemma keeps_iter {S A} (P : S -> Prop) (f : A -> ST S unit) l : (forall a, In a l -> keeps P (f a)) -> keeps P (siter f l).
Proof.
  induction l as [|a l IH]; intros H; cbn [siter]; [apply keeps_ret|]. apply keeps_bind; [apply H; left; reflexivity|]. intros _. apply IH. intros x Hx. apply H. right. exact Hx.
Qed.

Ltac sstep H :=
  match type of H with
  | sbind _ _ _ = (_, Ok _) => let a := fresh "a" in let s := fresh "s" in let E := fresh "E" in apply sbind_Ok in H as (a & s & E & H)
  | (if ?b then _ else _) _ = _ => let E := fresh "C" in destruct b eqn:E
  end.

(** ** entity sets *)
Lemma sent_In id s e : sent id s = Ok e -> dget String.eqb id (s_ents s) = Some e.
Proof. unfold sent. destruct (dget String.eqb id (s_ents s)); congruence. Qed.

(** only the variables of the entities differ *)
Definition vars_only (s s' : eset) : Prop :=
  s_id s' = s_id s /\ s_rels s' = s_rels s /\ s_kind s' = s_kind s /\ s_meta s' = s_meta s /\
  forall id, match dget String.eqb id (s_ents s), dget String.eqb id (s_ents s') with
             | Some e, Some e' => e' = with_vars (n_vars e') e
             | None, None => True
             | _, _ => False
             end.
Lemma with_vars_id e : with_vars (n_vars e) e = e.
Proof. destruct e; reflexivity. Qed.
Lemma vars_only_refl s : vars_only s s.
Proof. repeat split. intros id. destruct (dget String.eqb id (s_ents s)) as [e|]; [|exact I]. destruct e; reflexivity. Qed.
Lemma vars_only_trans a b c : vars_only a b -> vars_only b c -> vars_only a c.
Proof.
  intros (A1 & A2 & A3 & A4 & A5) (B1 & B2 & B3 & B4 & B5). repeat split; try congruence. intros id. specialize (A5 id). specialize (B5 id).
  destruct (dget String.eqb id (s_ents a)), (dget String.eqb id (s_ents b)), (dget String.eqb id (s_ents c)); try contradiction; auto.
  rewrite B5, A5. reflexivity.
Qed.
Lemma vars_only_get s s' id e : vars_only s s' -> dget String.eqb id (s_ents s) = Some e -> exists vs, dget String.eqb id (s_ents s') = Some (with_vars vs e).
Proof. intros (_ & _ & _ & _ & H) E. specialize (H id). rewrite E in H. destruct (dget String.eqb id (s_ents s')) as [e'|]; [|contradiction]. exists (n_vars e'). congruence. Qed.
Lemma vars_only_get' s s' id e : vars_only s s' -> dget String.eqb id (s_ents s') = Some e -> exists e0, dget String.eqb id (s_ents s) = Some e0 /\ e = with_vars (n_vars e) e0.
Proof. intros (_ & _ & _ & _ & H) E. specialize (H id). rewrite E in H. destruct (dget String.eqb id (s_ents s)) as [e'|]; [|contradiction]. eauto. Qed.
Lemma vars_only_none s s' id : vars_only s s' -> dget String.eqb id (s_ents s) = None -> dget String.eqb id (s_ents s') = None.
Proof. intros (_ & _ & _ & _ & H) E. specialize (H id). rewrite E in H. destruct (dget String.eqb id (s_ents s')); [contradiction | reflexivity]. Qed.

Section Ops.
  Variables to_numeric to_datetime : list val -> res (dtype * list val).
  Variable obj_kind : val -> res (option tkind).
  Variable infer : table -> string -> vtype.
  Variable touched : list relationship -> list string -> list string.
  Variable last_times : eset -> string -> list (val * val).

  Lemma convert_type_only id ty k e s' r :
    convert_variable_type to_numeric to_datetime id ty false (k, e) = (s', r) -> exists vs, s' = (k, with_vars vs e).
  Proof.
    unfold convert_variable_type, eget, sret, sbind, slift, emod. cbn. intros H.
    destruct (get_var id (n_vars e)); injection H as <- <-; [eauto|]. exists (n_vars e). rewrite with_vars_id. reflexivity.
  Qed.

  Lemma on_entity_vars eid m s s' (r : res unit) :
    (forall k e s' r, m (k, e) = (s', r) -> exists vs, s' = (k, with_vars vs e)) ->
    on_entity eid m s = (s', r) -> vars_only s s'.
  Proof.
    intros Hm. unfold on_entity. destruct (sent eid s) as [e|x] eqn:E; [|intros H; injection H as <- _; apply vars_only_refl].
    destruct (m (s_kind s, e)) as [[k e'] r'] eqn:Em. intros H. injection H as <- _. destruct (Hm _ _ _ _ Em) as (vs & Hvs). injection Hvs as -> ->.
    apply sent_In in E. repeat split. intros id. cbn. destruct (String.eqb_spec id eid) as [->|Hd].
    - rewrite E, (dget_dset_same _ String.eqb_spec). destruct e; reflexivity.
    - rewrite (dget_dset_other _ String.eqb_spec) by congruence. destruct (dget String.eqb id (s_ents s)) as [x|]; [destruct x; reflexivity | exact I].
  Qed.

  Lemma ensure_type_vars eid vid ty s s' r : ensure_type to_numeric to_datetime eid vid ty s = (s', r) -> vars_only s s'.
  Proof.
    unfold ensure_type. intros H. apply sbind_any in H as [(s0 & s1 & E & H)|(x & E & _)]; [|unfold sget in E; discriminate].
    unfold sget in E. injection E as <- <-. apply sbind_any in H as [(e & s1 & E & H)|(x & E & _)]; [|apply slift_state in E as ->; apply vars_only_refl].
    apply slift_Ok in E as [E ->]. apply sbind_any in H as [(v & s1 & E2 & H)|(x & E2 & _)]; [|apply slift_state in E2 as ->; apply vars_only_refl].
    apply slift_Ok in E2 as [E2 ->]. destruct (vtype_eqb (v_type v) ty).
    - unfold sret in H. injection H as <- _. apply vars_only_refl.
    - eapply on_entity_vars; [|exact H]. intros. eapply convert_type_only; eassumption.
  Qed.

  Lemma make_relationship_state r s s' x : make_relationship r s = (s', x) -> s' = s.
  Proof.
    revert s s' x. assert (forall s0, keeps (fun s => s = s0) (make_relationship r)) as H.
    { intros s0. unfold make_relationship. repeat (apply keeps_bind; [first [apply keeps_get | apply keeps_lift]|intros ?]). apply keeps_guard. }
    intros s s' x E. symmetry. apply (H s s s' x eq_refl) in E. congruence.
  Qed.
  Lemma make_relationship_Ok r s s' u : make_relationship r s = (s', Ok u) ->
    s' = s /\ exists pe ce, sent (r_pe r) s = Ok pe /\ sent (r_ce r) s = Ok ce /\ (exists v, get_var (r_pv r) (n_vars pe) = Ok v) /\ (exists v, get_var (r_cv r) (n_vars ce) = Ok v) /\ r_pv r = n_index pe.
  Proof.
    intros H. split; [eapply make_relationship_state; exact H|]. unfold make_relationship in H.
    apply sbind_Ok in H as (s0 & s1 & E & H). unfold sget in E. injection E as <- <-.
    apply sbind_Ok in H as (pe & s1 & E & H). apply slift_Ok in E as [E ->].
    apply sbind_Ok in H as (v & s1 & E2 & H). apply slift_Ok in E2 as [E2 ->].
    apply sbind_Ok in H as (ce & s1 & E3 & H). apply slift_Ok in E3 as [E3 ->].
    apply sbind_Ok in H as (w & s1 & E4 & H). apply slift_Ok in E4 as [E4 ->].
    apply sguard_Ok in H as [H _]. apply String.eqb_eq in H. exists pe, ce. eauto 10.
  Qed.

  (** every entity has rows *)
  Definition with_rows (s : eset) : Prop := forall id e, dget String.eqb id (s_ents s) = Some e -> t_rows (n_tab e) <> [].

  Lemma with_rows_vars_only s s' : vars_only s s' -> with_rows s -> with_rows s'.
  Proof. intros Hv H id e E. destruct (vars_only_get' _ _ _ _ Hv E) as (e0 & E0 & ->). apply (H id e0 E0). Qed.

  (** what add_relationship does, when no entity is empty *)
  Lemma add_relationship_cases r s s' x : (forall e, dget String.eqb (r_ce r) (s_ents s) = Some e -> t_rows (n_tab e) <> []) -> add_relationship to_numeric to_datetime r s = (s', x) ->
    (In r (s_rels s) /\ s' = s /\ x = Ok tt) \/
    (~ In r (s_rels s) /\ (exists e, x = Err e) /\ vars_only s s') \/
    (~ In r (s_rels s) /\ x = Ok tt /\ exists s1 ce pe d, vars_only s s1 /\ s' = with_meta None (with_rels (s_rels s ++ [r]) s1) /\
       dget String.eqb (r_ce r) (s_ents s1) = Some ce /\ dget String.eqb (r_pe r) (s_ents s1) = Some pe /\
       n_index ce <> r_cv r /\ t_dtype (n_tab ce) (r_cv r) = Ok d /\ t_dtype (n_tab pe) (r_pv r) = Ok d).
  Proof.
    intros Hw H. unfold add_relationship in H. apply sbind_any in H as [(s0 & s1 & E & H)|(e & E & _)]; [|unfold sget in E; discriminate]. unfold sget in E. injection E as <- <-.
    destruct (existsb (rel_eqb r) (s_rels s)) eqn:Ed.
    { left. unfold sret in H. injection H as <- <-. apply existsb_exists in Ed as (r' & Hr & E). destruct (rel_eqb_spec' r r'); [subst; auto | discriminate]. }
    right. assert (~ In r (s_rels s)) as Hn.
    { intros Hin. enough (existsb (rel_eqb r) (s_rels s) = true) by congruence. apply existsb_exists. exists r. split; [exact Hin|]. destruct (rel_eqb_spec' r r); congruence. }
    assert (forall e s0, vars_only s s0 -> s0 = s' -> x = Err e -> (~ In r (s_rels s) /\ (exists e, x = Err e) /\ vars_only s s')) as Hfail by (intros e s0 Hv <- ->; split; [exact Hn | split; eauto]).
    apply sbind_any in H as [(ce & s1 & E & H)|(e & E & ->)]; [|apply slift_state in E as ->; left; split; [exact Hn | split; [eauto | apply vars_only_refl]]].
    apply slift_Ok in E as [E ->].
    apply sbind_any in H as [(u & s1 & E1 & H)|(e & E1 & ->)]; [|apply sguard_state in E1 as ->; left; split; [exact Hn | split; [eauto | apply vars_only_refl]]].
    apply sguard_Ok in E1 as [E1 ->].
    apply sbind_any in H as [(pe & s1 & E2 & H)|(e & E2 & ->)]; [|apply slift_state in E2 as ->; left; split; [exact Hn | split; [eauto | apply vars_only_refl]]].
    apply slift_Ok in E2 as [E2 ->].
    apply sbind_any in H as [(u2 & s1 & E3 & H)|(e & E3 & ->)]; [|apply ensure_type_vars in E3; left; split; [exact Hn | split; [eauto | exact E3]]].
    apply ensure_type_vars in E3.
    apply sbind_any in H as [(u3 & s2 & E4 & H)|(e & E4 & ->)]; [|apply ensure_type_vars in E4; left; split; [exact Hn | split; [eauto | eapply vars_only_trans; eassumption]]].
    apply ensure_type_vars in E4. pose proof (vars_only_trans _ _ _ E3 E4) as Hv.
    apply sbind_any in H as [(s3 & s4 & E5 & H)|(e & E5 & _)]; [|unfold sget in E5; discriminate]. unfold sget in E5. injection E5 as <- <-.
    apply sbind_any in H as [(ce' & s4 & E5 & H)|(e & E5 & ->)]; [|apply slift_state in E5 as ->; left; split; [exact Hn | split; [eauto | exact Hv]]].
    apply slift_Ok in E5 as [E5 ->].
    apply sbind_any in H as [(cd & s4 & E6 & H)|(e & E6 & ->)]; [|apply slift_state in E6 as ->; left; split; [exact Hn | split; [eauto | exact Hv]]].
    apply slift_Ok in E6 as [E6 ->].
    apply sbind_any in H as [(pe' & s4 & E7 & H)|(e & E7 & ->)]; [|apply slift_state in E7 as ->; left; split; [exact Hn | split; [eauto | exact Hv]]].
    apply slift_Ok in E7 as [E7 ->].
    apply sbind_any in H as [(pd & s4 & E8 & H)|(e & E8 & ->)]; [|apply slift_state in E8 as ->; left; split; [exact Hn | split; [eauto | exact Hv]]].
    apply slift_Ok in E8 as [E8 ->]. apply sent_In in E, E2, E5, E7.
    assert (t_rows (n_tab ce') <> []) as Hrows by (destruct (vars_only_get' _ _ _ _ Hv E5) as (e0 & E0 & ->); exact (Hw e0 E0)).
    cbv zeta in H. destruct (t_rows (n_tab ce')) as [|r0 l0] eqn:Er; [contradiction|]. cbv iota in H.
    apply sbind_any in H as [(u4 & s4 & E9 & H)|(e & E9 & _)]; [|unfold sret in E9; discriminate]. unfold sret in E9. injection E9 as <- _.
    apply sbind_any in H as [(u5 & s5 & E10 & H)|(e & E10 & ->)]; [|apply sguard_state in E10 as ->; left; split; [exact Hn | split; [eauto | exact Hv]]].
    apply sguard_Ok in E10 as [E10 ->]. destruct (dtype_eqb_spec pd cd) as [->|]; [|discriminate].
    unfold sbind, smod, reset_meta in H. injection H as <- <-. right. split; [exact Hn|]. split; [reflexivity|]. exists s2, ce', pe', cd.
    split; [exact Hv|]. split; [destruct Hv as (_ & -> & _); reflexivity|]. repeat split; auto.
    destruct (vars_only_get' _ _ _ _ Hv E5) as (e0 & E0 & Ee). rewrite E in E0. injection E0 as <-. rewrite Ee. cbn.
    apply negb_true_iff in E1. apply String.eqb_neq in E1. exact E1.
  Qed.

  (** ** the metadata cache *)
  Lemma describe_kind k s : describe (with_kind k s) = describe s.
  Proof. reflexivity. Qed.
  Lemma describe_meta k s : describe (with_meta k s) = describe s.
  Proof. reflexivity. Qed.
End Ops.
