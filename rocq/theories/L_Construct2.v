(** Lemmas for C78: relationships. *)
From Coq Require Import Lia Permutation.
From Verif Require Import Base BaseFacts M_Table M_Schema M_Entities S_Entities L_Entities M_Construct S_Construct L_Construct P_Equality.
Open Scope string_scope.
Import ListNotations.

(** ** states that differ in the order of the dictionary only *)
Definition eqv (a b : eset) : Prop :=
  s_id a = s_id b /\ s_rels a = s_rels b /\ s_kind a = s_kind b /\ s_meta a = s_meta b /\ deq (s_ents a) (s_ents b).
Definition resp {A} (m n : ST eset A) : Prop :=
  forall a b, eqv a b -> snd (m a) = snd (n b) /\ eqv (fst (m a)) (fst (n b)).

Lemma resp_bind {A B} (m n : ST eset A) (f g : A -> ST eset B) : resp m n -> (forall x, resp (f x) (g x)) -> resp (sbind m f) (sbind n g).
Proof.
  intros Hm Hf a b H. specialize (Hm a b H). unfold sbind. destruct (m a) as [a' x], (n b) as [b' y]. cbn [fst snd] in Hm. destruct Hm as [<- H'].
  destruct x as [x|e]; [apply Hf; exact H' | split; [reflexivity | exact H']].
Qed.
Lemma resp_get {B} (f g : eset -> ST eset B) : (forall a b, eqv a b -> resp (f a) (g b)) -> resp (sbind sget f) (sbind sget g).
Proof. intros H a b Hab. unfold sbind, sget. apply (H a b Hab a b Hab). Qed.
Lemma resp_lift {A} (x : res A) : resp (slift x) (slift x).
Proof. intros a b H. split; [reflexivity | exact H]. Qed.
Lemma resp_guard c e : resp (sguard c e) (sguard c e).
Proof. intros a b H. split; [reflexivity | exact H]. Qed.
Lemma resp_ret {A} (x : A) : resp (sret x) (sret x).
Proof. intros a b H. split; [reflexivity | exact H]. Qed.
Lemma resp_mod f g : (forall a b, eqv a b -> eqv (f a) (g b)) -> resp (smod f) (smod g).
Proof. intros H a b Hab. split; [reflexivity | apply H; exact Hab]. Qed.
Lemma sent_eqv id a b : eqv a b -> sent id a = sent id b.
Proof. intros (_ & _ & _ & _ & H). unfold sent. rewrite (H id). reflexivity. Qed.

Lemma resp_on_entity eid (m : EST unit) : resp (on_entity eid m) (on_entity eid m).
Proof.
  intros a b H. unfold on_entity. rewrite (sent_eqv eid a b H). destruct (sent eid b) as [e|x]; [|split; [reflexivity | exact H]].
  destruct H as (H1 & H2 & H3 & H4 & H5). rewrite H3. destruct (m (s_kind b, e)) as [[k e'] r]. split; [reflexivity|]. cbn [fst].
  unfold eqv, with_kind, with_ents. cbn. repeat split; try assumption. apply deq_dset. exact H5.
Qed.

Section Ops.
  Variables to_numeric to_datetime : list val -> res (dtype * list val).

  Lemma resp_ensure eid vid ty : resp (ensure_type to_numeric to_datetime eid vid ty) (ensure_type to_numeric to_datetime eid vid ty).
  Proof.
    unfold ensure_type. apply resp_get. intros a b H. rewrite (sent_eqv eid a b H). apply resp_bind; [apply resp_lift|]. intros e.
    apply resp_bind; [apply resp_lift|]. intros v. destruct (vtype_eqb (v_type v) ty); [apply resp_ret | apply resp_on_entity].
  Qed.
  Lemma resp_make r : resp (make_relationship r) (make_relationship r).
  Proof.
    unfold make_relationship. apply resp_get. intros a b H. rewrite !(sent_eqv _ a b H).
    repeat (apply resp_bind; [apply resp_lift | intros ?]). apply resp_guard.
  Qed.
  Lemma resp_add r : resp (add_relationship to_numeric to_datetime r) (add_relationship to_numeric to_datetime r).
  Proof.
    unfold add_relationship. apply resp_get. intros a b H. rewrite !(sent_eqv _ a b H). destruct H as (_ & -> & _).
    destruct (existsb (rel_eqb r) (s_rels b)); [apply resp_ret|]. apply resp_bind; [apply resp_lift | intros ce]. apply resp_bind; [apply resp_guard | intros _].
    apply resp_bind; [apply resp_lift | intros _]. apply resp_bind; [apply resp_ensure | intros _]. apply resp_bind; [apply resp_ensure | intros _].
    apply resp_get. intros a' b' H'. rewrite !(sent_eqv _ a' b' H').
    apply resp_bind; [apply resp_lift | intros ce']. apply resp_bind; [apply resp_lift | intros cd]. apply resp_bind; [apply resp_lift | intros pe'].
    apply resp_bind; [apply resp_lift | intros pd]. cbv zeta. apply resp_bind.
    - match goal with |- resp (if ?c then _ else _) _ => destruct c end; [apply resp_on_entity | apply resp_ret].
    - intros _. apply resp_bind; [apply resp_guard | intros _]. apply resp_bind.
      + apply resp_mod. intros x y (H1 & H2 & H3 & H4 & H5). unfold eqv, with_rels. cbn. rewrite H2. auto.
      + intros _. apply resp_mod. intros x y (H1 & H2 & H3 & H4 & H5). unfold eqv, with_meta. cbn. auto.
  Qed.
  Lemma resp_relate r : resp (relate to_numeric to_datetime r) (relate to_numeric to_datetime r).
  Proof. unfold relate. apply resp_bind; [apply resp_make | intros _; apply resp_add]. Qed.
  Lemma resp_relates rs : resp (siter (relate to_numeric to_datetime) rs) (siter (relate to_numeric to_datetime) rs).
  Proof. induction rs as [|r rs IH]; cbn [siter]; [apply resp_ret|]. apply resp_bind; [apply resp_relate | intros _; exact IH]. Qed.

  (** ** what a relationship does to the variables *)
  Fixpoint set_ty (vid : string) (ty : vtype) (vs : list variable) : list variable :=
    match vs with
    | [] => []
    | v :: vs => if String.eqb (v_id v) vid then (if vtype_eqb (v_type v) ty then v else mkVar (v_id v) ty [] None) :: vs else v :: set_ty vid ty vs
    end.
  Lemma vtype_eqb_refl ty : vtype_eqb ty ty = true.
  Proof. unfold vtype_eqb. destruct (vtype_eq_dec ty ty); congruence. Qed.
  Lemma set_ty_comm v1 t1 v2 t2 vs : (v1 = v2 -> t1 = t2) -> set_ty v1 t1 (set_ty v2 t2 vs) = set_ty v2 t2 (set_ty v1 t1 vs).
  Proof.
    intros Hc. induction vs as [|v vs IH]; [reflexivity|]. cbn [set_ty].
    destruct (String.eqb_spec (v_id v) v2) as [E2|N2], (String.eqb_spec (v_id v) v1) as [E1|N1].
    - assert (t1 = t2) as -> by (apply Hc; congruence). subst v1 v2. reflexivity.
    - cbn [set_ty]. assert (v_id (if vtype_eqb (v_type v) t2 then v else mkVar (v_id v) t2 [] None) = v_id v) as E by (destruct (vtype_eqb (v_type v) t2); reflexivity).
      rewrite E. destruct (String.eqb_spec (v_id v) v1); [congruence|]. destruct (String.eqb_spec (v_id v) v2); [|congruence]. reflexivity.
    - cbn [set_ty]. assert (v_id (if vtype_eqb (v_type v) t1 then v else mkVar (v_id v) t1 [] None) = v_id v) as E by (destruct (vtype_eqb (v_type v) t1); reflexivity).
      rewrite E. destruct (String.eqb_spec (v_id v) v1); [|congruence]. destruct (String.eqb_spec (v_id v) v2); [congruence|]. reflexivity.
    - cbn [set_ty]. destruct (String.eqb_spec (v_id v) v1); [congruence|]. destruct (String.eqb_spec (v_id v) v2); [congruence|]. rewrite IH. reflexivity.
  Qed.
  Lemma set_ty_get vid ty x vs : match get_var x (set_ty vid ty vs), get_var x vs with Ok _, Ok _ => True | Err _, Err _ => True | _, _ => False end.
  Proof.
    unfold get_var. induction vs as [|v vs IH]; [exact I|]. cbn [set_ty find]. destruct (String.eqb (v_id v) vid).
    - cbn [find]. replace (v_id (if vtype_eqb (v_type v) ty then v else mkVar (v_id v) ty [] None)) with (v_id v) by (destruct (vtype_eqb (v_type v) ty); reflexivity).
      destruct (String.eqb (v_id v) x); [exact I|]. destruct (find (fun v0 => String.eqb (v_id v0) x) vs); exact I.
    - cbn [find]. destruct (String.eqb (v_id v) x); [exact I | exact IH].
  Qed.
  Lemma set_ty_ensure vid ty vs v : get_var vid vs = Ok v ->
    (if vtype_eqb (v_type v) ty then vs else replace_first vid (mkVar (v_id v) ty [] None) vs) = set_ty vid ty vs.
  Proof.
    unfold get_var. induction vs as [|w vs IH]; cbn [find set_ty replace_first]; [discriminate|]. destruct (String.eqb_spec (v_id w) vid) as [E|N].
    - intros H. injection H as <-. destruct (vtype_eqb (v_type w) ty); reflexivity.
    - intros H. specialize (IH H). destruct (vtype_eqb (v_type v) ty); congruence.
  Qed.

  (** one type recorded for one variable *)
  Record op : Type := mkOp { o_ent : string; o_var : string; o_type : vtype }.
  Definition act (id : string) (e : ent) (o : op) : ent := if String.eqb (o_ent o) id then with_vars (set_ty (o_var o) (o_type o) (n_vars e)) e else e.
  Definition acts (id : string) (os : list op) (e : ent) : ent := fold_left (act id) os e.
  Definition agree (o1 o2 : op) : Prop := o_ent o1 = o_ent o2 -> o_var o1 = o_var o2 -> o_type o1 = o_type o2.
  Lemma act_comm id e o1 o2 : agree o1 o2 -> act id (act id e o1) o2 = act id (act id e o2) o1.
  Proof.
    intros H. unfold act. destruct (String.eqb_spec (o_ent o1) id) as [E1|], (String.eqb_spec (o_ent o2) id) as [E2|]; try reflexivity.
    unfold with_vars. cbn. f_equal. apply set_ty_comm. intros Hv. symmetry. apply H; congruence.
  Qed.
  Lemma acts_perm id os os' : Permutation os os' -> (forall o1 o2, In o1 os -> In o2 os -> agree o1 o2) -> forall e, acts id os e = acts id os' e.
  Proof.
    induction 1 as [|o l l' Hp IH|o1 o2 l|l l' l'' Hp IH Hp' IH']; intros H e; [reflexivity | | |].
    - cbn. apply IH. intros a b Ha Hb. apply H; right; assumption.
    - cbn. rewrite act_comm; [reflexivity|]. apply H; cbn; auto.
    - rewrite IH by exact H. apply IH'. intros a b Ha Hb. apply H; (eapply Permutation_in; [apply Permutation_sym; exact Hp | assumption]).
  Qed.
  Lemma act_same id o e : n_tab (act id e o) = n_tab e /\ n_index (act id e o) = n_index e /\
    forall x, match get_var x (n_vars (act id e o)), get_var x (n_vars e) with Ok _, Ok _ => True | Err _, Err _ => True | _, _ => False end.
  Proof.
    unfold act. destruct (String.eqb (o_ent o) id); cbn; (split; [reflexivity|]; split; [reflexivity|]); intros x; [apply set_ty_get | destruct (get_var x (n_vars e)); exact I].
  Qed.
  Lemma acts_same id os : forall e, n_tab (acts id os e) = n_tab e /\ n_index (acts id os e) = n_index e /\
    forall x, match get_var x (n_vars (acts id os e)), get_var x (n_vars e) with Ok _, Ok _ => True | Err _, Err _ => True | _, _ => False end.
  Proof.
    induction os as [|o os IH]; intros e; cbn [acts fold_left].
    - split; [reflexivity|]. split; [reflexivity|]. intros x. cbn. destruct (get_var x (n_vars e)); exact I.
    - destruct (IH (act id e o)) as (H1 & H2 & H3), (act_same id o e) as (G1 & G2 & G3). unfold acts in *. split; [congruence|]. split; [congruence|].
      intros x. specialize (H3 x). specialize (G3 x). destruct (get_var x (n_vars (fold_left (act id) os (act id e o)))), (get_var x (n_vars (act id e o))), (get_var x (n_vars e)); tauto.
  Qed.
  Lemma acts_app id a b e : acts id (a ++ b) e = acts id b (acts id a e).
  Proof. apply fold_left_app. Qed.

  Definition ops (r : relationship) : list op := [mkOp (r_ce r) (r_cv r) TId; mkOp (r_pe r) (r_pv r) TIndex].

  (** a relationship that the entities of a set allow *)
  Definition isok {A} (x : res A) : bool := match x with Ok _ => true | Err _ => false end.
  Definition okb (s : eset) (r : relationship) : bool :=
    match dget String.eqb (r_pe r) (s_ents s), dget String.eqb (r_ce r) (s_ents s) with
    | Some pe, Some ce =>
      isok (get_var (r_pv r) (n_vars pe)) && isok (get_var (r_cv r) (n_vars ce)) && String.eqb (r_pv r) (n_index pe) && negb (String.eqb (n_index ce) (r_cv r)) &&
      match t_dtype (n_tab ce) (r_cv r), t_dtype (n_tab pe) (r_pv r) with Ok c, Ok p => dtype_eqb p c | _, _ => false end
    | _, _ => false
    end.

  (** the state after some relationships were added to [s0] *)
  Definition linked_up (s0 : eset) (new : list relationship) (s : eset) : Prop :=
    s_id s = s_id s0 /\ s_kind s = s_kind s0 /\ s_meta s = None /\ s_rels s = new /\ NoDup new /\ (forall r, In r new -> okb s0 r = true) /\
    forall id, dget String.eqb id (s_ents s) = option_map (acts id (flat_map ops new)) (dget String.eqb id (s_ents s0)).

  Lemma ensure_run eid vid ty s e v : dget String.eqb eid (s_ents s) = Some e -> get_var vid (n_vars e) = Ok v ->
    exists s', ensure_type to_numeric to_datetime eid vid ty s = (s', Ok tt) /\ s_id s' = s_id s /\ s_kind s' = s_kind s /\ s_meta s' = s_meta s /\ s_rels s' = s_rels s /\
      forall id, dget String.eqb id (s_ents s') = option_map (fun e => act id e (mkOp eid vid ty)) (dget String.eqb id (s_ents s)).
  Proof.
    intros Ee Ev. pose proof (set_ty_ensure vid ty _ _ Ev) as Hs. unfold ensure_type, sbind, sget, slift, sent. rewrite Ee, Ev. destruct (vtype_eqb (v_type v) ty) eqn:Et.
    - unfold sret. exists s. split; [reflexivity|]. repeat split. intros id. destruct (dget String.eqb id (s_ents s)) as [x|] eqn:Ex; [|reflexivity]. cbn. f_equal. unfold act. cbn.
      destruct (String.eqb_spec eid id) as [<-|]; [|reflexivity]. rewrite Ee in Ex. injection Ex as <-. rewrite <- Hs. destruct e; reflexivity.
    - unfold on_entity, sent. rewrite Ee. unfold convert_variable_type, eget, emod, sbind, slift, sret. cbn [fst snd]. rewrite Ev. cbn [fst snd].
      eexists. split; [reflexivity|]. repeat split. intros id. cbn. destruct (String.eqb_spec eid id) as [<-|N].
      + rewrite (dget_dset_same _ String.eqb_spec), Ee. cbn. unfold act. cbn. rewrite String.eqb_refl, <- Hs. reflexivity.
      + rewrite (dget_dset_other _ String.eqb_spec) by congruence. destruct (dget String.eqb id (s_ents s)); [|reflexivity]. cbn. unfold act. cbn. destruct (String.eqb_spec eid id); [contradiction | reflexivity].
  Qed.

  Lemma after_okb s0 new s r : linked_up s0 new s -> okb s r = okb s0 r.
  Proof.
    intros (_ & _ & _ & _ & _ & _ & H). unfold okb. rewrite !H.
    destruct (dget String.eqb (r_pe r) (s_ents s0)) as [pe|]; [|reflexivity]. destruct (dget String.eqb (r_ce r) (s_ents s0)) as [ce|]; [|reflexivity]. cbn [option_map].
    destruct (acts_same (r_pe r) (flat_map ops new) pe) as (-> & -> & P). destruct (acts_same (r_ce r) (flat_map ops new) ce) as (-> & -> & C).
    specialize (P (r_pv r)). specialize (C (r_cv r)).
    destruct (get_var (r_pv r) (n_vars (acts (r_pe r) (flat_map ops new) pe))), (get_var (r_pv r) (n_vars pe)); try contradiction;
    destruct (get_var (r_cv r) (n_vars (acts (r_ce r) (flat_map ops new) ce))), (get_var (r_cv r) (n_vars ce)); try contradiction; reflexivity.
  Qed.

  Definition grow (new : list relationship) (r : relationship) : list relationship := if existsb (rel_eqb r) new then new else (new ++ [r])%list.
  Lemma existsb_rel r l : existsb (rel_eqb r) l = true <-> In r l.
  Proof.
    rewrite existsb_exists. split.
    - intros (x & Hx & E). destruct (rel_eqb_spec' r x); [subst; exact Hx | discriminate].
    - intros H. exists r. split; [exact H|]. destruct (rel_eqb_spec' r r); congruence.
  Qed.

  Lemma relate_after s0 new s r : all_have_rows s0 -> linked_up s0 new s ->
    if okb s0 r then exists s', relate to_numeric to_datetime r s = (s', Ok tt) /\ linked_up s0 (grow new r) s'
    else exists s' x, relate to_numeric to_datetime r s = (s', Err x).
  Proof.
    intros Hrows Ha. rewrite <- (after_okb s0 new s r Ha). destruct (okb s r) eqn:Eo.
    - pose proof Eo as Eo'. unfold okb in Eo. destruct (dget String.eqb (r_pe r) (s_ents s)) as [pe|] eqn:Ep; [|discriminate]. destruct (dget String.eqb (r_ce r) (s_ents s)) as [ce|] eqn:Ec; [|discriminate].
      apply andb_prop in Eo as [Eo Ed]. apply andb_prop in Eo as [Eo Ei]. apply andb_prop in Eo as [Eo Epi]. apply andb_prop in Eo as [Epv Ecv].
      destruct (get_var (r_pv r) (n_vars pe)) as [pv|] eqn:Gp; [|discriminate]. destruct (get_var (r_cv r) (n_vars ce)) as [cv|] eqn:Gc; [|discriminate].
      destruct (t_dtype (n_tab ce) (r_cv r)) as [cd|] eqn:Tc; [|discriminate]. destruct (t_dtype (n_tab pe) (r_pv r)) as [pd|] eqn:Tp; [|discriminate].
      unfold relate, grow. destruct Ha as (H1 & H2 & H3 & H4 & H5 & H6 & H7).
      assert (make_relationship r s = (s, Ok tt)) as Hm.
      { unfold make_relationship, sbind, sget, slift, sguard, sent. rewrite Ep, Gp, Ec, Gc, Epi. reflexivity. }
      unfold sbind at 1. rewrite Hm. unfold add_relationship. unfold sbind at 1, sget at 1. rewrite H4.
      destruct (existsb (rel_eqb r) new) eqn:Ein.
      { exists s. split; [reflexivity|]. unfold linked_up. auto 10. }
      unfold sent at 1. rewrite Ec. unfold sbind at 1, slift at 1. unfold sbind at 1, sguard at 1. rewrite Ei. unfold sent at 1. rewrite Ep. unfold sbind at 1, slift at 1.
      destruct (ensure_run (r_ce r) (r_cv r) TId s ce cv Ec Gc) as (s1 & R1 & A1 & B1 & C1 & D1 & E1). unfold sbind at 1. rewrite R1.
      assert (exists pe1, dget String.eqb (r_pe r) (s_ents s1) = Some pe1 /\ (exists v, get_var (r_pv r) (n_vars pe1) = Ok v)) as (pe1 & Ep1 & pv1 & Gp1).
      { rewrite E1, Ep. cbn. eexists. split; [reflexivity|]. destruct (act_same (r_pe r) (mkOp (r_ce r) (r_cv r) TId) pe) as (_ & _ & G). specialize (G (r_pv r)). rewrite Gp in G.
        destruct (get_var (r_pv r) (n_vars (act (r_pe r) pe (mkOp (r_ce r) (r_cv r) TId)))); [eauto | contradiction]. }
      destruct (ensure_run (r_pe r) (r_pv r) TIndex s1 pe1 pv1 Ep1 Gp1) as (s2 & R2 & A2 & B2 & C2 & D2 & E2). unfold sbind at 1. rewrite R2.
      assert (forall id, dget String.eqb id (s_ents s2) = option_map (acts id (ops r)) (dget String.eqb id (s_ents s))) as E3.
      { intros id. rewrite E2, E1. destruct (dget String.eqb id (s_ents s)); reflexivity. }
      unfold sbind at 1, sget at 1. unfold sent at 1. rewrite (E3 (r_ce r)), Ec. cbn [option_map]. unfold sbind at 1, slift at 1.
      destruct (acts_same (r_ce r) (ops r) ce) as (Tce & _ & _). destruct (acts_same (r_pe r) (ops r) pe) as (Tpe & _ & _).
      rewrite Tce, Tc. unfold sbind at 1, slift at 1. unfold sent at 1. rewrite (E3 (r_pe r)), Ep. cbn [option_map]. unfold sbind at 1, slift at 1.
      rewrite Tpe, Tp. unfold sbind at 1, slift at 1. cbv zeta.
      assert (t_rows (n_tab ce) <> []) as Hne.
      { rewrite H7 in Ec. destruct (dget String.eqb (r_ce r) (s_ents s0)) as [ce0|] eqn:E0; [|discriminate]. cbn in Ec. injection Ec as <-.
        destruct (acts_same (r_ce r) (flat_map ops new) ce0) as (-> & _). apply (Hrows _ _ E0). }
      destruct (t_rows (n_tab ce)) as [|r0 rs0]; [contradiction|]. unfold sbind, sret, sguard, smod, reset_meta. rewrite Ed.
      eexists. split; [reflexivity|]. unfold linked_up, with_meta, with_rels. cbn. assert (~ In r new) as Hn by (intros Hin; apply existsb_rel in Hin; congruence).
      repeat split; try congruence.
      + eapply Permutation_NoDup; [apply Permutation_cons_append|]. constructor; assumption.
      + intros x Hx. apply in_app_or in Hx as [Hx|[<-|[]]]; [apply H6; exact Hx|]. rewrite <- (after_okb s0 new s r); [exact Eo' | unfold linked_up; auto 10].
      + intros id. rewrite E3, H7. rewrite flat_map_app. destruct (dget String.eqb id (s_ents s0)) as [e0|]; [|reflexivity]. cbn [option_map]. f_equal. rewrite acts_app. cbn [flat_map]. rewrite app_nil_r. reflexivity.
    - destruct (relate to_numeric to_datetime r s) as [s' [[]|x]] eqn:Er; [|eauto]. exfalso.
      unfold relate in Er. apply sbind_Ok in Er as (u & s1 & Em & Er). apply make_relationship_Ok in Em as (-> & pe & ce & Ep & Ec & (pv & Gp) & (cv & Gc) & Ei).
      apply sent_In in Ep, Ec. pose proof Ha as (H1 & H2 & H3 & H4 & H5 & H6 & H7).
      apply add_relationship_cases in Er as [(Hin & _)|[(_ & (x & Hx) & _)|(_ & _ & s2 & ce2 & pe2 & d & Hv & _ & Ec2 & Ep2 & Hci & Td & Tp)]].
      + rewrite H4 in Hin. apply H6 in Hin. rewrite (after_okb s0 new s r Ha) in Eo. congruence.
      + discriminate.
      + destruct (vars_only_get' _ _ _ _ Hv Ec2) as (c0 & Ec0 & Qc). destruct (vars_only_get' _ _ _ _ Hv Ep2) as (p0 & Ep0 & Qp).
        assert (n_tab ce2 = n_tab c0 /\ n_index ce2 = n_index c0) as [Q1 Q2] by (rewrite Qc; split; reflexivity). assert (n_tab pe2 = n_tab p0) as Q3 by (rewrite Qp; reflexivity).
        rewrite Q2 in Hci. rewrite Q1 in Td. rewrite Q3 in Tp.
        rewrite Ec in Ec0. injection Ec0 as <-. rewrite Ep in Ep0. injection Ep0 as <-.
        unfold okb in Eo. rewrite Ep, Ec, Gp, Gc, Td, Tp, Ei, String.eqb_refl in Eo. cbn in Eo.
        destruct (String.eqb_spec (n_index ce) (r_cv r)); [contradiction|]. cbn in Eo. destruct (dtype_eqb_spec d d); congruence.
      + intros e Ee. rewrite H7 in Ee. destruct (dget String.eqb (r_ce r) (s_ents s0)) as [ce0|] eqn:E0; [|discriminate]. cbn in Ee. injection Ee as <-.
        destruct (acts_same (r_ce r) (flat_map ops new) ce0) as (-> & _). apply (Hrows _ _ E0).
  Qed.

  Lemma relates_after s0 rs : all_have_rows s0 -> forall new s, linked_up s0 new s ->
    if forallb (okb s0) rs then exists s', siter (relate to_numeric to_datetime) rs s = (s', Ok tt) /\ linked_up s0 (fold_left grow rs new) s'
    else exists s' x, siter (relate to_numeric to_datetime) rs s = (s', Err x).
  Proof.
    intros Hrows. induction rs as [|r rs IH]; intros new s Ha; cbn [forallb siter fold_left].
    - exists s. split; [reflexivity | exact Ha].
    - pose proof (relate_after s0 new s r Hrows Ha) as Hr. destruct (okb s0 r); cbn [andb].
      + destruct Hr as (s1 & Hr & Ha1). specialize (IH _ _ Ha1). unfold sbind. rewrite Hr. exact IH.
      + destruct Hr as (s1 & x & Hr). unfold sbind. rewrite Hr. eauto.
  Qed.

  Lemma grow_In rs : forall new r, In r (fold_left grow rs new) <-> In r new \/ In r rs.
  Proof.
    induction rs as [|x rs IH]; intros new r; cbn [fold_left]; [cbn; tauto|]. rewrite IH. unfold grow. destruct (existsb (rel_eqb x) new) eqn:E.
    - apply existsb_rel in E. cbn. intuition congruence.
    - rewrite in_app_iff. cbn. intuition congruence.
  Qed.

  Lemma ops_agree s0 rs : (forall r, In r rs -> okb s0 r = true) -> forall o1 o2, In o1 (flat_map ops rs) -> In o2 (flat_map ops rs) -> agree o1 o2.
  Proof.
    intros H. assert (forall o, In o (flat_map ops rs) -> exists e, dget String.eqb (o_ent o) (s_ents s0) = Some e /\ (o_type o = TIndex /\ o_var o = n_index e \/ o_type o = TId /\ o_var o <> n_index e)) as Ho.
    { intros o Hin. apply in_flat_map in Hin as (r & Hr & Hin). specialize (H r Hr). unfold okb in H.
      destruct (dget String.eqb (r_pe r) (s_ents s0)) as [pe|] eqn:Ep; [|discriminate]. destruct (dget String.eqb (r_ce r) (s_ents s0)) as [ce|] eqn:Ec; [|discriminate].
      apply andb_prop in H as [H _]. apply andb_prop in H as [H Ei]. apply andb_prop in H as [H Epi]. apply String.eqb_eq in Epi. apply negb_true_iff, String.eqb_neq in Ei.
      destruct Hin as [<-|[<-|[]]]; cbn; [exists ce | exists pe]; split; auto. }
    intros o1 o2 H1 H2 He Hv. destruct (Ho _ H1) as (e1 & E1 & C1), (Ho _ H2) as (e2 & E2 & C2). rewrite He, E2 in E1. injection E1 as ->.
    destruct C1 as [[T1 V1]|[T1 V1]], C2 as [[T2 V2]|[T2 V2]]; congruence.
  Qed.

  Lemma after_same s0 new new' s s' : linked_up s0 new s -> linked_up s0 new' s' -> (forall r, In r new <-> In r new') -> same_set s s'.
  Proof.
    intros (H1 & H2 & H3 & H4 & H5 & H6 & H7) (G1 & G2 & G3 & G4 & G5 & G6 & G7) Hin.
    assert (Permutation new new') as Hp by (apply NoDup_Permutation; assumption).
    unfold same_set. rewrite H4, G4. repeat split; try congruence. intros id. rewrite H7, G7. destruct (dget String.eqb id (s_ents s0)) as [e|]; [|reflexivity]. cbn. f_equal.
    apply acts_perm; [apply Permutation_flat_map; exact Hp | apply (ops_agree s0); exact H6].
  Qed.
End Ops.
