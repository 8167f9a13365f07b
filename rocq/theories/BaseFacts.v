(** Facts about the vocabulary of Base.v. *)
From Verif Require Import Base.

Lemma val_eqb_spec a b : reflect (a = b) (val_eqb a b).
Proof.
  destruct a, b; simpl; try (constructor; congruence).
  - destruct (Z.eqb_spec z z0); constructor; congruence.
  - destruct (Bool.eqb_spec b0 b); constructor; congruence.
  - destruct (String.eqb_spec s s0); constructor; congruence.
Qed.

Lemma val_eqb_refl a : val_eqb a a = true.
Proof. destruct (val_eqb_spec a a); congruence. Qed.

Lemma mem_str_In s l : mem_str s l = true <-> In s l.
Proof.
  unfold mem_str; rewrite existsb_exists; split.
  - intros (x & Hx & He); apply String.eqb_eq in He; congruence.
  - intros H; exists s; split; [exact H | apply String.eqb_refl].
Qed.

Lemma mem_str_nIn s l : mem_str s l = false <-> ~ In s l.
Proof. rewrite <- mem_str_In; destruct (mem_str s l); split; congruence. Qed.

Lemma mem_str_cons x a l : mem_str x (a :: l) = String.eqb x a || mem_str x l.
Proof. reflexivity. Qed.

Lemma mem_val_In v l : mem_val v l = true <-> In v l.
Proof.
  unfold mem_val; rewrite existsb_exists; split.
  - intros (x & Hx & He); destruct (val_eqb_spec v x); congruence.
  - intros H; exists v; split; [exact H | apply val_eqb_refl].
Qed.

Section DictFacts.
  Context {K V : Type} (keqb : K -> K -> bool) (keqb_spec : forall a b, reflect (a = b) (keqb a b)).
  Local Notation dget := (dget (V:=V) keqb).
  Local Notation dset := (dset (V:=V) keqb).

  Lemma dget_dset_same k v d : dget k (dset k v d) = Some v.
  Proof.
    induction d as [|[k' v'] d IH]; simpl.
    - destruct (keqb_spec k k); congruence.
    - destruct (keqb_spec k k') as [->|Hn]; simpl.
      + destruct (keqb_spec k' k'); congruence.
      + destruct (keqb_spec k k'); congruence.
  Qed.

  Lemma dget_dset_other k k' v d : k <> k' -> dget k (dset k' v d) = dget k d.
  Proof.
    intros Hn; induction d as [|[k2 v2] d IH]; simpl.
    - destruct (keqb_spec k k'); congruence.
    - destruct (keqb_spec k' k2) as [->|Hn2]; simpl.
      + destruct (keqb_spec k k2); congruence.
      + destruct (keqb_spec k k2); congruence.
  Qed.

  Lemma dget_In k v d : dget k d = Some v -> In (k, v) d.
  Proof.
    induction d as [|[k' v'] d IH]; simpl; [congruence|].
    destruct (keqb_spec k k') as [->|Hn]; intros H; [left; congruence | right; auto].
  Qed.

  Lemma dget_None k d : dget k d = None <-> ~ In k (map fst d).
  Proof.
    induction d as [|[k' v'] d IH]; simpl; [tauto|].
    destruct (keqb_spec k k') as [->|Hn]; [intuition congruence|].
    rewrite IH; intuition congruence.
  Qed.

  Lemma dget_NoDup_In k v d : NoDup (map fst d) -> In (k, v) d -> dget k d = Some v.
  Proof.
    induction d as [|[k' v'] d IH]; simpl; [tauto|].
    intros Hnd [He|Hin]; inversion Hnd as [|? ? Hni Hnd']; subst.
    - injection He as -> ->. destruct (keqb_spec k k); congruence.
    - destruct (keqb_spec k k') as [->|Hn]; [|auto].
      exfalso; apply Hni; apply (in_map fst) in Hin; exact Hin.
  Qed.

  Lemma dset_keys k v d :
    map fst (dset k v d) = if existsb (keqb k) (map fst d) then map fst d else map fst d ++ [k].
  Proof.
    induction d as [|[k' v'] d IH]; simpl; [reflexivity|].
    destruct (keqb_spec k k') as [->|Hn]; simpl; [reflexivity|].
    rewrite IH; destruct (existsb _ _); reflexivity.
  Qed.

  Lemma dset_NoDup k v d : NoDup (map fst d) -> NoDup (map fst (dset k v d)).
  Proof.
    intros H; rewrite dset_keys.
    destruct (existsb (keqb k) (map fst d)) eqn:E; [exact H|].
    apply (Permutation_NoDup (l := k :: map fst d)).
    - apply Permutation_cons_append.
    - constructor; [|exact H]. intros Hin.
      assert (existsb (keqb k) (map fst d) = true) as E2; [|congruence].
      apply existsb_exists; exists k; split; [exact Hin|]. destruct (keqb_spec k k); congruence.
  Qed.
End DictFacts.

(** Stable sort facts. *)
Section ISortFacts.
  Context {A : Type} (leb : A -> A -> bool).

  Lemma insert_perm a l : Permutation (insert leb a l) (a :: l).
  Proof.
    induction l as [|b l IH]; simpl; [reflexivity|].
    destruct (leb a b); [reflexivity|].
    rewrite IH; apply perm_swap.
  Qed.

  Lemma isort_perm l : Permutation (isort leb l) l.
  Proof.
    induction l as [|a l IH]; simpl; [reflexivity|].
    rewrite insert_perm; constructor; exact IH.
  Qed.

  Hypothesis leb_total : forall a b, leb a b = true \/ leb b a = true.
  Hypothesis leb_trans : forall a b c, leb a b = true -> leb b c = true -> leb a c = true.

  Lemma insert_sorted a l :
    StronglySorted (fun x y => leb x y = true) l ->
    StronglySorted (fun x y => leb x y = true) (insert leb a l).
  Proof.
    induction l as [|b l IH]; simpl; intros H.
    - constructor; constructor.
    - inversion H as [|? ? Hs Hf]; subst.
      destruct (leb a b) eqn:E.
      + constructor; [exact H|]. constructor; [exact E|].
        eapply Forall_impl; [|exact Hf]. intros x Hx; eapply leb_trans; eauto.
      + constructor; [apply IH; exact Hs|].
        assert (leb b a = true) as Hba by (destruct (leb_total a b); congruence).
        eapply Permutation_Forall; [symmetry; apply insert_perm|].
        constructor; assumption.
  Qed.

  Lemma isort_sorted l : StronglySorted (fun x y => leb x y = true) (isort leb l).
  Proof.
    induction l as [|a l IH]; simpl; [constructor|]. apply insert_sorted; exact IH.
  Qed.

End ISortFacts.

Lemma isort_id {A} (leb : A -> A -> bool) l :
  StronglySorted (fun x y => leb x y = true) l -> isort leb l = l.
Proof.
  induction 1 as [|a l Hs IH Hf]; simpl; [reflexivity|].
  rewrite IH. destruct l as [|b l]; simpl; [reflexivity|].
  inversion Hf as [|? ? Hab ?]; subst. rewrite Hab; reflexivity.
Qed.

(** First-occurrence deduplication. *)
Section Dedup.
  Context {A : Type} (eqb : A -> A -> bool) (eqb_spec : forall a b, reflect (a = b) (eqb a b)).

  Lemma existsb_eqb_In a l : existsb (eqb a) l = true <-> In a l.
  Proof.
    rewrite existsb_exists; split.
    - intros (x & Hx & He); destruct (eqb_spec a x); congruence.
    - intros H; exists a; split; [exact H|]. destruct (eqb_spec a a); congruence.
  Qed.

  Lemma existsb_eqb_nIn a l : existsb (eqb a) l = false <-> ~ In a l.
  Proof. rewrite <- existsb_eqb_In; destruct (existsb _ _); split; congruence. Qed.

  Lemma dedup_In seen l a : In a (dedup_by eqb seen l) <-> In a l /\ ~ In a seen.
  Proof.
    revert seen; induction l as [|b l IH]; intros seen; simpl; [tauto|].
    destruct (existsb (eqb b) seen) eqn:E.
    - apply existsb_eqb_In in E. rewrite IH. split; [tauto|].
      intros [[->|H] Hn]; [contradiction | tauto].
    - apply existsb_eqb_nIn in E. simpl. rewrite IH. simpl.
      destruct (eqb_spec a b) as [->|Hn]; [tauto|]. split; intuition congruence.
  Qed.

  Lemma dedup_NoDup seen l : NoDup (dedup_by eqb seen l).
  Proof.
    revert seen; induction l as [|b l IH]; intros seen; simpl; [constructor|].
    destruct (existsb (eqb b) seen); [apply IH|].
    constructor; [|apply IH]. rewrite dedup_In; simpl; tauto.
  Qed.

  Lemma dedup_NoDup_id seen l : NoDup l -> (forall a, In a l -> ~ In a seen) -> dedup_by eqb seen l = l.
  Proof.
    revert seen; induction l as [|b l IH]; intros seen Hnd Hs; simpl; [reflexivity|].
    inversion Hnd as [|? ? Hni Hnd']; subst.
    assert (existsb (eqb b) seen = false) as ->.
    { apply existsb_eqb_nIn; apply Hs; left; reflexivity. }
    f_equal. apply IH; [exact Hnd'|]. intros a Ha [->|Hin]; [contradiction|].
    apply (Hs a); [right; exact Ha | exact Hin].
  Qed.
End Dedup.

Lemma bind_Ok {A B} (x : res A) (f : A -> res B) b :
  bind x f = Ok b -> exists a, x = Ok a /\ f a = Ok b.
Proof. destruct x; simpl; [eauto | congruence]. Qed.

Lemma mapM_Ok_Forall2 {A B} (f : A -> res B) l bs :
  mapM f l = Ok bs <-> Forall2 (fun a b => f a = Ok b) l bs.
Proof.
  revert bs; induction l as [|a l IH]; intros bs; simpl.
  - split; intros H; [injection H as <-; constructor | inversion H; reflexivity].
  - split.
    + intros H. apply bind_Ok in H as (b & Hb & H). apply bind_Ok in H as (bs' & Hbs & H).
      injection H as <-. constructor; [exact Hb | apply IH; exact Hbs].
    + intros H. inversion H as [|? b ? bs' Hb Hbs]; subst.
      rewrite Hb; simpl. apply IH in Hbs. rewrite Hbs; reflexivity.
Qed.
