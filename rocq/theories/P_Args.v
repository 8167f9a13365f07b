(** C39: the dictionary variable_types given to entity_from_dataframe is not changed. *)
From Coq Require Import Lia.
From Verif Require Import Base BaseFacts M_Entities M_Args.
Open Scope string_scope.
Import ListNotations.

Lemma load_alloc_old h d x : x < List.length h -> load (fst (alloc h d)) x = load h x.
Proof. intros H. unfold load, alloc. cbn [fst]. apply app_nth1. exact H. Qed.
Lemma load_alloc_new h d : load (fst (alloc h d)) (List.length h) = d.
Proof. unfold load, alloc. cbn [fst]. rewrite app_nth2 by lia. rewrite Nat.sub_diag. reflexivity. Qed.
Lemma write_length h a d : List.length (write h a d) = List.length h.
Proof. revert a. induction h as [|x h IH]; intros [|a]; cbn; congruence. Qed.
Lemma load_write_other h a d x : x <> a -> load (write h a d) x = load h x.
Proof.
  unfold load. revert a x. induction h as [|y h IH]; intros [|a] [|x] H; cbn; try reflexivity; try congruence. apply IH. congruence.
Qed.
Lemma load_write_same h a d : a < List.length h -> load (write h a d) a = d.
Proof. unfold load. revert a. induction h as [|y h IH]; intros [|a] H; cbn in *; try lia; [reflexivity|]. apply IH. lia. Qed.
Lemma alloc_length h d : List.length (fst (alloc h d)) = S (List.length h).
Proof. cbn. rewrite app_length. cbn. lia. Qed.

Section C39.
  Variable resolve : vtype -> vtype.

  Lemma resolve_fold b vids : forall h, List.length (fold_left (resolve_one resolve b) vids h) = List.length h /\
    (forall x, x <> b -> load (fold_left (resolve_one resolve b) vids h) x = load h x).
  Proof.
    induction vids as [|v vids IH]; intros h; [split; reflexivity|]. cbn [fold_left].
    destruct (IH (resolve_one resolve b h v)) as [H1 H2].
    assert (List.length (resolve_one resolve b h v) = List.length h) as E by (unfold resolve_one; destruct (dget String.eqb v (load h b)); [apply write_length | reflexivity]).
    split; [congruence|]. intros x Hx. rewrite H2 by exact Hx. unfold resolve_one. destruct (dget String.eqb v (load h b)); [apply load_write_other; exact Hx | reflexivity].
  Qed.

  Lemma resolve_keys b vids : forall h, b < List.length h -> map fst (load (fold_left (resolve_one resolve b) vids h) b) = map fst (load h b).
  Proof.
    induction vids as [|v vids IH]; intros h Hb; [reflexivity|]. cbn [fold_left].
    assert (List.length (resolve_one resolve b h v) = List.length h) as E by (unfold resolve_one; destruct (dget String.eqb v (load h b)); [apply write_length | reflexivity]).
    rewrite IH by lia. unfold resolve_one. destruct (dget String.eqb v (load h b)) as [ty|] eqn:Ed; [|reflexivity]. rewrite load_write_same by exact Hb.
    revert Ed. generalize (load h b). induction v0 as [|[k w] l IHl]; cbn; [discriminate|]. destruct (String.eqb_spec v k) as [->|]; intros Ed; cbn; [reflexivity|]. f_equal. apply IHl. exact Ed.
  Qed.

  (** *** Whatever dictionary is given, every dictionary of the caller, that one included, is the same after the call; and
      the one that is used names the same columns, and the index. *)
  Theorem C39_types h arg index h' b : types_used resolve h arg index = (h', b) ->
    (forall a, a < List.length h -> load h' a = load h a) /\ List.length h <= b /\
    (forall a c, arg = Some a -> In c (map fst (load h' b)) <-> In c (map fst (load h a)) \/ c = index).
  Proof.
    unfold types_used. destruct (given_types h arg) as [h1 a1] eqn:E1.
    assert ((forall a, a < List.length h -> load h1 a = load h a) /\ List.length h <= List.length h1 /\ (forall a, arg = Some a -> load h1 a1 = load h a)) as (K1 & L1 & G1).
    { unfold given_types, or_empty in E1. destruct arg as [a|].
      - destruct (load h a) eqn:El; injection E1 as <- <-.
        + split; [intros x Hx; apply (load_alloc_old h []); exact Hx|]. split; [rewrite app_length; lia|]. intros x Hx. injection Hx as <-. rewrite El. apply (load_alloc_new h []).
        + split; [reflexivity|]. split; [lia|]. intros x Hx. injection Hx as <-. reflexivity.
      - injection E1 as <- <-. split; [intros x Hx; apply (load_alloc_old h []); exact Hx|]. split; [rewrite app_length; lia | discriminate]. }
    clear E1. unfold local_types. destruct (alloc h1 (load h1 a1)) as [h2 b2] eqn:E2. unfold alloc in E2. injection E2 as <- <-.
    set (h2 := (h1 ++ [load h1 a1])%list).
    assert (forall a, a < List.length h -> load h2 a = load h a) as K2 by (intros a Ha; rewrite <- K1 by exact Ha; apply (load_alloc_old h1 (load h1 a1)); lia).
    assert (load h2 (List.length h1) = load h1 a1) as G2 by apply (load_alloc_new h1).
    assert (List.length h2 = S (List.length h1)) as L2 by (unfold h2; rewrite app_length; cbn; lia).
    destruct (or_empty h2 (List.length h1)) as [h3 b3] eqn:E3.
    assert ((forall a, a < List.length h -> load h3 a = load h a) /\ List.length h <= b3 /\ b3 < List.length h3 /\ load h3 b3 = load h1 a1) as (K3 & L3 & L3' & G3).
    { unfold or_empty in E3. destruct (load h2 (List.length h1)) as [|x l] eqn:El; injection E3 as <- <-.
      - split; [intros a Ha; rewrite <- K2 by exact Ha; apply (load_alloc_old h2 []); lia|]. split; [lia|]. split; [rewrite app_length; cbn; lia|].
        rewrite <- G2. apply (load_alloc_new h2 []).
      - repeat split; try assumption; try lia. congruence. }
    clear E3. unfold resolve_types. destruct (resolve_fold b3 (map fst (load h3 b3)) h3) as [L4 K4]. pose proof (resolve_keys b3 (map fst (load h3 b3)) h3 L3') as G4.
    set (h4 := fold_left (resolve_one resolve b3) (map fst (load h3 b3)) h3) in *.
    assert (forall a c, arg = Some a -> In c (map fst (load h4 b3)) <-> In c (map fst (load h a))) as G5 by (intros a c Ha; rewrite G4, G3, (G1 a Ha); reflexivity).
    destruct (mem_str index (map fst (load h4 b3))) eqn:Em; intros H; injection H as <- <-.
    - split; [intros a Ha; rewrite K4 by lia; apply K3; exact Ha|]. split; [exact L3|]. intros a c Ha. rewrite (G5 a c Ha). split; [tauto|]. intros [Hc| ->]; [exact Hc|].
      apply mem_str_In in Em. apply (G5 a index Ha). exact Em.
    - split; [intros a Ha; rewrite load_write_other by lia; rewrite K4 by lia; apply K3; exact Ha|]. split; [exact L3|]. intros a c Ha.
      rewrite load_write_same by lia. rewrite map_app, in_app_iff. rewrite (G5 a c Ha). cbn. intuition congruence.
  Qed.
End C39.

(** a dictionary without the index, given twice *)
Example C39_types_nonvacuous : let h := [[("x", TNumeric)]] in
  types_used (fun ty => ty) h (Some 0) "id" = ([[("x", TNumeric)]; [("x", TNumeric); ("id", TIndex)]], 1) /\
  types_used (fun ty => ty) (fst (types_used (fun ty => ty) h (Some 0) "id")) (Some 0) "key" =
    ([[("x", TNumeric)]; [("x", TNumeric); ("id", TIndex)]; [("x", TNumeric); ("key", TIndex)]], 2).
Proof. split; reflexivity. Qed.
Print Assumptions C39_types.
