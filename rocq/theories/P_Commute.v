(** C87: primitives marked as commutative. *)
From Coq Require Import Lia Permutation.
From Verif Require Import Base BaseFacts M_Schema M_Feature M_Types M_Match M_Prims M_Expr M_Commute S_Match P_Match.
Local Open Scope list_scope.

Lemma swap_columns (g : val -> val -> val) : (forall x y, g x y = g y x) -> forall a b, map (fun xy => g (fst xy) (snd xy)) (combine a b) = map (fun xy => g (fst xy) (snd xy)) (combine b a).
Proof. intros H a. induction a as [|x a IH]; intros [|y b]; [reflexivity | reflexivity | reflexivity|]. cbn [combine map fst snd]. rewrite H, IH. reflexivity. Qed.
Lemma binary_swap cls op g : (forall x y, g x y = g y x) -> forall T a b, p_trans (binary cls op g) T [a; b] = p_trans (binary cls op g) T [b; a].
Proof. intros H T a b. cbn [p_trans binary]. apply (f_equal (fun c : list val => [c])). apply swap_columns. exact H. Qed.
Lemma arith_swap f : (forall x y, f x y = f y x) -> forall a b, arith f a b = arith f b a.
Proof. intros H a b. unfold arith. destruct (as_num a), (as_num b); try reflexivity. rewrite H. reflexivity. Qed.
Lemma cell_eq_swap a b : cell_eq a b = cell_eq b a.
Proof.
  destruct a as [|z|[]|s], b as [|z'|[]|s']; cbn [cell_eq as_num]; first [reflexivity | apply Z.eqb_sym | apply String.eqb_sym].
Qed.

(** *** A primitive marked as commutative, other than SubtractNumeric, gives the same values when its columns are swapped. *)
Theorem C87_commutative_partial p : In (p, true) standard_binary -> p_name p <> "SubtractNumeric"%string ->
  forall T a b, p_trans p T [a; b] = p_trans p T [b; a].
Proof.
  intros H Hn T a b. unfold standard_binary in H. cbn [In] in H.
  repeat (destruct H as [H|H]; [first [discriminate H | injection H as <-] |]); [| | | exfalso; apply Hn; reflexivity | | | | | destruct H];
    try (refine (binary_swap _ _ _ _ T a b); intros x y).
  - rewrite cell_eq_swap. reflexivity.
  - rewrite cell_eq_swap. reflexivity.
  - apply arith_swap. intros; lia.
  - apply arith_swap. intros; lia.
  - destruct x, y; try reflexivity. rewrite andb_comm. reflexivity.
  - rewrite andb_comm. reflexivity.
  - rewrite orb_comm. reflexivity.
Qed.
(** *** SubtractNumeric is marked too.  Swapped columns give the opposite values. *)
Theorem C87_subtract_refuted : In (SubtractNumeric, true) standard_binary /\
  (exists a b, p_trans SubtractNumeric None [a; b] <> p_trans SubtractNumeric None [b; a]) /\
  forall T a b, p_trans SubtractNumeric T [a; b] = p_trans Negate T (p_trans SubtractNumeric T [b; a]).
Proof.
  split; [cbn; tauto|]. split; [exists [VNum 1], [VNum 2]; vm_compute; discriminate|]. intros T a b. cbn [p_trans SubtractNumeric Negate binary unary hd]. f_equal.
  revert b. induction a as [|x a IH]; intros [|y b]; [reflexivity | reflexivity | reflexivity|]. cbn [combine map fst snd]. rewrite IH. f_equal.
  unfold arith. destruct (as_num x), (as_num y); cbn [as_num]; try reflexivity. f_equal. lia.
Qed.
(** *** A primitive that is not marked gives other values for some columns: both orders are worth having. *)
Theorem C87_not_commutative p : In (p, false) standard_binary -> exists a b, p_trans p None [a; b] <> p_trans p None [b; a].
Proof.
  intros H. exists [VNum 2; VNum 3], [VNum 3; VNum 2]. unfold standard_binary in H. cbn [In] in H.
  repeat (destruct H as [H|H]; [first [discriminate H | injection H as <-; vm_compute; discriminate] |]). destruct H.
Qed.
(** *** So deep feature synthesis loses nothing by making one feature for each pair of inputs: for every ordered pair that matches, a pair is
    chosen on which a primitive marked as commutative (other than SubtractNumeric) has the same values. *)
Theorem C87_kept_partial rels p_ret vtypes lower ordF e fs ts p : (forall l, Permutation (ordF l) l) ->
  In (p, true) standard_binary -> p_name p <> "SubtractNumeric"%string -> List.length ts = 2 -> NoDup fs -> (forall f, In f fs -> fentity f = e) ->
  (forall f g, In f fs -> In g fs -> fname rels f = fname rels g -> f = g) ->
  exists plain kept, match_inputs rels p_ret vtypes lower ordF ts fs false false = Ok plain /\ match_inputs rels p_ret vtypes lower ordF ts fs true false = Ok kept /\
    forall m, In m plain -> exists m', In m' kept /\ Permutation m' m /\ forall T (column : feat -> list val), p_trans p T (map column m') = p_trans p T (map column m).
Proof.
  intros Ho Hp Hs Hl Hn He Hm. destruct (C30_match_exact rels p_ret vtypes lower ordF e fs ts false) as (plain & E1 & _ & H1); [intros ->; discriminate | exact Hn | exact He | exact Hm|].
  destruct (C30_commutative rels p_ret vtypes lower ordF Ho e fs ts false) as (kept & E2 & _ & _ & H2 & _); [lia | exact Hn | exact He | exact Hm|].
  exists plain, kept. split; [exact E1|]. split; [exact E2|]. intros m Hin. apply H1 in Hin as [Hc _]. destruct (H2 m Hc) as (m' & Hm' & Hperm & _); [discriminate|]. exists m'. split; [exact Hm'|]. split; [exact Hperm|].
  assert (List.length m = 2) as Lm. { destruct Hc as (_ & _ & Hc). rewrite <- Hl. clear -Hc. induction Hc; cbn; congruence. }
  destruct m as [|f [|g [|]]]; try discriminate. apply Permutation_sym, Permutation_length_2_inv in Hperm as [-> | ->]; intros T column; [reflexivity|]. cbn [map]. apply C87_commutative_partial; assumption.
Qed.
Example C87_nonvacuous : In (AddNumeric, true) standard_binary /\ p_name AddNumeric <> "SubtractNumeric"%string /\
  match_inputs [] (fun _ => None) my_types (fun s => s) (fun l => l) [YNumeric; YNumeric] my_pool true false = Ok [[i_n1; i_n2]; [i_n1; i_z]; [i_n2; i_z]] /\
  p_trans AddNumeric None [[VNum 1; VNull]; [VNum 2; VNum 3]] = [[VNum 3; VNull]].
Proof. split; [cbn; tauto|]. split; [discriminate|]. split; vm_compute; reflexivity. Qed.
Print Assumptions C87_commutative_partial.
Print Assumptions C87_subtract_refuted.
Print Assumptions C87_not_commutative.
Print Assumptions C87_kept_partial.
