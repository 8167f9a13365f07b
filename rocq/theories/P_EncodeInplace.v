(** C84: encode_features in place. *)
From Coq Require Import Lia.
From Verif Require Import Base BaseFacts M_Schema M_Feature M_Select M_Encode M_EncodeInplace S_Encode P_Encode P_Select L_Value2.
Local Open Scope string_scope.
Local Open Scope list_scope.

Section Inplace.
  Variable rels : list relationship.
  Variable discrete : feat -> bool.
  Variable vleb : val -> val -> bool.
  Notation encode_one := (encode_one rels discrete vleb).
  Notation encode_features := (encode_features rels discrete vleb).
  Notation encode_call := (encode_call rels discrete vleb).
  Notation encode_go := (encode_go rels discrete vleb).
  Notation names fs := (flat_map (fnames rels) fs).

  Lemma go_foldM top unknown df te fs : forall s, foldM (encode_one top unknown df te) fs s =
    match encode_go top unknown df te s fs with (s', Ok _) => Ok s' | (_, Err e) => Err e end.
  Proof. induction fs as [|f fs IH]; intros s; [reflexivity|]. cbn [foldM M_EncodeInplace.encode_go]. destruct (encode_one top unknown df te s f); cbn [bind]; [apply IH | reflexivity]. Qed.
  Lemma call_result inplace top unknown df te m fs : snd (encode_call inplace top unknown df te m fs) = encode_features top unknown df te m fs.
  Proof.
    unfold encode_call, encode_features. destruct (negb _); [reflexivity|]. cbv zeta. rewrite go_foldM. destruct (encode_go top unknown df te _ fs) as [s [u|e]]; reflexivity.
  Qed.

  Lemma dget_app n (a b : fmatrix) : dget String.eqb n (a ++ b) = match dget String.eqb n a with Some v => Some v | None => dget String.eqb n b end.
  Proof. induction a as [|[k v] a IH]; [reflexivity|]. cbn [app dget]. destruct (String.eqb n k); [reflexivity | exact IH]. Qed.
  Lemma dget_only n k (m : fmatrix) : dget String.eqb n (filter (fun c => String.eqb (fst c) k) m) = if String.eqb n k then dget String.eqb n m else None.
  Proof.
    induction m as [|[x v] m IH]; [destruct (String.eqb n k); reflexivity|]. cbn [filter fst]. destruct (String.eqb_spec x k) as [->|N].
    - cbn [dget]. rewrite IH. destruct (String.eqb n k); reflexivity.
    - rewrite IH. cbn [dget]. destruct (String.eqb_spec n k) as [->|]; [|reflexivity]. destruct (String.eqb_spec k x); [congruence | reflexivity].
  Qed.
  Lemma dget_select n cols (m : fmatrix) : dget String.eqb n (select cols m) = if mem_str n cols then dget String.eqb n m else None.
  Proof.
    unfold select. induction cols as [|k cols IH]; [reflexivity|]. cbn [flat_map]. rewrite dget_app, dget_only, IH. cbn [mem_str existsb]. change (existsb (String.eqb n) cols) with (mem_str n cols).
    destruct (String.eqb_spec n k) as [->|N]; cbn [orb]; [destruct (dget String.eqb k m); [reflexivity | destruct (mem_str k cols); reflexivity] | reflexivity].
  Qed.

  (** every column of the matrix is a new one, one that is passed through, or one of a feature still to come *)
  Lemma keys_fold (l : list val) (name : val -> string) (col : val -> list val) : forall (X : fmatrix) n,
    In n (map fst (fold_left (fun X v => dset String.eqb (name v) (col v) X) l X)) -> In n (map fst X) \/ In n (map name l).
  Proof.
    induction l as [|v l IH]; intros X n H; [left; exact H|]. cbn [fold_left] in H. destruct (IH _ _ H) as [K|K]; [|right; right; exact K].
    rewrite (dset_keys _ String.eqb_spec) in K. destruct (existsb _ _); [left; exact K|]. rewrite in_app_iff in K. destruct K as [K|[<-|[]]]; [left; exact K | right; left; reflexivity].
  Qed.
  Lemma one_keys top unknown df te s f s' : encode_one top unknown df te s f = Ok s' ->
    (forall n, In n (e_cols s) -> In n (e_cols s')) /\ forall n, In n (map fst (e_X s')) -> In n (e_cols s') \/ (In n (map fst (e_X s)) /\ (In n (fnames rels f) -> In n (e_cols s'))).
  Proof.
    unfold encode_one, M_Encode.encode_one. cbv zeta. destruct (not_encoded rels discrete te f) eqn:Ene.
    - intros H. injection H as <-. cbn [e_X e_cols]. split; [intros n Hn; apply in_or_app; left; exact Hn|]. intros n Hn. right. split; [exact Hn|]. intros K. apply in_or_app. right. exact K.
    - intros H. apply bind_Ok in H as (col & Hc & H). apply bind_Ok in H as (k & Hk & H). injection H as <-. cbn [e_X e_cols]. set (u := head k (ordered_values vleb col)).
      split; [intros n Hn; apply in_or_app; left; exact Hn|]. intros n Hn. apply in_map_iff in Hn as ((x & c) & <- & Hn). apply filter_In in Hn as [Hn Hne]. cbn [fst] in *. apply negb_true_iff, String.eqb_neq in Hne.
      apply (in_map fst) in Hn. cbn [fst] in Hn.
      assert (forall y, In y (fnames rels f) -> y = fname rels f) as Ef.
      { unfold not_encoded in Ene. apply orb_false_iff in Ene as [Ene _]. apply orb_false_iff in Ene as [Ene _]. apply PeanoNat.Nat.ltb_ge in Ene. pose proof (fnaming_len rels f) as G. change (snd (fnaming rels f)) with (fnames rels f) in G.
        intros y Hy. destruct (fnout f) as [|[|k']] eqn:Eo; [destruct (fnames rels f); [destruct Hy | discriminate] | rewrite (single_names rels f Eo) in Hy; destruct Hy as [<-|[]]; reflexivity | lia]. }
      assert (forall y, In y (map fst (fold_left (fun X l => dset String.eqb (fname rels (f_equals f l)) (map (fun v => VBool (negb (is_null v) && val_eqb v l)) col) X) u (e_X s))) ->
              In y (map fst (e_X s)) \/ In y (map (fun l => fname rels (f_equals f l)) u)) as Hf by (intros y Hy; apply (keys_fold u (fun l => fname rels (f_equals f l)) (fun l => map (fun v => VBool (negb (is_null v) && val_eqb v l)) col)); exact Hy).
      destruct unknown.
      + rewrite (dset_keys _ String.eqb_spec) in Hn. destruct (existsb _ _) in Hn.
        * apply Hf in Hn as [Hn|Hn]; [right; split; [exact Hn|]; intros K; apply Ef in K; congruence | left; apply in_or_app; right; apply in_or_app; left; exact Hn].
        * apply in_app_iff in Hn as [Hn|[<-|[]]]; [|left; apply in_or_app; right; apply in_or_app; right; left; reflexivity].
          apply Hf in Hn as [Hn|Hn]; [right; split; [exact Hn|]; intros K; apply Ef in K; congruence | left; apply in_or_app; right; apply in_or_app; left; exact Hn].
      + apply Hf in Hn as [Hn|Hn]; [right; split; [exact Hn|]; intros K; apply Ef in K; congruence | left; apply in_or_app; right; apply in_or_app; left; exact Hn].
  Qed.
  Lemma go_keys top unknown df te (pass : list string) fs : forall s s', encode_go top unknown df te s fs = (s', Ok tt) ->
    (forall n, In n (map fst (e_X s)) -> In n (e_cols s) \/ In n pass \/ In n (names fs)) -> forall n, In n (map fst (e_X s')) -> In n (e_cols s') \/ In n pass.
  Proof.
    induction fs as [|f fs IH]; intros s s' H Hi n Hn.
    - injection H as <-. destruct (Hi n Hn) as [K|[K|[]]]; [left | right]; exact K.
    - cbn [M_EncodeInplace.encode_go] in H. destruct (encode_one top unknown df te s f) as [s1|e] eqn:E1; [|discriminate]. destruct (one_keys _ _ _ _ _ _ _ E1) as [Hc Hk].
      apply (IH s1 s' H); [|exact Hn]. intros y Hy. destruct (Hk y Hy) as [K|[K K']]; [left; exact K|]. destruct (Hi y K) as [L|[L|L]]; [left; apply Hc; exact L | right; left; exact L|].
      cbn [flat_map] in L. apply in_app_iff in L as [L|L]; [left; apply K'; exact L | right; right; exact L].
  Qed.

  (** *** The result does not depend on [inplace].  Without it the caller's matrix is left alone. *)
  Theorem C84_copy inplace top unknown df te m fs :
    snd (encode_call inplace top unknown df te m fs) = encode_features top unknown df te m fs /\
    fst (encode_call false top unknown df te m fs) = m.
  Proof.
    split; [apply call_result|]. unfold encode_call. destruct (negb _); [reflexivity|]. cbv zeta. destruct (encode_go top unknown df te _ fs) as [s r]. reflexivity.
  Qed.

  (** *** With it, after a call that succeeds, the caller's matrix has the columns of the result, under the same names. *)
  Theorem C84_inplace_partial top unknown df te m fs res : encode_features top unknown df te m fs = Ok res ->
    forall n, dget String.eqb n (fst (encode_call true top unknown df te m fs)) = dget String.eqb n (fst res).
  Proof.
    intros H n. rewrite <- (call_result true) in H. revert H. unfold encode_call. destruct (negb _); [discriminate|]. cbv zeta. set (pass := filter _ (map fst m)).
    destruct (encode_go top unknown df te (mkEnc m [] []) fs) as [s [[]|e]] eqn:Eg; cbn [fst snd bind]; [|discriminate].
    destruct (forallb _ _) eqn:Ef; [|discriminate]. intros H. injection H as <-. cbn [fst]. rewrite dget_select. destruct (mem_str n (e_cols s ++ pass)) eqn:Em; [reflexivity|].
    apply (dget_None _ String.eqb_spec). intros Hn. assert (In n (e_cols s ++ pass)) as K.
    { apply in_or_app. apply (go_keys top unknown df te pass fs _ _ Eg); [|exact Hn]. cbn [e_X e_cols]. intros y Hy. right. destruct (mem_str y (names fs)) eqn:Ey.
      - right. unfold mem_str in Ey. apply existsb_exists in Ey as (z & Hz & Ez). apply String.eqb_eq in Ez as ->. exact Hz.
      - left. apply filter_In. split; [exact Hy|]. rewrite Ey. reflexivity. }
    assert (mem_str n (e_cols s ++ pass) = true) as T; [|congruence]. unfold mem_str. apply existsb_exists. exists n. split; [exact K | apply String.eqb_refl].
  Qed.
  (** *** So a second call with the old features fails, once a feature has lost its column. *)
  Theorem C84_again top unknown df te m fs res f n inplace top' unknown' df' te' : encode_features top unknown df te m fs = Ok res ->
    In f fs -> In n (fnames rels f) -> ~ In n (map fst (fst res)) ->
    encode_call inplace top' unknown' df' te' (fst (encode_call true top unknown df te m fs)) fs = (fst (encode_call true top unknown df te m fs), Err AssertionError).
  Proof.
    intros H Hf Hn Hno. pose proof (C84_inplace_partial _ _ _ _ _ _ _ H n) as E. apply (dget_None _ String.eqb_spec) in Hno. rewrite Hno in E. apply (dget_None _ String.eqb_spec) in E.
    generalize dependent (fst (encode_call true top unknown df te m fs)). intros X E. unfold encode_call at 1. destruct (forallb (fun n0 => mem_str n0 (map fst X)) (names fs)) eqn:Ea; [|reflexivity].
    exfalso. apply E. rewrite forallb_forall in Ea. assert (In n (names fs)) as Hin by (apply in_flat_map; exists f; split; assumption). specialize (Ea n Hin). unfold mem_str in Ea. apply existsb_exists in Ea as (z & Hz & Ez).
    apply String.eqb_eq in Ez as ->. exact Hz.
  Qed.
End Inplace.

(** *** The columns are in another order, and a call that fails leaves the caller's matrix half encoded. *)
Theorem C84_inplace_refuted : exists m fs res, encode_features [] (fun _ => true) enc_leb (TopInt 10) true false (Some ["a"]) m fs = Ok res /\
  map fst (fst (encode_call [] (fun _ => true) enc_leb true (TopInt 10) true false (Some ["a"]) m fs)) <> map fst (fst res).
Proof.
  exists [("a", [VStr "x"; VNull]); ("b", [VNum 1; VNum 2])], [enc_a; FIdent "t" "b" None]. eexists. split; [vm_compute; reflexivity|]. vm_compute. discriminate.
Qed.
Theorem C84_failed_refuted : let call := encode_call [] (fun _ => true) enc_leb true (TopInt 10) true false None [("a", [VStr "x"; VNull])] [enc_a; enc_a] in
  snd call = Err KeyError /\ map fst (fst call) = ["a = x"; "a is unknown"].
Proof. vm_compute. split; reflexivity. Qed.
Example C84_nonvacuous : exists res, encode_features [] (fun _ => true) enc_leb (TopInt 10) true false None [("a", [VStr "x"; VNull])] [enc_a] = Ok res /\ ~ In "a" (map fst (fst res)) /\ In "a" (fnames [] enc_a).
Proof. eexists. split; [vm_compute; reflexivity|]. split; [vm_compute; intuition discriminate | vm_compute; left; reflexivity]. Qed.
Print Assumptions C84_copy.
Print Assumptions C84_inplace_partial.
Print Assumptions C84_again.
Print Assumptions C84_inplace_refuted.
Print Assumptions C84_failed_refuted.
