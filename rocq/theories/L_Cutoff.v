(** Proofs about the validation of the cutoff frame. *)
From Verif Require Import Base BaseFacts M_Schema M_Table M_Query M_Calc L_Frame M_CFM S_CFM L_CFM.

Lemma Forall2_comp {A B C} (R : A -> B -> Prop) (S : B -> C -> Prop) l1 l2 l3 :
  Forall2 R l1 l2 -> Forall2 S l2 l3 -> Forall2 (fun a c => exists b, R a b /\ S b c) l1 l3.
Proof. apply Forall2_trans'. eauto. Qed.

Lemma rename_cell a b c (r : row) : a <> b -> ~ In b (map fst r) ->
  cell c (map (fun cv => (if String.eqb (fst cv) a then b else fst cv, snd cv)) r)
  = if String.eqb c b then cell a r else if String.eqb c a then VNull else cell c r.
Proof.
  intros Hab Hb. unfold cell. induction r as [|[k v] r IH]; cbn [map dget fst snd].
  - destruct (String.eqb c b), (String.eqb c a); reflexivity.
  - cbn [map fst] in Hb. assert (k <> b) as Hkb by (intros ->; apply Hb; left; reflexivity).
    destruct (String.eqb_spec k a) as [->|Hka].
    + rewrite String.eqb_refl. destruct (String.eqb_spec c b) as [->|Hcb]; [reflexivity|].
      rewrite IH by (intros H; apply Hb; right; exact H). destruct (String.eqb_spec c a) as [->|Hca]; reflexivity.
    + destruct (String.eqb_spec c k) as [->|Hck].
      * destruct (String.eqb_spec k b); [contradiction|]. destruct (String.eqb_spec k a); [contradiction|]. reflexivity.
      * destruct (String.eqb_spec a k) as [->|_]; [contradiction|]. apply IH. intros H; apply Hb; right; exact H.
Qed.

Lemma rename_cols a b d x : In x (cols (rename_col a b d)) <-> (In x (cols d) /\ x <> a) \/ (x = b /\ In a (cols d)).
Proof.
  cbn [rename_col cols]. rewrite in_map_iff. split.
  - intros (y & E & Hy). destruct (String.eqb_spec y a) as [Hd|Hd]; [right; subst; auto | left; subst; auto].
  - intros [[H1 H2]|[-> H]]; [exists x | exists a]; (split; [|assumption]).
    + destruct (String.eqb_spec x a); [contradiction | reflexivity].
    + rewrite String.eqb_refl. reflexivity.
Qed.

Lemma rename_wf a b d : wf_df d -> ~ In b (cols d) -> wf_df (rename_col a b d).
Proof.
  intros [H1 H2] Hb. split.
  - cbn [rename_col cols]. clear H2. induction H1 as [|x l Hx Hl IH]; cbn [map]; [constructor|].
    assert (~ In b l) as Hbl by (intros H; apply Hb; right; exact H). constructor; [|apply IH; exact Hbl].
    intros Hin. apply in_map_iff in Hin as (y & E & Hy). destruct (String.eqb_spec y a) as [Hya|Hya], (String.eqb_spec x a) as [Hxa|Hxa].
    + congruence.
    + apply Hb. left. congruence.
    + apply Hbl. congruence.
    + congruence.
  - intros r Hr. cbn [rename_col rows cols] in *. apply in_map_iff in Hr as (r0 & <- & Hr0). rewrite <- (H2 r0 Hr0), !map_map. reflexivity.
Qed.

Lemma rename_rows a b d : a <> b -> wf_df d -> ~ In b (cols d) ->
  Forall2 (fun r r' => forall c, cell c r' = if String.eqb c b then cell a r else if String.eqb c a then VNull else cell c r)
    (rows d) (rows (rename_col a b d)).
Proof.
  intros Hab [_ Hw] Hb. cbn [rename_col rows]. assert (forall r, In r (rows d) -> ~ In b (map fst r)) as Hb' by (intros r Hr; rewrite (Hw r Hr); exact Hb).
  clear Hw Hb. induction (rows d) as [|r l IH]; cbn [map]; constructor.
  - intros c. apply rename_cell; [exact Hab | apply Hb'; left; reflexivity].
  - apply IH. intros; apply Hb'; right; assumption.
Qed.

Lemma pair_eqb_spec (a b : val * val) : reflect (a = b) (val_eqb (fst a) (fst b) && val_eqb (snd a) (snd b)).
Proof. destruct a, b; cbn. destruct (val_eqb_spec v v1), (val_eqb_spec v0 v2); cbn; constructor; congruence. Qed.

(** renaming one accepted column name to its standard name *)
Definition std (names : list string) (name c : string) (d d' : df) : Prop :=
  (forall x, In x (cols d') <-> (In x (cols d) /\ x <> c) \/ x = name) /\
  Forall2 (fun r r' => cell name r' = cell c r /\ forall x, x <> c -> x <> name -> cell x r' = cell x r) (rows d) (rows d').

Lemma rename_std names a b d : In a (cols d) -> ~ In b (cols d) -> a <> b -> wf_df d -> std names b a d (rename_col a b d) /\ wf_df (rename_col a b d).
Proof.
  intros Ha Hb Hab Hw. split; [|apply rename_wf; assumption]. split.
  - intros x. rewrite rename_cols. intuition.
  - eapply Forall2_impl; [|apply rename_rows; assumption]. intros r r' _ _ H. split.
    + rewrite H, String.eqb_refl. reflexivity.
    + intros x H1 H2. rewrite H. destruct (String.eqb_spec x b); [contradiction|]. destruct (String.eqb_spec x a); [contradiction | reflexivity].
Qed.

Lemma keep_std names b d : In b (cols d) -> std names b b d d.
Proof.
  intros Hb. split.
  - intros x. split; [|intros [[H _]| ->]; auto]. intros H. destruct (String.string_dec x b); auto.
  - induction (rows d); constructor; auto.
Qed.

Section Validate.
  Variables (index : string) (ti : option string).
  Hypothesis Hix : index <> "time"%string.
  Hypothesis Hti : ti <> Some "instance_id"%string.
  Hypothesis Hne : ti <> Some index.

  Local Open Scope string_scope.

  Lemma validate_spec d d' : wf_df d -> validate_cutoff index ti d = Ok d' ->
    exists ic tc, only_column ["instance_id"; index] d ic /\ only_column (time_names ti) d tc /\ renamed_rows ic tc d d' /\
      NoDup (map (fun r => (cell ic r, cell tc r)) (rows d)).
  Proof.
    intros Hw H. unfold validate_cutoff in H. apply bind_Ok in H as (d1 & H1 & H). apply bind_Ok in H as (d2 & H2 & H).
    destruct (mem_str "instance_id" (cols d2) && mem_str index (cols d2) && negb (String.eqb "instance_id" index)) eqn:E1; [discriminate|].
    destruct (match ti with Some ti => mem_str "time" (cols d2) && mem_str ti (cols d2) && negb (String.eqb "time" ti) | None => false end) eqn:E2; [discriminate|].
    apply bind_Ok in H as ([] & H3 & H). apply bind_Ok in H as ([] & H4 & H).
    destruct (distinct_by _ _) eqn:E3; [|discriminate]. injection H as <-. apply (distinct_by_spec _ pair_eqb_spec) in E3.
    unfold check_col in H3, H4. destruct (mem_str "instance_id" (cols d2)) eqn:M3; [|discriminate]. destruct (mem_str "time" (cols d2)) eqn:M4; [|discriminate].
    apply mem_str_In in M3, M4. clear H3 H4. cbn [andb] in E1.
    assert (exists ic, In ic (cols d) /\ (ic = "instance_id" \/ (ic = index /\ ~ In "instance_id" (cols d))) /\ std [] "instance_id" ic d d1 /\ wf_df d1) as (ic & Hic & Hic' & S1 & W1).
    { destruct (mem_str "instance_id" (cols d)) eqn:M; [|destruct (mem_str index (cols d)) eqn:M'; [|discriminate]]; cbn [negb] in H1; injection H1 as <-.
      - apply mem_str_In in M. exists "instance_id". split; [exact M|]. split; [left; reflexivity|]. split; [apply keep_std; exact M | exact Hw].
      - apply mem_str_nIn in M. apply mem_str_In in M'. exists index. split; [exact M'|]. split; [right; auto|]. apply rename_std; auto. intros ->; contradiction. }
    assert (exists tc, In tc (cols d1) /\ (tc = "time" \/ (ti = Some tc /\ ~ In "time" (cols d1))) /\ std [] "time" tc d1 d2) as (tc & Htc & Htc' & S2).
    { destruct (mem_str "time" (cols d1)) eqn:M.
      - injection H2 as <-. apply mem_str_In in M. exists "time". split; [exact M|]. split; [left; reflexivity|]. apply keep_std; exact M.
      - destruct ti as [t|]; [destruct (mem_str t (cols d1)) eqn:M'; [|discriminate]|]; cbn [negb] in H2; injection H2 as <-.
        + apply mem_str_nIn in M. apply mem_str_In in M'. exists t. split; [exact M'|]. split; [right; auto|]. apply rename_std; auto. intros ->; contradiction.
        + apply mem_str_nIn in M. contradiction. }
    destruct S1 as [C1 R1]. destruct S2 as [C2 R2].
    assert (ic <> "time") as Hict by (destruct Hic' as [->|[-> _]]; [discriminate | exact Hix]).
    assert (tc <> "instance_id") as Htci by (destruct Htc' as [->|[E _]]; [discriminate | congruence]).
    assert (tc <> ic) as Htcic.
    { intros ->. destruct Htc' as [E|[E Ht]]; [congruence|]. destruct Hic' as [->|[-> _]]; congruence. }
    assert (In tc (cols d)) as Htcd by (apply C1 in Htc; destruct Htc as [[H _]| ->]; [exact H | congruence]).
    assert (forall x, x <> ic -> x <> "instance_id" -> (In x (cols d1) <-> In x (cols d))) as Hoth1 by (intros x Hx1 Hx2; rewrite C1; tauto).
    exists ic, tc. split; [|split; [|split]].
    - split; [exact Hic|]. split; [destruct Hic' as [->|[-> _]]; cbn; auto|]. intros c' Hc' [<-|[<-|[]]].
      + destruct Hic' as [->|[_ Hn]]; [reflexivity | contradiction].
      + destruct Hic' as [->|[-> _]]; [|reflexivity]. destruct (String.string_dec index "instance_id") as [E|E]; [exact E|]. exfalso.
        assert (In index (cols d2)) as Hi2.
        { apply C2. left. split; [apply Hoth1; [congruence | exact E | exact Hc']|]. intros ->. destruct Htc' as [Et|[Et _]]; [contradiction | congruence]. }
        apply mem_str_In in Hi2. rewrite Hi2 in E1. cbn [andb] in E1. destruct (String.eqb_spec "instance_id" index); [congruence | discriminate].
    - split; [exact Htcd|]. split; [unfold time_names; destruct Htc' as [->|[-> _]]; cbn; auto|]. intros c' Hc' Hn. unfold time_names in Hn. destruct Hn as [<-|Hn].
      + destruct Htc' as [->|[_ Hn]]; [reflexivity|]. exfalso. apply Hn. apply Hoth1; [congruence | discriminate | exact Hc'].
      + destruct ti as [t|] eqn:Eti; [|destruct Hn]. destruct Hn as [<-|[]]. destruct Htc' as [->|[E _]]; [|congruence].
        destruct (String.string_dec t "time") as [E|E]; [exact E|]. exfalso.
        assert (In t (cols d2)) as Ht2.
        { apply C2. left. split; [|exact E]. apply Hoth1; [|congruence | exact Hc']. intros ->. destruct Hic' as [Ei|[Ei _]]; congruence. }
        apply mem_str_In in Ht2. rewrite Ht2 in E2. cbn [andb] in E2. destruct (String.eqb_spec "time" t); [congruence | discriminate].
    - unfold renamed_rows. eapply Forall2_impl; [|eapply Forall2_comp; [exact R1 | exact R2]].
      intros r r2 _ _ (r1 & [A1 A2] & [B1 B2]). split; [|split].
      + rewrite B2; [exact A1 | congruence | discriminate].
      + rewrite B1. apply A2; congruence.
      + intros c Hc. cbn in Hc. rewrite B2, A2; [reflexivity | intros ->; tauto ..].
    - assert (map (fun r => (cell ic r, cell tc r)) (rows d) = map (fun r => (cell "instance_id" r, cell "time" r)) (rows d2)) as ->; [|exact E3].
      apply Forall2_map_eq. eapply Forall2_impl; [|eapply Forall2_comp; [exact R1 | exact R2]].
      intros r r2 _ _ (r1 & [A1 A2] & [B1 B2]). f_equal; [rewrite B2 by (congruence || discriminate); symmetry; exact A1 | rewrite B1; symmetry; apply A2; congruence].
  Qed.

  Lemma validate_accepts d ic tc : wf_df d -> only_column ["instance_id"; index] d ic -> only_column (time_names ti) d tc ->
    NoDup (map (fun r => (cell ic r, cell tc r)) (rows d)) -> exists d', validate_cutoff index ti d = Ok d'.
  Proof.
    intros Hw (I1 & I2 & I3) (T1 & T2 & T3) Hn. unfold validate_cutoff.
    assert (exists d1, (if mem_str "instance_id" (cols d) then Ok d
            else if negb (mem_str index (cols d)) then Err AttributeError else Ok (rename_col index "instance_id" d)) = Ok d1 /\ std [] "instance_id" ic d d1 /\ wf_df d1
            /\ (ic = "instance_id" \/ ic = index)) as (d1 & -> & S1 & W1 & Eic).
    { destruct (mem_str "instance_id" (cols d)) eqn:M.
      - apply mem_str_In in M. rewrite <- (I3 "instance_id" M (or_introl eq_refl)). exists d. split; [reflexivity|]. split; [apply keep_std; exact M|]. auto.
      - apply mem_str_nIn in M. destruct I2 as [<-|[<-|[]]]; [contradiction|]. rewrite (proj2 (mem_str_In _ _) I1). cbn [negb]. eexists. split; [reflexivity|].
        assert (index <> "instance_id") as Hd by (intros ->; contradiction). pose proof (rename_std [] index "instance_id" d I1 M Hd Hw) as [S W]. auto. }
    cbn [bind]. destruct S1 as [C1 R1].
    assert (ic <> "time") as Hict by (destruct Eic as [->| ->]; [discriminate | exact Hix]).
    assert (tc = "time" \/ ti = Some tc) as Etc.
    { unfold time_names in T2. destruct T2 as [<-|T2]; [auto|]. destruct ti as [t|]; [|destruct T2]. destruct T2 as [<-|[]]. auto. }
    assert (tc <> "instance_id") as Htci by (destruct Etc as [->|E]; [discriminate | congruence]).
    assert (tc <> ic) as Htcic.
    { intros ->. destruct Etc as [E|E]; [contradiction|]. destruct Eic as [->| ->]; congruence. }
    assert (In tc (cols d1)) as Htc1 by (apply C1; left; auto).
    assert (exists d2, (if mem_str "time" (cols d1) then Ok d1 else match ti with
                 | Some ti => if negb (mem_str ti (cols d1)) then Err AttributeError else Ok (rename_col ti "time" d1)
                 | None => Ok d1 end) = Ok d2 /\ std [] "time" tc d1 d2) as (d2 & -> & S2).
    { destruct (mem_str "time" (cols d1)) eqn:M.
      - apply mem_str_In in M. exists d1. split; [reflexivity|]. assert (tc = "time") as ->; [|apply keep_std; exact M].
        symmetry. apply T3; [|left; reflexivity]. apply C1 in M. destruct M as [[M _]|M]; [exact M | discriminate].
      - apply mem_str_nIn in M. destruct Etc as [->|Et]; [contradiction|]. rewrite Et. rewrite (proj2 (mem_str_In _ _) Htc1). cbn [negb]. eexists. split; [reflexivity|].
        apply rename_std; auto. intros ->; contradiction. }
    cbn [bind]. destruct S2 as [C2 R2].
    assert (In "instance_id" (cols d2)) as Hi2 by (apply C2; left; split; [apply C1; auto | congruence]).
    assert (In "time" (cols d2)) as Ht2 by (apply C2; auto).
    assert (mem_str "instance_id" (cols d2) && mem_str index (cols d2) && negb (String.eqb "instance_id" index) = false) as ->.
    { destruct (String.eqb_spec "instance_id" index) as [E|E]; [apply andb_false_r|]. cbn [negb]. rewrite andb_true_r. apply andb_false_intro2.
      apply mem_str_nIn. intros H. apply C2 in H as [[H Hx]|H]; [|congruence]. apply C1 in H as [[H Hx']|H]; [|congruence].
      apply Hx'. apply I3; [exact H | cbn; auto]. }
    assert (match ti with Some ti => mem_str "time" (cols d2) && mem_str ti (cols d2) && negb (String.eqb "time" ti) | None => false end = false) as ->.
    { destruct ti as [t|] eqn:Eti; [|reflexivity]. destruct (String.eqb_spec "time" t) as [E|E]; [apply andb_false_r|]. cbn [negb]. rewrite andb_true_r. apply andb_false_intro2.
      apply mem_str_nIn. intros H. apply C2 in H as [[H Hx]|H]; [|congruence]. apply C1 in H as [[H Hx']|H]; [|congruence].
      apply Hx. apply T3; [exact H | cbn; auto]. }
    unfold check_col. rewrite (proj2 (mem_str_In _ _) Hi2), (proj2 (mem_str_In _ _) Ht2). cbn [bind].
    assert (map (fun r => (cell ic r, cell tc r)) (rows d) = map (fun r => (cell "instance_id" r, cell "time" r)) (rows d2)) as E.
    { apply Forall2_map_eq. eapply Forall2_impl; [|eapply Forall2_comp; [exact R1 | exact R2]].
      intros r r2 _ _ (r1 & [A1 A2] & [B1 B2]). f_equal; [rewrite B2 by (congruence || discriminate); symmetry; exact A1 | rewrite B1; symmetry; apply A2; congruence]. }
    rewrite E in Hn. rewrite (proj2 (distinct_by_spec _ pair_eqb_spec _) Hn). eauto.
  Qed.
End Validate.

(** an entity whose index is called "time" accepts no frame at all *)
Lemma validate_index_time ti d d' : validate_cutoff "time" ti d <> Ok d'.
Proof.
  intros H. unfold validate_cutoff in H. apply bind_Ok in H as (d1 & _ & H). apply bind_Ok in H as (d2 & _ & H).
  replace (negb (String.eqb "instance_id" "time")) with true in H by reflexivity. rewrite andb_true_r in H.
  destruct (mem_str "instance_id" (cols d2) && mem_str "time" (cols d2)) eqn:E; [discriminate|].
  destruct (match ti with Some _ => _ | None => _ end); [discriminate|]. apply bind_Ok in H as ([] & H1 & H). apply bind_Ok in H as ([] & H2 & H).
  unfold check_col in H1, H2. destruct (mem_str "instance_id" (cols d2)); [|discriminate]. destruct (mem_str "time" (cols d2)); [|discriminate]. discriminate.
Qed.
