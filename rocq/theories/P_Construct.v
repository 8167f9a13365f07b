(** C78: an entity set does not depend on the order in which its frames and relationships are listed. *)
From Coq Require Import Lia Permutation.
From Verif Require Import Base BaseFacts M_Table M_Schema M_Entities S_Entities L_Entities M_Construct S_Construct L_Construct L_Construct2 P_Relate P_Tables.
Open Scope string_scope.
Import ListNotations.

Section C78.
  Variables to_numeric to_datetime : list val -> res (dtype * list val).
  Variable obj_kind : val -> res (option tkind).
  Variable infer : table -> string -> vtype.
  Notation construct := (construct to_numeric to_datetime obj_kind infer).
  Notation gather := (gather to_numeric to_datetime obj_kind infer).
  Notation piece := (piece to_numeric to_datetime obj_kind infer).

  Lemma construct_gather n h l rels : own_frames l ->
    match gather h l None [] with
    | None => exists x, construct n h l rels = Err x
    | Some (k, ents) => construct n h l rels = match siter (relate to_numeric to_datetime) rels (mkSet n ents [] k None) with
                                               | (s, Ok _) => Ok (with_meta None s) | (_, Err x) => Err x end
    end.
  Proof.
    intros Hf. pose proof (siter_gather to_numeric to_datetime obj_kind infer h n [] l h None [] Hf (fun _ _ => eq_refl)) as Hg. unfold M_Construct.construct.
    change (empty_set n) with (mkSet n [] [] None None). destruct (gather h l None []) as [[k ents]|].
    - destruct Hg as (h' & ->). unfold sbind. destruct (siter (relate to_numeric to_datetime) rels (mkSet n ents [] k None)) as [s [u|x]]; reflexivity.
    - destruct Hg as ([h' s'] & x & ->). eauto.
  Qed.

  Lemma gather_some h l : dictionary l -> forall k ents k' ents', gather h l k ents = Some (k', ents') ->
    (k = None \/ k' = k) /\ (forall id, ~ In id (map i_id l) -> dget String.eqb id ents' = dget String.eqb id ents) /\
    (forall i, In i l -> exists q e, piece h i = Ok (q, e) /\ dget String.eqb (i_id i) ents' = Some e /\ (q = None \/ k' = q)).
  Proof.
    induction l as [|i l IH]; intros Hd k ents k' ents'; cbn [L_Construct.gather].
    - intros H. injection H as <- <-. split; [auto|]. split; [reflexivity | intros ? []].
    - inversion Hd as [|? ? Hni Hd']; subst. destruct (piece h i) as [[q e]|] eqn:Ep; [|discriminate]. destruct (join k q) as [k1|] eqn:Ej; [|discriminate].
      intros H. destruct (IH Hd' _ _ _ _ H) as (H1 & H2 & H3).
      assert ((k = None \/ k1 = k) /\ (q = None \/ k1 = q)) as [Hk Hq].
      { unfold join in Ej. destruct q as [q|]; [|injection Ej as <-; auto]. destruct k as [k|]; [|injection Ej as <-; auto]. destruct (tkind_eqb q k) eqn:Et; [|discriminate]. injection Ej as <-. destruct q, k; auto; discriminate. }
      split; [destruct Hk as [-> | ->], H1 as [-> | ->]; auto|]. split.
      + intros id Hid. rewrite H2 by (intros Hin; apply Hid; right; exact Hin). apply (dget_dset_other _ String.eqb_spec). intros ->. apply Hid. left. reflexivity.
      + intros j [<-|Hj]; [|apply H3; exact Hj]. exists q, e. split; [exact Ep|]. split; [rewrite H2 by exact Hni; apply (dget_dset_same _ String.eqb_spec)|].
        destruct Hq as [-> | ->]; [auto|]. destruct H1 as [-> | ->]; auto.
  Qed.

  Lemma gather_ok h l : forall k ents,
    (forall i, In i l -> exists q e, piece h i = Ok (q, e) /\ (k = None \/ q = None \/ q = k)) ->
    (forall i j q e q' e', In i l -> In j l -> piece h i = Ok (Some q, e) -> piece h j = Ok (Some q', e') -> q = q') -> gather h l k ents <> None.
  Proof.
    induction l as [|i l IH]; intros k ents H Hk; cbn [L_Construct.gather]; [discriminate|].
    destruct (H i (or_introl eq_refl)) as (q & e & Ep & Hq). rewrite Ep.
    assert (exists k1, join k q = Some k1 /\ (k1 = k \/ k = None /\ k1 = q)) as (k1 & -> & Hk1).
    { unfold join. destruct q as [q|]; [|eauto]. destruct k as [k|]; [|eauto]. destruct Hq as [Hq|[Hq|Hq]]; [discriminate | discriminate|]. injection Hq as ->. rewrite tkind_eqb_refl. eauto. }
    apply IH.
    - intros j Hj. destruct (H j (or_intror Hj)) as (q' & e' & Ep' & Hq'). exists q', e'. split; [exact Ep'|]. destruct Hk1 as [-> | [-> ->]]; [exact Hq'|].
      destruct q as [q|]; [|auto]. destruct q' as [q'|]; [|auto]. right. right. f_equal. eapply Hk; [right; exact Hj | left; reflexivity | exact Ep' | exact Ep].
    - intros j j' q1 e1 q2 e2 Hj Hj'. apply Hk; right; assumption.
  Qed.

  Lemma alone_piece n h i s : construct n h [i] [] = Ok s <-> exists q e, piece h i = Ok (q, e) /\ s = mkSet n [(i_id i, e)] [] q None.
  Proof.
    assert (own_frames [i]) as Hf by (constructor; [intros [] | constructor]).
    pose proof (construct_gather n h [i] [] Hf) as Hc. cbn [L_Construct.gather siter] in Hc. unfold sret in Hc. destruct (piece h i) as [[q e]|].
    - assert (join None q = Some q) as Ej by (destruct q; reflexivity). rewrite Ej in Hc. rewrite Hc. cbn. split; [intros H; injection H as <-; eauto|].
      intros (q' & e' & H & ->). injection H as <- <-. reflexivity.
    - destruct Hc as (x & ->). split; [discriminate | intros (q1 & e1 & H1 & _); discriminate].
  Qed.

  (** *** Which sets can be built: those whose frames can be made into a set each on its own, if the times of these sets
      are all dates or all numbers. Each entity is then what it is on its own. *)
  Theorem C78_parts_partial n h l : dictionary l -> own_frames l ->
    ((exists s, construct n h l [] = Ok s) <->
     (forall i, In i l -> exists s, construct n h [i] [] = Ok s) /\
     (forall i j s s' k k', In i l -> In j l -> construct n h [i] [] = Ok s -> construct n h [j] [] = Ok s' -> s_kind s = Some k -> s_kind s' = Some k' -> k = k')) /\
    (forall s, construct n h l [] = Ok s -> forall i s', In i l -> construct n h [i] [] = Ok s' ->
       dget String.eqb (i_id i) (s_ents s) = dget String.eqb (i_id i) (s_ents s') /\ exists e, dget String.eqb (i_id i) (s_ents s) = Some e).
  Proof.
    intros Hd Hf. pose proof (construct_gather n h l [] Hf) as Hc. cbn [siter] in Hc. unfold sret in Hc.
    assert (forall s, construct n h l [] = Ok s -> exists k ents, gather h l None [] = Some (k, ents) /\ s = mkSet n ents [] k None) as Hok.
    { intros s Hs. destruct (gather h l None []) as [[k ents]|]; [|destruct Hc as (x & Hx); congruence]. rewrite Hc in Hs. injection Hs as <-. eauto. }
    split; [split|].
    - intros (s & Hs). apply Hok in Hs as (k & ents & Hg & ->). destruct (gather_some h l Hd _ _ _ _ Hg) as (_ & _ & H3). split.
      + intros i Hi. destruct (H3 i Hi) as (q & e & Ep & _). eexists. apply alone_piece. eauto.
      + intros i j s s' k1 k2 Hi Hj Hs Hs' E1 E2. apply alone_piece in Hs as (q & e & Ep & ->). apply alone_piece in Hs' as (q' & e' & Ep' & ->). cbn in E1, E2. subst q q'.
        destruct (H3 i Hi) as (q & e0 & Eq & _ & Hq). rewrite Ep in Eq. injection Eq as <- <-. destruct (H3 j Hj) as (q' & e0' & Eq' & _ & Hq'). rewrite Ep' in Eq'. injection Eq' as <- <-.
        destruct Hq as [Hq|Hq], Hq' as [Hq'|Hq']; congruence.
    - intros [H1 H2]. destruct (gather h l None []) as [[k ents]|] eqn:Eg; [eauto|]. exfalso. revert Eg. apply gather_ok.
      + intros i Hi. destruct (H1 i Hi) as (s & Hs). apply alone_piece in Hs as (q & e & Ep & _). exists q, e. auto.
      + intros i j q e q' e' Hi Hj Ep Ep'. apply (H2 i j (mkSet n [(i_id i, e)] [] (Some q) None) (mkSet n [(i_id j, e')] [] (Some q') None)); auto; apply alone_piece; eauto.
    - intros s Hs i s' Hi Hs'. apply Hok in Hs as (k & ents & Hg & ->). destruct (gather_some h l Hd _ _ _ _ Hg) as (_ & _ & H3). destruct (H3 i Hi) as (q & e & Ep & Ee & _).
      apply alone_piece in Hs' as (q' & e' & Ep' & ->). rewrite Ep in Ep'. injection Ep' as <- <-. cbn. rewrite String.eqb_refl. split; [exact Ee | eauto].
  Qed.

  (** *** The frames in any order: the same set, or an error both times; whatever the relationships are. *)
  Theorem C78_frames_partial n h l l' rels : dictionary l -> own_frames l -> Permutation l l' ->
    match construct n h l rels, construct n h l' rels with
    | Ok s, Ok s' => same_set s s' /\ s_rels s = s_rels s'
    | Err _, Err _ => True
    | _, _ => False
    end.
  Proof.
    intros Hd Hf Hp. assert (own_frames l') as Hf' by (eapply Permutation_NoDup; [apply Permutation_map; exact Hp | exact Hf]).
    pose proof (construct_gather n h l rels Hf) as H. pose proof (construct_gather n h l' rels Hf') as H'.
    pose proof (gather_perm to_numeric to_datetime obj_kind infer h l l' Hp Hd None []) as Hg.
    destruct (gather h l None []) as [[k ents]|], (gather h l' None []) as [[k' ents']|]; cbn in Hg; try contradiction.
    - destruct Hg as [<- Hg]. rewrite H, H'.
      destruct (resp_relates to_numeric to_datetime rels (mkSet n ents [] k None) (mkSet n ents' [] k None)) as [R1 R2]; [unfold eqv; cbn; auto 10|].
      destruct (siter (relate to_numeric to_datetime) rels (mkSet n ents [] k None)) as [s x], (siter (relate to_numeric to_datetime) rels (mkSet n ents' [] k None)) as [s' x'].
      cbn [fst snd] in R1, R2. subst x'. destruct x; [|exact I]. destruct R2 as (Q1 & Q2 & Q3 & Q4 & Q5). unfold same_set, with_meta. cbn. rewrite Q2. auto 10.
    - destruct H as (x & ->), H' as (x' & ->). exact I.
  Qed.

  (** *** The relationships in any order: the same set, or an error both times, if no frame is empty. *)
  Theorem C78_relationships_partial n h l rels rels' s0 : own_frames l -> construct n h l [] = Ok s0 -> all_have_rows s0 ->
    (forall r, In r rels <-> In r rels') ->
    match construct n h l rels, construct n h l rels' with
    | Ok s, Ok s' => same_set s s'
    | Err _, Err _ => True
    | _, _ => False
    end.
  Proof.
    intros Hf H0 Hrows Hin. pose proof (construct_gather n h l [] Hf) as H. pose proof (construct_gather n h l rels Hf) as H1. pose proof (construct_gather n h l rels' Hf) as H2.
    destruct (gather h l None []) as [[k ents]|]; [|destruct H as (x & H); congruence]. rewrite H1, H2. cbn [siter] in H. unfold sret in H. rewrite H in H0. injection H0 as <-. clear H H1 H2.
    set (s0 := mkSet n ents [] k None) in *. change (with_meta None s0) with s0 in Hrows.
    assert (linked_up s0 [] s0) as Ha.
    { unfold linked_up. repeat split; try constructor; [intros r []|]. intros id. destruct (dget String.eqb id (s_ents s0)); reflexivity. }
    pose proof (relates_after to_numeric to_datetime s0 rels Hrows [] s0 Ha) as R1. pose proof (relates_after to_numeric to_datetime s0 rels' Hrows [] s0 Ha) as R2.
    assert (forallb (okb s0) rels = forallb (okb s0) rels') as Eb.
    { apply Bool.eq_true_iff_eq. rewrite !forallb_forall. split; intros Hb r Hr; apply Hb; apply Hin; exact Hr. }
    rewrite <- Eb in R2. destruct (forallb (okb s0) rels).
    - destruct R1 as (s & -> & A1), R2 as (s' & -> & A2). assert (same_set s s') as Hs.
      { eapply after_same; [exact A1 | exact A2|]. intros r. rewrite !grow_In. cbn. rewrite Hin. reflexivity. }
      unfold same_set, with_meta in *. cbn. tauto.
    - destruct R1 as (s & x & ->), R2 as (s' & x' & ->). exact I.
  Qed.

  (** *** dfs(entities, relationships) makes the features of the entity set with these entities and relationships. *)
  Theorem C78_dfs_partial h l l' rels rels' s0 : dictionary l -> own_frames l -> Permutation l l' -> (forall r, In r rels <-> In r rels') ->
    construct "dfs" h l [] = Ok s0 -> all_have_rows s0 ->
    (forall given, dfs_entityset to_numeric to_datetime obj_kind infer h l rels (Some given) = Ok given) /\
    match dfs_entityset to_numeric to_datetime obj_kind infer h l rels None, dfs_entityset to_numeric to_datetime obj_kind infer h l' rels' None with
    | Ok s, Ok s' => same_set s s'
    | Err _, Err _ => True
    | _, _ => False
    end.
  Proof.
    intros Hd Hf Hp Hin H0 Hrows. split; [reflexivity|]. cbn [dfs_entityset]. pose proof (C78_relationships_partial "dfs" h l rels rels' s0 Hf H0 Hrows Hin) as H1.
    pose proof (C78_frames_partial "dfs" h l l' rels' Hd Hf Hp) as H2.
    destruct (construct "dfs" h l rels) as [a|], (construct "dfs" h l rels') as [b|], (construct "dfs" h l' rels') as [c|]; try contradiction; try exact I.
    destruct H2 as [(A1 & A2 & A3 & A4 & A5) _]. destruct H1 as (B1 & B2 & B3 & B4 & B5). unfold same_set. repeat split; try congruence. eapply Permutation_trans; eassumption.
  Qed.
End C78.

(** ** A set, listed in two ways *)
Definition okd (v : val) : res (option tkind) := Ok None.
Definition build := construct nr dt okd infd "es".
Definition h1 : frames :=
  [("cust", mkTab [("id", DInt); ("joined", DDate)] [[("id", VNum 7); ("joined", VNum 3)]]);
   ("sess", mkTab [("id", DInt); ("cid", DInt); ("start", DDate)] [[("id", VNum 1); ("cid", VNum 7); ("start", VNum 9)]; [("id", VNum 2); ("cid", VNum 7); ("start", VNum 5)]]);
   ("days", mkTab [("n", DInt)] [[("n", VNum 4)]; [("n", VNum 2)]])].
Definition e_cust := mkEntry "customers" "cust" (Some "id") (Some "joined") [] false.
Definition e_sess := mkEntry "sessions" "sess" (Some "id") (Some "start") [("cid", TNumeric)] false.
Definition e_days (time : option string) := mkEntry "days" "days" (Some "key") time [] true.
Definition r1 := mkRel "customers" "id" "sessions" "cid".

Example C78_nonvacuous : exists s s0,
  build h1 [e_cust; e_sess; e_days None] [r1] = Ok s /\ build h1 [e_days None; e_sess; e_cust] [r1; r1] = Ok (with_ents (rev (s_ents s)) s) /\ s_kind s = Some KDate /\
  build h1 [e_cust; e_sess; e_days None] [] = Ok s0 /\ all_have_rows s0 /\ dictionary [e_cust; e_sess; e_days None] /\ own_frames [e_cust; e_sess; e_days None] /\
  (exists e v, dget String.eqb "sessions" (s_ents s) = Some e /\ get_var "cid" (n_vars e) = Ok v /\ v_type v = TId) /\
  map fst (s_ents s) = ["customers"; "sessions"; "days"].
Proof.
  eexists. eexists. split; [vm_compute; reflexivity|]. split; [vm_compute; reflexivity|]. split; [vm_compute; reflexivity|]. split; [vm_compute; reflexivity|].
  split; [|split; [|split; [|split]]].
  - intros id e H. apply (dget_In String.eqb String.eqb_spec) in H. cbn in H. repeat (destruct H as [H|H]; [injection H as _ <-; discriminate|]). destruct H.
  - repeat constructor; cbn; intuition discriminate.
  - repeat constructor; cbn; intuition discriminate.
  - eexists. eexists. split; [vm_compute; reflexivity|]. split; vm_compute; reflexivity.
  - reflexivity.
Qed.
(** times of two kinds: an error in every order, though each frame is a set on its own *)
Example C78_kinds : snd (build h1 [e_days (Some "n")] [], build h1 [e_cust; e_days (Some "n")] []) = Err TypeError /\
  build h1 [e_days (Some "n"); e_cust] [] = Err TypeError /\ exists s, build h1 [e_days (Some "n")] [] = Ok s /\ s_kind s = Some KNum.
Proof. split; [vm_compute; reflexivity|]. split; [vm_compute; reflexivity|]. eexists. split; vm_compute; reflexivity. Qed.

(** *** One frame for two entities: the index made for the first entity is a column of the second. *)
Theorem C78_shared_refuted : exists h i j s s' e e', build h [i; j] [] = Ok s /\ build h [j; i] [] = Ok s' /\ i_id i <> i_id j /\
  dget String.eqb (i_id j) (s_ents s) = Some e /\ dget String.eqb (i_id j) (s_ents s') = Some e' /\ In "key" (t_names (n_tab e)) /\ ~ In "key" (t_names (n_tab e')).
Proof.
  exists h1, (e_days None), (mkEntry "numbers" "days" (Some "n") None [] false). do 4 eexists.
  split; [vm_compute; reflexivity|]. split; [vm_compute; reflexivity|]. split; [discriminate|]. split; [vm_compute; reflexivity|]. split; [vm_compute; reflexivity|].
  split; [cbn; auto | cbn; intuition discriminate].
Qed.

(** *** An empty frame whose column refers to two others: accepted in one order of the relationships, refused in the other. *)
Definition h2 : frames :=
  [("a", mkTab [("id", DObj)] [[("id", VStr "x")]]); ("b", mkTab [("id", DInt)] [[("id", VNum 1)]]); ("c", mkTab [("id", DInt); ("ref", DObj)] [])].
Theorem C78_relationships_refuted : exists h l r r' s, build h l [r; r'] = Ok s /\ build h l [r'; r] = Err ValueError /\ dictionary l /\ own_frames l.
Proof.
  exists h2, [mkEntry "a" "a" (Some "id") None [] false; mkEntry "b" "b" (Some "id") None [] false; mkEntry "c" "c" (Some "id") None [] false],
    (mkRel "a" "id" "c" "ref"), (mkRel "b" "id" "c" "ref"). eexists.
  split; [vm_compute; reflexivity|]. split; [vm_compute; reflexivity|]. split; repeat constructor; cbn; intuition discriminate.
Qed.
Print Assumptions C78_parts_partial.
Print Assumptions C78_frames_partial.
Print Assumptions C78_relationships_partial.
Print Assumptions C78_dfs_partial.
Print Assumptions C78_shared_refuted.
Print Assumptions C78_relationships_refuted.
