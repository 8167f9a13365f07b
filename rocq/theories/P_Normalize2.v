(** C38, continued: the variable types and the secondary time index of the new entity. *)
From Coq Require Import Sorting.Permutation Sorting.Sorted.
From Verif Require Import Base BaseFacts M_Schema M_Table M_LastTime L_LastTime M_Entities S_Entities S_Calls.
From Verif Require Import P_Equality L_Entities L_Tables P_Relate P_Meta P_Tables L_Normalize P_Normalize.
Local Open Scope string_scope.
Local Open Scope list_scope.

(** the type of the variable [c] of an entity *)
Definition tyof (vs : list variable) (c : string) : option vtype := option_map v_type (find (fun v => String.eqb (v_id v) c) vs).
Lemma tyof_replace id v vs c : v_id v = id -> c <> id -> tyof (replace_first id v vs) c = tyof vs c.
Proof.
  intros Hv Hc. unfold tyof. induction vs as [|w vs IH]; [reflexivity|]. cbn [replace_first]. destruct (String.eqb_spec (v_id w) id) as [E|E]; cbn [find].
  - rewrite Hv, E. destruct (String.eqb_spec id c); [congruence | reflexivity].
  - destruct (String.eqb (v_id w) c); [reflexivity | exact IH].
Qed.
Lemma tyof_replace_same id v vs w : v_id v = id -> get_var id vs = Ok w -> tyof (replace_first id v vs) id = Some (v_type v).
Proof.
  intros Hv. unfold tyof, get_var. induction vs as [|x vs IH]; [discriminate|]. cbn [replace_first find]. destruct (String.eqb_spec (v_id x) id) as [E|E]; cbn [find].
  - intros _. rewrite Hv, String.eqb_refl. reflexivity.
  - intros H. rewrite (proj2 (String.eqb_neq _ _) E). apply IH. exact H.
Qed.
Lemma tyof_remove id vs c : c <> id -> tyof (remove_first id vs) c = tyof vs c.
Proof.
  intros Hc. unfold tyof. induction vs as [|w vs IH]; [reflexivity|]. cbn [remove_first find]. destruct (String.eqb_spec (v_id w) id) as [E|E].
  - rewrite E. rewrite (proj2 (String.eqb_neq id c)) by congruence. reflexivity.
  - cbn [find]. destruct (String.eqb (v_id w) c); [reflexivity | exact IH].
Qed.

(** the variables of a secondary time index include the time index itself *)
Definition closed (kv : string * list string) : string * list string := (fst kv, if mem_str (fst kv) (snd kv) then snd kv else snd kv ++ [fst kv]).

Section Types.
  Variables to_numeric to_datetime : list val -> res (dtype * list val).
  Variable obj_kind : val -> res (option tkind).
  Variable infer : table -> string -> vtype.
  Notation normalize_entity := (normalize_entity to_numeric to_datetime obj_kind infer).
  Notation convert := (convert_variable_type to_numeric to_datetime).
  Notation init := (init to_numeric to_datetime obj_kind).

  Lemma convert_types id ty k e k' e' u : convert id ty false (k, e) = ((k', e'), Ok u) ->
    n_sec e' = n_sec e /\ n_time e' = n_time e /\ (forall c, c <> id -> tyof (n_vars e') c = tyof (n_vars e) c) /\ tyof (n_vars e') id = Some ty.
  Proof.
    unfold convert_variable_type, eget, sret, sbind, slift, emod. cbn. intros H. destruct (get_var id (n_vars e)) as [v|] eqn:E; [|discriminate]. injection H as <- <-.
    cbn. apply get_var_In in E as Hv. destruct Hv as [_ Hv]. split; [reflexivity|]. split; [reflexivity|]. split; [intros c Hc; apply tyof_replace; [exact Hv | exact Hc] |].
    exact (tyof_replace_same id (mkVar (v_id v) ty [] None) _ v Hv E).
  Qed.
  Lemma set_index_types id un k e k' e' u : set_index to_numeric to_datetime id un (k, e) = ((k', e'), Ok u) ->
    n_sec e' = n_sec e /\ n_time e' = n_time e /\ (forall c, c <> id -> tyof (n_vars e') c = tyof (n_vars e) c) /\ tyof (n_vars e') id = Some TIndex.
  Proof.
    unfold set_index. intros H. unfold sbind at 1 in H. unfold eget at 1 in H. cbn [fst snd] in H.
    apply sbind_Ok in H as (d & p & E & H). apply slift_Ok in E as [_ ->]. apply sbind_Ok in H as (y & p & E & H). apply sguard_Ok in E as [_ ->].
    apply sbind_Ok in H as (z & [k1 e1] & E & H). apply convert_types in E. unfold emod in H. cbn in H. injection H as <- <-. exact E.
  Qed.
  Lemma set_time_types id srt k e k' e' u : set_time_index to_numeric to_datetime obj_kind id srt (k, e) = ((k', e'), Ok u) ->
    n_sec e' = n_sec e /\ n_time e' = Some id /\ (forall c, c <> id -> tyof (n_vars e') c = tyof (n_vars e) c) /\
    (tyof (n_vars e') id = Some TDatetimeTimeIndex \/ tyof (n_vars e') id = Some TNumericTimeIndex).
  Proof.
    unfold set_time_index. intros H. unfold sbind at 1 in H. unfold eget at 1 in H. cbn [fst snd] in H.
    apply sbind_Ok in H as (ok & p & E & H). apply slift_Ok in E as [_ ->].
    apply sbind_Ok in H as (kd & p & E & H). unfold known_kind in E. destruct ok as [kd0|]; [|discriminate]. unfold sret in E. injection E as <- <-.
    apply sbind_Ok in H as (y & p & E & H). assert (snd p = e) as Hp.
    { unfold claim_kind in E. cbn in E. destruct k as [k0|]; [|injection E as <- _; reflexivity]. destruct (tkind_eqb _ _); injection E as <- _; reflexivity. } destruct p as [k0 e0]. cbn in Hp. subst e0.
    apply sbind_Ok in H as (d & p & E4 & H). apply slift_Ok in E4 as [_ ->]. cbv zeta in H.
    apply sbind_Ok in H as (z & [k1 e1] & E5 & H). assert (n_sec e1 = n_sec e /\ n_vars e1 = n_vars e) as [H1 H2].
    { destruct srt; [unfold sret in E5; injection E5 as _ <-; auto|]. unfold emod in E5. cbn in E5. injection E5 as _ <- _. auto. }
    apply sbind_Ok in H as (w & [k2 e2] & E6 & H). apply convert_types in E6 as (A & _ & B & C). unfold emod in H. cbn in H. injection H as <- <-. cbn.
    split; [congruence|]. split; [reflexivity|]. split; [intros c Hc; rewrite B by exact Hc; congruence|]. rewrite C. match goal with |- context [if ?b then _ else _] => destruct b end; auto.
  Qed.
  Lemma set_sec_types sec k e k' e' u : set_secondary_time_index obj_kind sec (k, e) = ((k', e'), Ok u) -> e' = with_sec (map closed sec) e.
  Proof.
    unfold set_secondary_time_index. intros H. apply sbind_Ok in H as (sec' & p & E & H).
    assert (forall sec done s s' x, secondary_go obj_kind done sec s = (s', Ok x) -> x = done ++ map closed sec) as Hgo.
    { clear. induction sec as [|[ti cs] sec IH]; intros done s s' x H; cbn [secondary_go] in H; [unfold sret in H; cbn; rewrite app_nil_r; congruence|].
      apply sbind_Ok in H as (e & s1 & _ & H). apply sbind_Ok in H as (ok & s2 & _ & H). apply sbind_Ok in H as (kd & s3 & _ & H). apply sbind_Ok in H as (y & s4 & _ & H). apply IH in H. rewrite H, <- app_assoc. reflexivity. }
    pose proof (Hgo _ _ _ _ _ E) as ->. apply secondary_state in E as ->. unfold emod in H. cbn in H. injection H as _ <-. reflexivity.
  Qed.
  Lemma init_types i time sec srt k e k' e' u : init i time sec srt (k, e) = ((k', e'), Ok u) ->
    n_sec e' = map closed sec /\ (forall c, c <> i -> time <> Some c -> tyof (n_vars e') c = tyof (n_vars e) c) /\ (time <> Some i -> tyof (n_vars e') i = Some TIndex).
  Proof.
    unfold L_Tables.init. intros H. apply sbind_Ok in H as (y & [k1 e1] & E & H). apply set_index_types in E as (_ & _ & A & B).
    apply sbind_Ok in H as (z & [k2 e2] & E & H). apply set_sec_types in H as ->. cbn [n_sec n_vars with_sec]. split; [reflexivity|]. destruct time as [ti|].
    - apply set_time_types in E as (_ & _ & C & _). split; [intros c Hc Ht; rewrite C by congruence; auto | intros Ht; rewrite C by congruence; exact B].
    - unfold sret in E. injection E as _ <-. auto.
  Qed.

  (** the types of the other variables and the secondary time indexes stay *)
  Definition off (idx : string) (s s' : eset) : Prop := forall id e, dget String.eqb id (s_ents s) = Some e ->
    exists e', dget String.eqb id (s_ents s') = Some e' /\ n_sec e' = n_sec e /\ n_time e' = n_time e /\ forall c, c <> idx -> tyof (n_vars e') c = tyof (n_vars e) c.
  Lemma off_refl idx s : off idx s s.
  Proof. intros id e H. exists e. auto. Qed.
  Lemma off_trans idx a b c : off idx a b -> off idx b c -> off idx a c.
  Proof.
    intros H1 H2 id e He. destruct (H1 id e He) as (e1 & E1 & A1 & B1 & C1). destruct (H2 id e1 E1) as (e2 & E2 & A2 & B2 & C2). exists e2. split; [exact E2|]. split; [congruence|]. split; [congruence|].
    intros x Hx. rewrite C2, C1 by exact Hx. reflexivity.
  Qed.
  Lemma on_entity_off idx eid ty s s' u : on_entity eid (convert idx ty false) s = (s', Ok u) -> off idx s s' /\ exists e, dget String.eqb eid (s_ents s') = Some e /\ tyof (n_vars e) idx = Some ty.
  Proof.
    unfold on_entity, sent. destruct (dget String.eqb eid (s_ents s)) as [e|] eqn:E; [|discriminate]. destruct (convert idx ty false (s_kind s, e)) as [[k e'] r] eqn:Ec. intros H. injection H as <- ->.
    apply convert_types in Ec as (A & B & C & D). split; [|exists e'; cbn; rewrite (dget_dset_same _ String.eqb_spec); auto]. intros id e0 He0. cbn. destruct (String.eqb_spec id eid) as [->|Hne].
    - rewrite (dget_dset_same _ String.eqb_spec). rewrite E in He0. injection He0 as <-. eauto.
    - rewrite (dget_dset_other _ String.eqb_spec) by congruence. eauto.
  Qed.
  Lemma ensure_off idx eid ty s s' u : ensure_type to_numeric to_datetime eid idx ty s = (s', Ok u) -> off idx s s'.
  Proof.
    unfold ensure_type. intros H. unfold sbind at 1 in H. unfold sget at 1 in H. apply sbind_Ok in H as (e & s1 & E & H). apply slift_Ok in E as [_ ->]. apply sbind_Ok in H as (v & s1 & E & H). apply slift_Ok in E as [_ ->].
    destruct (vtype_eqb _ _); [unfold sret in H; injection H as <- _; apply off_refl|]. apply on_entity_off in H. apply H.
  Qed.
  Lemma relate_off r s s' u : r_pv r = r_cv r -> relate to_numeric to_datetime r s = (s', Ok u) -> off (r_cv r) s s'.
  Proof.
    intros Hpc H. unfold relate in H. apply sbind_Ok in H as (u0 & s1 & E & H). apply make_relationship_state in E as ->.
    unfold add_relationship in H. unfold sbind at 1 in H. unfold sget at 1 in H. destruct (existsb _ _); [unfold sret in H; injection H as <- _; apply off_refl|].
    apply sbind_Ok in H as (ce & s1 & E & H). apply slift_Ok in E as [_ ->]. apply sbind_Ok in H as (u1 & s1 & E & H). apply sguard_Ok in E as [_ ->].
    apply sbind_Ok in H as (pe & s1 & E & H). apply slift_Ok in E as [_ ->].
    apply sbind_Ok in H as (u2 & s1 & E & H). apply ensure_off in E. apply sbind_Ok in H as (u3 & s2 & E2 & H). rewrite Hpc in E2. apply ensure_off in E2. pose proof (off_trans _ _ _ _ E E2) as H2.
    unfold sbind at 1 in H. unfold sget at 1 in H. apply sbind_Ok in H as (ce' & s4 & E5 & H). apply slift_Ok in E5 as [E5 ->]. apply sbind_Ok in H as (cd & s4 & E6 & H). apply slift_Ok in E6 as [_ ->].
    apply sbind_Ok in H as (pe' & s4 & E6 & H). apply slift_Ok in E6 as [_ ->]. apply sbind_Ok in H as (pd & s4 & E6 & H). apply slift_Ok in E6 as [_ ->]. cbv zeta in H.
    apply sbind_Ok in H as (u4 & s4 & E6 & H). apply sbind_Ok in H as (u5 & s5 & E7 & H). apply sguard_Ok in E7 as [_ ->]. unfold sbind, smod, reset_meta in H. injection H as <- _.
    assert (off (r_cv r) s2 s4) as H4.
    { destruct (match t_rows (n_tab ce') with [] => _ | _ => _ end) in E6; [|unfold sret in E6; injection E6 as <- _; apply off_refl].
      unfold on_entity in E6. rewrite E5 in E6. unfold emod in E6. cbn in E6. injection E6 as <- _. apply sent_In in E5. intros id e Ee. cbn. destruct (String.eqb_spec id (r_ce r)) as [->|Hd].
      - rewrite E5 in Ee. injection Ee as <-. rewrite (dget_dset_same _ String.eqb_spec). eexists. split; [reflexivity|]. cbn. auto.
      - rewrite (dget_dset_other _ String.eqb_spec) by congruence. eexists. split; [exact Ee|]. auto. }
    intros id e Ee. destruct (off_trans _ _ _ _ H2 H4 id e Ee) as (e' & Ee' & He'). exists e'. split; [exact Ee' | exact He'].
  Qed.
  Lemma delete_types ids k e k' e' u : delete_variables ids (k, e) = ((k', e'), Ok u) -> n_sec e' = n_sec e /\ n_time e' = n_time e /\ forall c, ~ In c ids -> tyof (n_vars e') c = tyof (n_vars e) c.
  Proof.
    unfold delete_variables. destruct ids as [|i0 ids0]; [intros H; unfold sret in H; injection H as _ <- _; auto|]. set (ids := i0 :: ids0). intros H.
    unfold sbind at 1 in H. unfold eget at 1 in H. cbn [fst snd] in H. apply sbind_Ok in H as (u0 & p & E & H). apply sguard_Ok in E as [_ ->].
    apply sbind_Ok in H as (u1 & p & E & H). unfold emod in E. cbn in E. injection E as <- _.
    assert (forall l e k k' e' u, siter (fun id => e <~ eget ;; _ <~ slift (get_var id (n_vars e)) ;; emod (with_vars (remove_first id (n_vars e)))) l (k, e) = ((k', e'), Ok u) ->
      n_sec e' = n_sec e /\ n_time e' = n_time e /\ forall c, ~ In c l -> tyof (n_vars e') c = tyof (n_vars e) c) as Hit.
    { clear. induction l as [|a l IH]; intros e k k' e' u H; cbn [siter] in H; [unfold sret in H; injection H as _ <- _; auto|].
      apply sbind_Ok in H as (u0 & [k1 e1] & E & H). unfold sbind at 1 in E. unfold eget at 1 in E. cbn [fst snd] in E. apply sbind_Ok in E as (v & p & E1 & E). apply slift_Ok in E1 as [_ ->].
      unfold emod in E. cbn in E. injection E as _ <- _. destruct (IH _ _ _ _ _ H) as (A & B & C). cbn in A, B, C. split; [exact A|]. split; [exact B|]. intros c Hc. cbn in Hc. rewrite C by auto. apply tyof_remove. intuition congruence. }
    apply Hit in H. exact H.
  Qed.

  Definition alike (s s' : eset) : Prop := forall id e, dget String.eqb id (s_ents s) = Some e ->
    exists e', dget String.eqb id (s_ents s') = Some e' /\ n_sec e' = n_sec e /\ n_time e' = n_time e /\ n_vars e' = n_vars e.
  Lemma ensure_noop eid idx ty s s' u e : dget String.eqb eid (s_ents s) = Some e -> tyof (n_vars e) idx = Some ty -> ensure_type to_numeric to_datetime eid idx ty s = (s', Ok u) -> s' = s.
  Proof.
    intros He Ht H. unfold ensure_type in H. unfold sbind at 1 in H. unfold sget at 1 in H. apply sbind_Ok in H as (e0 & s1 & E & H). apply slift_Ok in E as [E ->]. unfold sent in E. rewrite He in E. injection E as <-.
    apply sbind_Ok in H as (v & s1 & E & H). apply slift_Ok in E as [E ->]. unfold tyof in Ht. unfold get_var in E. destruct (find _ _) as [w|]; [|discriminate]. injection E as <-. cbn in Ht. injection Ht as <-.
    set (ty := v_type w) in *. assert (vtype_eqb ty ty = true) as Et by (unfold vtype_eqb; destruct (vtype_eq_dec ty ty); congruence). rewrite Et in H. unfold sret in H. congruence.
  Qed.
  Lemma relate_alike r s s' u ce0 pe0 : dget String.eqb (r_ce r) (s_ents s) = Some ce0 -> dget String.eqb (r_pe r) (s_ents s) = Some pe0 ->
    tyof (n_vars ce0) (r_cv r) = Some TId -> tyof (n_vars pe0) (r_pv r) = Some TIndex -> relate to_numeric to_datetime r s = (s', Ok u) -> alike s s'.
  Proof.
    intros Hc Hp Tc Tp H. assert (forall z, alike z z) as Hrefl by (intros z id e He; exists e; auto).
    unfold relate in H. apply sbind_Ok in H as (u0 & s1 & E & H). apply make_relationship_state in E as ->.
    unfold add_relationship in H. unfold sbind at 1 in H. unfold sget at 1 in H. destruct (existsb _ _); [unfold sret in H; injection H as <- _; apply Hrefl|].
    apply sbind_Ok in H as (ce & s1 & E & H). apply slift_Ok in E as [_ ->]. apply sbind_Ok in H as (u1 & s1 & E & H). apply sguard_Ok in E as [_ ->].
    apply sbind_Ok in H as (pe & s1 & E & H). apply slift_Ok in E as [_ ->].
    apply sbind_Ok in H as (u2 & s1 & E & H). apply (ensure_noop _ _ _ _ _ _ _ Hc Tc) in E as ->. apply sbind_Ok in H as (u3 & s2 & E2 & H). apply (ensure_noop _ _ _ _ _ _ _ Hp Tp) in E2 as ->.
    unfold sbind at 1 in H. unfold sget at 1 in H. apply sbind_Ok in H as (ce' & s4 & E5 & H). apply slift_Ok in E5 as [E5 ->]. apply sbind_Ok in H as (cd & s4 & E6 & H). apply slift_Ok in E6 as [_ ->].
    apply sbind_Ok in H as (pe' & s4 & E6 & H). apply slift_Ok in E6 as [_ ->]. apply sbind_Ok in H as (pd & s4 & E6 & H). apply slift_Ok in E6 as [_ ->]. cbv zeta in H.
    apply sbind_Ok in H as (u4 & s4 & E6 & H). apply sbind_Ok in H as (u5 & s5 & E7 & H). apply sguard_Ok in E7 as [_ ->]. unfold sbind, smod, reset_meta in H. injection H as <- _.
    assert (alike s s4) as H4; [|exact H4].
    destruct (match t_rows (n_tab ce') with [] => _ | _ => _ end) in E6; [|unfold sret in E6; injection E6 as <- _; apply Hrefl].
    unfold on_entity in E6. rewrite E5 in E6. unfold emod in E6. cbn in E6. injection E6 as <- _. apply sent_In in E5. intros id e Ee. cbn. destruct (String.eqb_spec id (r_ce r)) as [->|Hd].
    - rewrite E5 in Ee. injection Ee as <-. rewrite (dget_dset_same _ String.eqb_spec). eexists. split; [reflexivity|]. cbn. auto.
    - rewrite (dget_dset_other _ String.eqb_spec) by congruence. eexists. split; [exact Ee|]. auto.
  Qed.

  Lemma tyof_types (tys : list (string * vtype)) c : tyof (map (fun ct => mkVar (fst ct) (snd ct) [] None) tys) c = dget String.eqb c tys.
  Proof.
    unfold tyof, dget. induction tys as [|[a t] tys IH]; [reflexivity|]. cbn [map find fst snd v_id]. rewrite (String.eqb_sym a c). destruct (String.eqb c a); [reflexivity | exact IH].
  Qed.
  Lemma tyof_filter vs i c : c <> i -> tyof (filter (fun v => negb (String.eqb (v_id v) i)) vs) c = tyof vs c.
  Proof.
    intros Hc. unfold tyof. induction vs as [|v vs IH]; [reflexivity|]. cbn [filter find]. destruct (String.eqb_spec (v_id v) i) as [E|E]; cbn [negb find].
    - rewrite E, (proj2 (String.eqb_neq i c)) by congruence. exact IH.
    - destruct (String.eqb (v_id v) c); [reflexivity | exact IH].
  Qed.
  Lemma create_types id t i given time sec srt s s' : In i (t_names t) ->
    entity_from_dataframe to_numeric to_datetime obj_kind infer id t (Some i) given false time sec srt s = (s', Ok tt) ->
    time <> Some i /\ exists e, s_ents s' = dset String.eqb id e (s_ents s) /\ n_sec e = map closed sec /\ n_time e = time /\
      tyof (n_vars e) i = Some TIndex /\ forall c, c <> i -> time <> Some c -> In c (map fst given) -> tyof (n_vars e) c = dget String.eqb c given.
  Proof.
    intros Hi H. unfold entity_from_dataframe in H.
    apply sbind_Ok in H as (u & s1 & E & H). apply sguard_Ok in E as [Eg ->]. apply sbind_Ok in H as (u1 & s1 & E & H). apply sguard_Ok in E as [_ ->].
    assert (time <> Some i) as Hti by (intros ->; rewrite String.eqb_refl in Eg; discriminate).
    apply sbind_Ok in H as (e & s1 & E & H). destruct (new_entity _ _ _ _ _ _ _ _ _ _ _ _ _) as [k x] eqn:En in E. injection E as <- ->.
    unfold sbind, smod, reset_meta in H. injection H as <-. apply new_entity_Ok in En as (cr & i' & t1 & vt & t2 & E1 & E2 & E3 & Hnd & _ & Hin).
    unfold create_index in E1. apply mem_str_In in Hi as Hi'. rewrite Hi' in E1. cbn in E1. injection E1 as <- <- <-.
    pose proof Hin as Hin'. apply init_Ok in Hin' as (_ & _ & _ & _ & _ & Bt & _). apply init_types in Hin as (A & B & C). cbn [n_vars n_time] in B, Bt.
    split; [exact Hti|]. exists e. split; [reflexivity|]. split; [exact A|]. split; [rewrite Bt; destruct time; reflexivity|]. split; [exact (C Hti)|].
    intros c Hc Ht Hg. rewrite (B c Hc Ht). unfold create_variables in E2. destruct (convert_all _ _ _ _) as [t'|]; [|discriminate]. cbn in E2.
    destruct (filter _ _) as [|iv l] eqn:Ef in E2; [discriminate|]. injection E2 as <-. cbn [fst].
    assert (v_id iv = i) as Hiv by (assert (In iv (iv :: l)) as Hx by (left; reflexivity); rewrite <- Ef in Hx; apply filter_In in Hx as [_ Hx]; apply String.eqb_eq in Hx; exact Hx).
    transitivity (tyof (filter (fun v => negb (String.eqb (v_id v) i)) (map (fun ct => mkVar (fst ct) (snd ct) [] None) (all_types infer t given i))) c).
    { unfold tyof. cbn [find]. rewrite Hiv, (proj2 (String.eqb_neq i c)) by congruence. reflexivity. }
    rewrite tyof_filter by exact Hc. rewrite tyof_types. unfold all_types. rewrite dget_app.
    set (g := if mem_str i (map fst given) then given else given ++ [(i, TIndex)]).
    assert (In c (map fst g)) as Hcg by (unfold g; destruct (mem_str i (map fst given)); [exact Hg | rewrite map_app; apply in_or_app; left; exact Hg]).
    destruct (dget String.eqb c (map _ _)) as [ty|] eqn:Ed.
    - exfalso. apply (dget_In _ String.eqb_spec) in Ed. apply in_map_iff in Ed as (c' & Heq & Hf). injection Heq as -> _. apply filter_In in Hf as [_ Hf]. apply negb_true_iff, mem_str_nIn in Hf. contradiction.
    - unfold g. destruct (mem_str i (map fst given)); [reflexivity|]. rewrite dget_app. destruct (dget String.eqb c given) eqn:Ed2; [reflexivity|]. apply (dget_None _ String.eqb_spec) in Ed2. contradiction.
  Qed.

  Lemma prepare_types a base copy l p : normalize_prepare a base copy = (l, Ok p) -> NoDup (t_names (p_df p)) ->
    In (a_index a) (t_names (p_df p)) /\ p_sec p = match a_sec a with Some (sti, scols) => [(sec_name a sti, map (sec_col a sti) scols)] | None => [] end /\
    ~ In (a_index a) (a_add a ++ copy) /\
    forall c, In c (a_add a ++ copy) -> c <> a_index a -> In c (map fst (p_types p)) /\ (p_time p <> Some c -> dget String.eqb c (p_types p) = option_map ordinary (vtype_of base c)).
  Proof.
    intros H Hnd. unfold normalize_prepare in H. apply sbind_Ok in H as (types & q & E & H). apply check_Ok in E as (-> & Hidx & Ht & Hv & Hne & _ & Htypes).
    apply sbind_Ok in H as (tim & q & E & H). apply time_Ok in E; [|exact Ht].
    apply sbind_Ok in H as (u & q1 & Eg & H). apply sguard_Ok in Eg as [Eg ->]. unfold sbind at 1 in H. unfold get_copy at 1 in H.
    apply sbind_Ok in H as (df2 & q1 & E2 & H). apply slift_Ok in E2 as [E2 ->]. apply sbind_Ok in H as (df3 & q1 & E3 & H). apply slift_Ok in E3 as [E3 ->].
    unfold sret in H. injection H as <- <-. cbn [p_df p_types p_time p_sec] in *.
    assert (NoDup (t_names df2)) as Hnd2.
    { unfold normalize_second in E3. destruct (a_sec a) as [[sti scols]|]; [|injection E3 as <-; exact Hnd]. destruct (t_select _ _) as [sdf|]; [|discriminate]. cbn [bind] in E3. destruct (mem_str _ (_ :: _)); [discriminate|]. cbv zeta in E3.
      destruct (existsb _ _); [discriminate|]. injection E3 as <-. cbn [fst snd] in Hnd. unfold t_names in *. cbn [t_cols] in Hnd. rewrite map_app in Hnd.
      clear -Hnd. induction (map fst (t_cols df2)) as [|x l IH]; [constructor|]. inversion Hnd as [|? ? H1 H2]; subst. constructor; [|exact (IH H2)]. intros Hx. apply H1. apply in_or_app. auto. }
    assert (In (a_index a) (t_names df2)) as Hi.
    { unfold normalize_first in E2. destruct (t_select _ _) as [sel|] eqn:Es in E2; [|discriminate]. cbn in E2. injection E2 as <-. apply t_select_Ok in Es as (S1 & _).
      assert (In (a_index a) (t_names sel)) as Hs by (rewrite S1; left; reflexivity). destruct E as [(v & srt & Em & -> & ->)|[(ti & nt & v & Eti & Em & Ev & -> & ->)|(-> & ->)]]; cbn [fst snd] in *; [| |exact Hs].
      - unfold t_names, t_rename. cbn [t_cols]. rewrite map_map. cbn [fst]. apply in_map_iff in Hs as (cd & Hc1 & Hc2). apply in_map_iff. exists cd. split; [|exact Hc2]. rewrite Hc1. destruct (String.eqb_spec (a_index a) v); congruence.
      - unfold t_names, t_rename. cbn [t_cols]. rewrite map_map. cbn [fst]. apply in_map_iff in Hs as (cd & Hc1 & Hc2). apply in_map_iff. exists cd. split; [|exact Hc2]. rewrite Hc1.
        destruct (String.eqb_spec (a_index a) ti) as [e|]; [|reflexivity]. exfalso.
        assert (t_names (t_rename ti nt sel) = map (fun c => if String.eqb c ti then nt else c) (t_names sel)) as Hm by (unfold t_names, t_rename; cbn [t_cols]; rewrite !map_map; reflexivity).
        rewrite Hm, S1, app_assoc, e in Hnd2. cbn [map] in Hnd2. rewrite String.eqb_refl, map_app in Hnd2. cbn [map] in Hnd2. rewrite String.eqb_refl in Hnd2. inversion Hnd2 as [|? ? Hx _]. apply Hx. apply in_or_app. right. left. reflexivity. }
    assert (In (a_index a) (t_names (fst df3)) /\ snd df3 = match a_sec a with Some (sti, scols) => [(sec_name a sti, map (sec_col a sti) scols)] | None => [] end) as [H3 H4].
    { unfold normalize_second in E3. destruct (a_sec a) as [[sti scols]|]; [|injection E3 as <-; auto]. destruct (t_select _ _) as [sdf|]; [|discriminate]. cbn [bind] in E3. destruct (mem_str _ (_ :: _)); [discriminate|]. cbv zeta in E3.
      destruct (existsb _ _); [discriminate|]. injection E3 as <-. cbn [fst snd]. split; [unfold t_names; cbn [t_cols]; rewrite map_app; apply in_or_app; left; exact Hi | reflexivity]. }
    split; [exact H3|]. split; [exact H4|]. split; [exact Hidx|].
    destruct (mapM_types _ _ _ Htypes) as [Hnames Htys].
    assert (forall c, In c (a_add a ++ copy) -> dget String.eqb c types = option_map ordinary (vtype_of base c)) as Hty.
    { intros c Hc. destruct (dget String.eqb c types) as [ty|] eqn:Ed.
      - apply (dget_In _ String.eqb_spec) in Ed. destruct (Htys c ty Ed) as (v & Hg & ->). unfold get_var in Hg. unfold vtype_of. destruct (find _ _) as [w|]; [|discriminate]. injection Hg as ->. cbn. f_equal. destruct (v_type v); reflexivity.
      - apply (dget_None _ String.eqb_spec) in Ed. destruct Ed. rewrite Hnames. exact Hc. }
    intros c Hc Hd. destruct E as [(v & srt & Em & -> & ->)|[(ti & nt & v & Eti & Em & Ev & -> & ->)|(-> & ->)]]; cbn [fst snd].
    - split; [apply dset_names; right; rewrite Hnames; exact Hc|]. intros _. rewrite (dget_dset_other _ String.eqb_spec) by congruence. apply Hty. exact Hc.
    - split; [apply dset_names; right; apply dset_names; right; rewrite Hnames; exact Hc|]. intros Hn. rewrite !(dget_dset_other _ String.eqb_spec) by congruence. apply Hty. exact Hc.
    - split; [apply dset_names; right; rewrite Hnames; exact Hc|]. intros _. rewrite (dget_dset_other _ String.eqb_spec) by congruence. apply Hty. exact Hc.
  Qed.

  (** *** The types.  The new entity has another name than the base entity. *)
  Theorem C38_types_partial a copy s s' l base :
    normalize_entity a copy s = (s', l, Ok tt) -> dget String.eqb (a_base a) (s_ents s) = Some base -> a_new a <> a_base a ->
    exists new base', dget String.eqb (a_new a) (s_ents s') = Some new /\ dget String.eqb (a_base a) (s_ents s') = Some base' /\
      (* the moved and copied variables have the type they had, but for a former time index *)
      (forall c, In c (a_add a ++ copy) -> n_time new <> Some c -> vtype_of new c = option_map ordinary (vtype_of base c)) /\
      (* the linking variable is the index of the new entity and an id of the base entity *)
      vtype_of new (a_index a) = Some TIndex /\ vtype_of base' (a_index a) = Some TId /\
      (* the other variables of the base entity and its time indexes are as before *)
      (forall c, ~ In c (a_add a) -> c <> a_index a -> vtype_of base' c = vtype_of base c) /\ n_time base' = n_time base /\ n_sec base' = n_sec base /\
      (* the secondary time index, itself one of its variables *)
      (forall sti scols, a_sec a = Some (sti, scols) -> exists cs, n_sec new = [(match a_sec_name a with Some n => n | None => sti end, cs)] /\
         forall c', In c' cs <-> exists c, In c (sti :: scols) /\ c' = if String.eqb c sti then match a_sec_name a with Some n => n | None => sti end else c) /\
      (a_sec a = None -> n_sec new = []).
  Proof.
    intros H Eb Hne. unfold M_Entities.normalize_entity in H. unfold sent in H. rewrite Eb in H.
    destruct (normalize_prepare a base copy) as [copy' [p|]] eqn:Ep; [|discriminate]. destruct (normalize_commit _ _ _ _ a p s) as [s1 r1] eqn:Ec. injection H as -> _ ->.
    unfold M_Entities.normalize_commit in Ec. apply sbind_Ok in Ec as ([] & s1 & E1 & H).
    (* the prepared frame *)
    assert (In (a_index a) (t_names (p_df p)) /\ p_sec p = match a_sec a with Some (sti, scols) => [(sec_name a sti, map (sec_col a sti) scols)] | None => [] end /\
      ~ In (a_index a) (a_add a ++ copy) /\
      forall c, In c (a_add a ++ copy) -> c <> a_index a -> In c (map fst (p_types p)) /\ (p_time p <> Some c -> dget String.eqb c (p_types p) = option_map ordinary (vtype_of base c))) as (Q1 & Q2 & Q3 & Q4).
    { apply (prepare_types a base copy copy' p Ep). unfold entity_from_dataframe in E1. apply sbind_Ok in E1 as (u & x & _ & E1). apply sbind_Ok in E1 as (u1 & x1 & _ & E1). apply sbind_Ok in E1 as (e & x2 & En & _).
      destruct (new_entity _ _ _ _ _ _ _ _ _ _ _ _ _) as [k y] eqn:En' in En. injection En as _ ->. apply new_entity_Ok in En' as (? & ? & ? & ? & ? & _ & _ & _ & Hn & _). exact Hn. }
    apply create_types in E1 as (T0 & e & Ee & T1 & T2 & T3 & T4); [|exact Q1].
    apply sbind_Ok in H as ([] & s2 & E2 & H).
    assert (dget String.eqb (a_base a) (s_ents s1) = Some base) as Eb1 by (rewrite Ee, (dget_dset_other _ String.eqb_spec) by congruence; exact Eb).
    assert (dget String.eqb (a_new a) (s_ents s1) = Some e) as En1 by (rewrite Ee; apply (dget_dset_same _ String.eqb_spec)).
    unfold on_entity in E2. unfold sent in E2. rewrite Eb1 in E2. destruct (delete_variables (a_add a) (s_kind s1, base)) as [[kd bd] rd] eqn:Ed. injection E2 as <- ->. apply delete_types in Ed as (D1 & D2 & D3).
    apply sbind_Ok in H as ([] & s3 & E3 & H). rewrite (proj2 (String.eqb_neq _ _) Hne) in E3. pose proof E3 as E3'. apply on_entity_off in E3 as (O1 & b3 & Eb3 & Tb3).
    destruct (O1 (a_base a) bd) as (b3' & Eb3' & B1 & B2 & B3); [cbn; apply (dget_dset_same _ String.eqb_spec)|]. rewrite Eb3 in Eb3'. injection Eb3' as <-.
    assert (dget String.eqb (a_new a) (s_ents s3) = Some e) as En3.
    { unfold on_entity, sent in E3'. cbn [s_ents with_kind with_ents] in E3'. rewrite (dget_dset_same _ String.eqb_spec) in E3'. destruct (convert_variable_type _ _ _ _ _ _) as [[kx ex] rx] in E3'. injection E3' as <- _. cbn.
      rewrite !(dget_dset_other _ String.eqb_spec) by congruence. exact En1. }
    apply sbind_Ok in H as ([] & s4 & E4 & H). unfold reset_meta, smod in H. injection H as <-.
    apply (relate_alike (mkRel (a_new a) (a_index a) (a_base a) (a_index a)) _ _ _ b3 e Eb3 En3 Tb3 T3) in E4. destruct (E4 _ _ En3) as (new & G1 & N1 & N2 & N3). destruct (E4 _ _ Eb3) as (base' & G2 & M1 & M2 & M3).
    exists new, base'. cbn [s_ents with_meta]. split; [exact G1|]. split; [exact G2|]. unfold vtype_of. fold (tyof (n_vars new)). rewrite N3, M3, N1, N2, M1, M2.
    split; [|split; [exact T3|split; [exact Tb3|split; [|split; [congruence|split; [congruence|split]]]]]].
    - intros c Hc Ht. rewrite T2 in Ht. destruct (String.eqb_spec c (a_index a)) as [->|Hd]; [contradiction|]. destruct (Q4 c Hc Hd) as [Q5 Q6]. fold (tyof (n_vars e) c). rewrite T4; auto.
    - intros c Hc Hd. change (tyof (n_vars b3) c = tyof (n_vars base) c). rewrite B3 by exact Hd. apply D3. exact Hc.
    - intros sti scols Es. rewrite T1, Q2, Es. cbn [map closed fst snd]. eexists. split; [reflexivity|]. intros c'. fold (sec_name a sti).
      assert (In c' (map (sec_col a sti) (sti :: scols)) <-> (exists c, In c (sti :: scols) /\ c' = (if String.eqb c sti then sec_name a sti else c))) as Hm.
      { rewrite in_map_iff. split; intros (c & Hc1 & Hc2); exists c; [split; [exact Hc2 | symmetry; exact Hc1] | split; [symmetry; exact Hc2 | exact Hc1]]. }
      rewrite <- Hm. cbn [map]. assert (sec_col a sti sti = sec_name a sti) as -> by (unfold sec_col; rewrite String.eqb_refl; reflexivity).
      destruct (mem_str _ _) eqn:Em; [apply mem_str_In in Em; cbn [In]; split; [auto | intros [<-|Hx]; auto] | rewrite in_app_iff; cbn [In]; tauto].
    - intros Es. rewrite T1, Q2, Es. reflexivity.
  Qed.
End Types.

(** the last date of each customer as a secondary time index *)
Definition sec_args : norm_args := mkNorm "events" "customers" "cid" ["x"] MtiNone (Some ("t", [])) None (Some "last_time").
Definition infc (t : table) (c : string) : vtype := match t_dtype t c with Ok DDate => TDatetime | Ok DInt | Ok DFloat => TNumeric | Ok DBool => TBoolean | _ => TCategorical end.
Lemma infc_compatible : infers_compatible infc.
Proof. intros t c d H. unfold infc. rewrite H. destruct d; split; cbn; intros; congruence. Qed.
Notation norm1 := (normalize_entity nr dt okd infc).
Example C38_types_nonvacuous : exists base s',
  norm1 sec_args [] events_only = (s', [], Ok tt) /\ dget String.eqb "events" (s_ents events_only) = Some base /\ well_typed base /\ t_rows (n_tab base) <> [] /\
  option_map (fun e => (t_rows (n_tab e), n_sec e, map (fun v => (v_id v, v_type v)) (n_vars e))) (dget String.eqb "customers" (s_ents s')) =
    Some ([[("cid", VNum 10); ("last_time", VNum 5); ("x", VNum 2); ("first_events_time", VNum 5)]; [("cid", VNum 20); ("last_time", VNum 9); ("x", VNum 3); ("first_events_time", VNum 5)]],
          [("last_time", ["last_time"])], [("cid", TIndex); ("last_time", TDatetime); ("x", TNumeric); ("first_events_time", TDatetimeTimeIndex)]).
Proof.
  destruct (dget String.eqb "events" (s_ents events_only)) as [base|] eqn:E; [|vm_compute in E; discriminate]. exists base, (fst (fst (norm1 sec_args [] events_only))).
  split; [vm_compute; reflexivity|]. split; [reflexivity|]. split; [|split; [|vm_compute; reflexivity]]; vm_compute in E; injection E as <-.
  - intros v d Hv Hd. cbn in Hv. repeat (destruct Hv as [<-|Hv]; [vm_compute in Hd; injection Hd as <-; cbn; intuition congruence|]). destruct Hv.
  - discriminate.
Qed.
Print Assumptions C38_types_partial.
