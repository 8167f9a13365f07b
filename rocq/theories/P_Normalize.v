(** C38: normalize_entity splits an entity without loss.  C39: what calls do to the objects passed by the caller. *)
From Coq Require Import Sorting.Permutation Sorting.Sorted.
From Verif Require Import Base BaseFacts M_Schema M_Table M_LastTime L_LastTime M_Entities S_Entities S_Calls.
From Verif Require Import P_Equality L_Entities L_Tables P_Relate P_Meta P_Tables L_Normalize.
From Verif Require M_Feature.
Local Open Scope string_scope.
Local Open Scope list_scope.

Lemma check_Ok a base copy l types : normalize_check a base copy = (l, Ok types) ->
  l = copy /\ ~ In (a_index a) (a_add a ++ copy) /\ (forall ti, n_time base = Some ti -> ~ In ti (a_add a)) /\
  (forall v, a_mti a = MtiVar v -> In v (a_add a ++ copy)) /\ a_index a <> n_index base /\ (exists v, get_var (a_index a) (n_vars base) = Ok v) /\
  mapM (fun c => do v <- get_var c (n_vars base); Ok (c, transfer (v_type v))) (a_add a ++ copy) = Ok types.
Proof.
  intros H. pose proof (check_time _ _ _ _ _ H) as Ht. unfold normalize_check in H. unfold sbind at 1 in H. unfold get_copy at 1 in H.
  apply sbind_Ok in H as (u & q & E & H). assert (q = copy) as ->.
  { destruct (n_time base); [|unfold sret in E; congruence]. apply sbind_Ok in E as (v & q' & E1 & E2). apply slift_Ok in E1 as [_ ->]. apply sguard_Ok in E2 as [_ E2]. congruence. }
  clear E. apply sbind_Ok in H as (u1 & q & E & H). apply sguard_Ok in E as [_ ->]. apply sbind_Ok in H as (u2 & q & E & H). apply sguard_Ok in E as [_ ->].
  apply sbind_Ok in H as (u3 & q & E3 & H). apply sguard_Ok in E3 as [E3 ->]. apply sbind_Ok in H as (u4 & q & E & H). apply sguard_Ok in E as [_ ->].
  apply sbind_Ok in H as (u5 & q & E5 & H). assert (q = copy /\ forall v, a_mti a = MtiVar v -> In v (a_add a ++ copy)) as [-> Hv].
  { destruct (a_mti a) as [| | |v]; try (unfold sret in E5; split; [congruence | discriminate]).
    apply sbind_Ok in E5 as (w & q' & E1 & E2). apply sguard_Ok in E1 as [_ ->]. apply sguard_Ok in E2 as [E2 ->]. split; [reflexivity|]. intros v' Hv'. injection Hv' as <-. apply mem_str_In. exact E2. }
  apply sbind_Ok in H as (u6 & q & E6 & H). apply sguard_Ok in E6 as [E6 ->]. apply sbind_Ok in H as (v & q & E7 & H). apply slift_Ok in E7 as [E7 ->]. apply slift_Ok in H as [H ->].
  apply negb_true_iff in E3, E6. apply mem_str_nIn in E3. apply String.eqb_neq in E6. repeat split; eauto.
Qed.

Lemma time_Ok a base types copy l tim : normalize_time a base types copy = (l, Ok tim) -> (forall ti, n_time base = Some ti -> ~ In ti (a_add a)) ->
  (exists v srt, a_mti a = MtiVar v /\ l = copy /\ tim = (Some (v, v), srt, types)) \/
  (exists ti nt v, n_time base = Some ti /\ (a_mti a = MtiNone \/ a_mti a = MtiTrue) /\ get_var ti (n_vars base) = Ok v /\ l = copy ++ [ti] /\ tim = (Some (ti, nt), true, dset String.eqb nt (v_type v) types)) \/
  (l = copy /\ tim = (None, false, types)).
Proof.
  intros H Ht. unfold normalize_time in H.
  assert (forall ti, n_time base = Some ti -> (a_mti a = MtiNone \/ a_mti a = MtiTrue) ->
    ((if mem_str ti (a_add a) then sret tt else add_copy ti) ;;; v <~ slift (get_var ti (n_vars base)) ;;
      sret (Some (ti, match a_time a with Some n => n | None => ("first_" ++ n_id base ++ "_time")%string end), true, dset String.eqb (match a_time a with Some n => n | None => ("first_" ++ n_id base ++ "_time")%string end) (v_type v) types)) copy = (l, Ok tim) ->
    exists ti nt v, n_time base = Some ti /\ (a_mti a = MtiNone \/ a_mti a = MtiTrue) /\ get_var ti (n_vars base) = Ok v /\ l = copy ++ [ti] /\ tim = (Some (ti, nt), true, dset String.eqb nt (v_type v) types)) as Htrue.
  { intros ti Eti Hm Hx. apply sbind_Ok in Hx as (u & q & E & Hx). apply sbind_Ok in Hx as (v & q2 & E2 & Hx). apply slift_Ok in E2 as [E2 ->]. unfold sret in Hx. injection Hx as <- <-.
    rewrite (proj2 (mem_str_nIn ti (a_add a)) (Ht ti Eti)) in E. unfold add_copy in E. injection E as <- _. exists ti. eauto 10. }
  destruct (a_mti a) as [| | |v] eqn:Em.
  - destruct (n_time base) as [ti|] eqn:Eti; [right; left; apply (Htrue ti eq_refl); auto | unfold sret in H; injection H as <- <-; auto].
  - destruct (n_time base) as [ti|] eqn:Eti; [right; left; apply (Htrue ti eq_refl); auto | discriminate].
  - unfold sret in H. injection H as <- <-. auto.
  - unfold sret in H. injection H as <- <-. left. eauto.
Qed.

Lemma mapM_types base cs types : mapM (fun c => do v <- get_var c (n_vars base); Ok (c, transfer (v_type v))) cs = Ok types ->
  map fst types = cs /\ forall c ty, In (c, ty) types -> exists v, get_var c (n_vars base) = Ok v /\ ty = transfer (v_type v).
Proof.
  revert types. induction cs as [|a cs IH]; cbn [mapM]; intros types H; [injection H as <-; split; [reflexivity | intros c ty []]|].
  destruct (get_var a (n_vars base)) as [v|] eqn:E; [|discriminate]. cbn in H. destruct (mapM _ cs) as [l|]; [|discriminate]. cbn in H. injection H as <-. destruct (IH l eq_refl) as [H1 H2].
  split; [cbn; congruence|]. intros c ty [Heq|Hin]; [injection Heq as <- <-; eauto | exact (H2 c ty Hin)].
Qed.
Lemma get_var_In id vs v : get_var id vs = Ok v -> In v vs /\ v_id v = id.
Proof. unfold get_var. destruct (find _ vs) as [w|] eqn:E; [|discriminate]. intros H. injection H as <-. apply find_some in E as [E1 E2]. apply String.eqb_eq in E2. auto. Qed.
Lemma compat_typed e v d ty : well_typed e -> In v (n_vars e) -> t_dtype (n_tab e) (v_id v) = Ok d -> ty = v_type v \/ ty = transfer (v_type v) -> compat ty d.
Proof.
  intros Hw Hv Hd Hty. destruct (Hw v d Hv Hd) as [H1 H2]. split; intros Hk.
  - assert (v_type v = TNumeric \/ v_type v = TNumericTimeIndex) as Hx by (destruct Hty as [-> | ->]; destruct (v_type v); cbn in Hk; try discriminate; auto). destruct (H1 Hx) as [-> | ->]; reflexivity.
  - apply H2. destruct Hty as [-> | ->]; destruct (v_type v); cbn in Hk; try discriminate; auto.
Qed.
Lemma In_dset {A} k (v : A) l c x : In (c, x) (dset String.eqb k v l) -> (c = k /\ x = v) \/ (In (c, x) l).
Proof.
  induction l as [|[a y] l IH]; cbn; [intros [H|[]]; injection H as <- <-; auto|]. destruct (String.eqb_spec k a) as [->|Hne]; cbn.
  - intros [H|H]; [injection H as <- <-; auto | auto].
  - intros [H|H]; [auto|]. destruct (IH H); auto.
Qed.
Lemma dset_names {A} k (v : A) l c : In c (map fst (dset String.eqb k v l)) <-> c = k \/ In c (map fst l).
Proof.
  induction l as [|[a y] l IH]; cbn; [intuition congruence|]. destruct (String.eqb_spec k a) as [->|Hne]; cbn; [intuition congruence|]. rewrite IH. intuition congruence.
Qed.
Lemma t_drop_nil t : t_drop [] t = t.
Proof.
  destruct t as [cols rows]. unfold t_drop. cbn. f_equal.
  - induction cols as [|a l IH]; cbn; congruence.
  - rewrite <- (map_id rows) at 2. apply map_ext. intros r. induction r as [|a l IH]; cbn; congruence.
Qed.
Lemma delete_Ok ids k e p : delete_variables ids (k, e) = (p, Ok tt) -> exists vs, p = (k, with_vars vs (with_tab (t_drop ids (n_tab e)) e)).
Proof.
  destruct ids as [|i ids].
  - unfold delete_variables, sret. intros H. injection H as <-. exists (n_vars e). rewrite t_drop_nil. destruct e; reflexivity.
  - unfold delete_variables. intros H. unfold sbind at 1 in H. unfold eget at 1 in H. cbn [fst snd] in H. apply sbind_Ok in H as (u & q & E & H). apply sguard_Ok in E as [_ ->].
    apply sbind_Ok in H as (u2 & q & E & H). unfold emod in E. cbn [fst snd] in E. injection E as <- _.
    set (e1 := with_tab (t_drop (i :: ids) (n_tab e)) e) in *.
    assert (keeps (fun q => exists vs, q = (k, with_vars vs e1)) (siter (fun id => e <~ eget ;; _ <~ slift (get_var id (n_vars e)) ;; emod (with_vars (remove_first id (n_vars e)))) (i :: ids))) as K.
    { apply keeps_iter. intros a _ q q' r0 (vs & ->) Hq. unfold sbind, eget, slift, emod in Hq. cbn in Hq. destruct (get_var a vs); injection Hq as <- _; eexists; reflexivity. }
    destruct (K (k, e1) p (Ok tt)) as (vs & ->); [exists (n_vars e1); rewrite with_vars_id; reflexivity | exact H|]. exists vs. reflexivity.
Qed.
Lemma t_drop_dtype ids t c : ~ In c ids -> t_dtype (t_drop ids t) c = t_dtype t c.
Proof. intros Hc. unfold t_dtype, t_drop. cbn [t_cols]. rewrite (dget_filter_key (fun x => negb (mem_str x ids))); [reflexivity|]. apply negb_true_iff, mem_str_nIn. exact Hc. Qed.

Lemma Forall2_in_r {A B} (P : A -> B -> Prop) l l' b : Forall2 P l l' -> In b l' -> exists a, In a l /\ P a b.
Proof. intros H. induction H as [|x y l l' Hxy _ IH]; intros Hin; [destruct Hin|]. destruct Hin as [->|Hin]; [exists x; split; [left; reflexivity | exact Hxy]|]. destruct (IH Hin) as (a & Ha & Hp). exists a. split; [right; exact Ha | exact Hp]. Qed.
Lemma Forall2_impl {A B} (P Q : A -> B -> Prop) l l' : (forall a b, P a b -> Q a b) -> Forall2 P l l' -> Forall2 Q l l'.
Proof. intros H. induction 1; constructor; auto. Qed.
Lemma Forall2_map_l {A B C} (P : B -> C -> Prop) (g : A -> B) l l' : Forall2 P (map g l) l' -> Forall2 (fun a c => P (g a) c) l l'.
Proof. revert l'. induction l as [|a l IH]; cbn; intros l' H; inversion H; subst; constructor; auto. Qed.
Lemma NoDup_map_eq {A B} (g : A -> B) l x y : NoDup (map g l) -> In x l -> In y l -> g x = g y -> x = y.
Proof.
  induction l as [|a l IH]; cbn; intros Hn Hx Hy Heq; [destruct Hx|]. inversion Hn as [|? ? Hna Hn']; subst.
  destruct Hx as [->|Hx], Hy as [->|Hy]; auto; exfalso; apply Hna; [rewrite Heq | rewrite <- Heq]; apply in_map; assumption.
Qed.
(** a relationship changes no rows *)
Lemma relate_rows tn td r s s' x : relate tn td r s = (s', x) -> forall id e, dget String.eqb id (s_ents s) = Some e ->
  exists e', dget String.eqb id (s_ents s') = Some e' /\ t_rows (n_tab e') = t_rows (n_tab e).
Proof.
  intros H. set (P := fun s0 s1 : eset => forall id e, dget String.eqb id (s_ents s0) = Some e -> exists e', dget String.eqb id (s_ents s1) = Some e' /\ t_rows (n_tab e') = t_rows (n_tab e)).
  assert (forall a b, vars_only a b -> P a b) as Hvo by (intros a b Hv id e E; destruct (vars_only_get _ _ _ _ Hv E) as (vs & Hg); eexists; split; [exact Hg | reflexivity]).
  assert (forall a b c, P a b -> P b c -> P a c) as Htr by (intros a b c H1 H2 id e E; destruct (H1 id e E) as (e1 & E1 & R1); destruct (H2 id e1 E1) as (e2 & E2 & R2); exists e2; split; [exact E2 | congruence]).
  change (P s s'). unfold relate in H. apply sbind_any in H as [(u & s1 & E & H)|(y & E & _)]; apply make_relationship_state in E as ->; [|apply Hvo, vars_only_refl].
  unfold add_relationship in H. unfold sbind at 1 in H. unfold sget at 1 in H. destruct (existsb _ _); [unfold sret in H; injection H as <- _; apply Hvo, vars_only_refl|].
  apply sbind_any in H as [(ce & s1 & E & H)|(y & E & _)]; apply slift_state in E as ->; [|apply Hvo, vars_only_refl].
  apply sbind_any in H as [(u1 & s1 & E & H)|(y & E & _)]; apply sguard_state in E as ->; [|apply Hvo, vars_only_refl].
  apply sbind_any in H as [(pe & s1 & E & H)|(y & E & _)]; apply slift_state in E as ->; [|apply Hvo, vars_only_refl].
  apply sbind_any in H as [(u2 & s1 & E & H)|(y & E & _)]; apply ensure_type_vars in E; [|apply Hvo; exact E].
  apply sbind_any in H as [(u3 & s2 & E2 & H)|(y & E2 & _)]; apply ensure_type_vars in E2; pose proof (Htr _ _ _ (Hvo _ _ E) (Hvo _ _ E2)) as H2; [|exact H2].
  unfold sbind at 1 in H. unfold sget at 1 in H.
  apply sbind_any in H as [(ce' & s4 & E5 & H)|(y & E5 & _)]; [|apply slift_state in E5 as ->; exact H2]. apply slift_Ok in E5 as [E5 ->].
  apply sbind_any in H as [(cd & s4 & E6 & H)|(y & E6 & _)]; apply slift_state in E6 as ->; [|exact H2].
  apply sbind_any in H as [(pe' & s4 & E6 & H)|(y & E6 & _)]; apply slift_state in E6 as ->; [|exact H2].
  apply sbind_any in H as [(pd & s4 & E6 & H)|(y & E6 & _)]; apply slift_state in E6 as ->; [|exact H2]. cbv zeta in H.
  match type of H with sbind ?m _ _ = _ => assert (forall z q, m s2 = (z, q) -> P s2 z) as Hm end.
  { intros z q Hz. destruct (t_rows (n_tab ce')) as [|r0 l0] eqn:Er; [|unfold sret in Hz; injection Hz as <- _; apply Hvo, vars_only_refl].
    destruct (dtype_eqb cd DObj && numeric_dtype pd); [|unfold sret in Hz; injection Hz as <- _; apply Hvo, vars_only_refl].
    unfold on_entity in Hz. rewrite E5 in Hz. unfold emod in Hz. cbn in Hz. injection Hz as <- _. apply sent_In in E5. intros id e Ee. cbn. destruct (String.eqb_spec id (r_ce r)) as [Hd|Hd].
    - subst id. rewrite E5 in Ee. injection Ee as <-. rewrite (dget_dset_same _ String.eqb_spec). eexists. split; [reflexivity|]. cbn. symmetry. exact Er.
    - rewrite (dget_dset_other _ String.eqb_spec) by congruence. eauto. }
  apply sbind_any in H as [(u4 & s4 & E6 & H)|(y & E6 & _)]; pose proof (Htr _ _ _ H2 (Hm _ _ E6)) as H4; [|exact H4].
  apply sbind_any in H as [(u5 & s5 & E7 & H)|(y & E7 & _)]; apply sguard_state in E7 as ->; [|exact H4]. unfold sbind, smod, reset_meta in H. injection H as <- _. exact H4.
Qed.

Section C38.
  Variables to_numeric to_datetime : list val -> res (dtype * list val).
  Variable obj_kind : val -> res (option tkind).
  Variable infer : table -> string -> vtype.
  Notation normalize_entity := (normalize_entity to_numeric to_datetime obj_kind infer).
  Notation normalize_commit := (normalize_commit to_numeric to_datetime obj_kind infer).

  (** the frame of the new entity *)
  Lemma prepare_Ok a base copy l p : normalize_prepare a base copy = (l, Ok p) -> a_sec a = None -> well_typed base -> NoDup (t_names (p_df p)) ->
    let cs := a_index a :: a_add a ++ copy in
    In (a_index a) (t_names (p_df p)) /\ ~ In (a_index a) (a_add a ++ copy) /\ a_index a <> n_index base /\
    (forall ti, n_time base = Some ti -> ~ In ti (a_add a)) /\
    (forall c ty d, In (c, ty) (all_types infer (p_df p) (p_types p) (a_index a)) -> t_dtype (p_df p) c = Ok d -> compat ty d) /\
    (forall c, In c cs -> In c (t_names (p_df p)) /\ exists d, t_dtype (n_tab base) c = Ok d /\ t_dtype (p_df p) c = Ok d) /\
    exists f : row -> row, t_rows (p_df p) = map f (first_rows [a_index a] (t_rows (n_tab base))) /\
      (forall r c, In c cs -> cell c (f r) = cell c r) /\
      (forall nt, p_time p = Some nt -> In nt (t_names (p_df p)) /\ exists bt, (a_mti a = MtiVar bt \/ n_time base = Some bt) /\ forall r, cell nt (f r) = cell bt r) /\
      (forall c, In c (map fst (p_types p)) <-> In c (t_names (p_df p))) /\ (forall r, map fst (f r) = t_names (p_df p)).
  Proof.
    intros H Hsec Hw Hnd cs. unfold normalize_prepare in H. apply sbind_Ok in H as (types & q & E & H). apply check_Ok in E as (-> & Hidx & Ht & Hv & Hne & _ & Htypes).
    apply sbind_Ok in H as (tim & q & E & H). apply time_Ok in E; [|exact Ht].
    apply sbind_Ok in H as (u & q1 & Eg & H). apply sguard_Ok in Eg as [Eg ->]. unfold sbind at 1 in H. unfold get_copy at 1 in H.
    apply sbind_Ok in H as (df2 & q1 & E2 & H). apply slift_Ok in E2 as [E2 ->]. apply sbind_Ok in H as (df3 & q1 & E3 & H). apply slift_Ok in E3 as [E3 ->].
    unfold normalize_second in E3. rewrite Hsec in E3. injection E3 as <-. unfold sret in H. injection H as <- <-. cbn [p_df p_types p_time fst snd] in *.
    unfold normalize_first in E2. destruct (t_select _ _) as [sel|] eqn:Es in E2; [|discriminate]. cbn in E2. injection E2 as <-.
    apply t_select_Ok in Es as (S1 & S2 & _ & D & S4 & S5). cbn [t_rows] in S2.
    assert (forall c, In c (a_index a :: a_add a ++ q) -> t_dtype (n_tab base) c = Ok (D c)) as HD.
    { intros c Hc. specialize (S5 c Hc). unfold t_dtype in *. cbn [t_cols] in S5. exact S5. }
    destruct (mapM_types _ _ _ Htypes) as [Hnames Htys].
    destruct E as [(v & srt & Em & -> & ->)|[(ti & nt & v & Eti & Em & Ev & -> & ->)|(-> & ->)]]; cbn [fst snd] in *.
    - (* a variable is named as time index *)
      assert (t_rename v v sel = sel) as Hr.
      { unfold t_rename. destruct sel as [cols rows]. cbn. f_equal.
        - rewrite <- (map_id cols) at 2. apply map_ext. intros [c d]. cbn. destruct (String.eqb_spec c v) as [->|]; reflexivity.
        - rewrite <- (map_id rows) at 2. apply map_ext. intros r. rewrite <- (map_id r) at 2. apply map_ext. intros [c d]. cbn. destruct (String.eqb_spec c v) as [->|]; reflexivity. }
      rewrite Hr in *. rewrite S1 in *.
      assert (forall c, In c (a_index a :: a_add a ++ copy) -> t_dtype sel c = Ok (D c)) as Hsd.
      { intros c Hc. unfold t_dtype. rewrite S4. replace (map (fun c0 => (c0, D c0)) (a_index a :: a_add a ++ copy)) with (map (fun x => ((fun y => y) x, D x)) (a_index a :: a_add a ++ copy)) by reflexivity.
        rewrite (dget_NoDup_In _ String.eqb_spec c (D c)); [reflexivity | rewrite map_map; cbn [fst]; rewrite map_id; exact Hnd |]. apply in_map_iff. exists c. auto. }
      split; [left; reflexivity|]. split; [exact Hidx|]. split; [exact Hne|]. split; [exact Ht|]. split; [|split].
      + intros c ty d Hin Hd. unfold all_types in Hin. apply in_app_or in Hin as [Hin|Hin].
        * exfalso. apply in_map_iff in Hin as (c' & _ & Hin). apply filter_In in Hin as [Hc Hn]. rewrite S1 in Hc. apply negb_true_iff, mem_str_nIn in Hn. apply Hn. clear Hn.
          assert (In c' (map fst (dset String.eqb (a_index a) TCategorical types))) as HH by (apply dset_names; rewrite Hnames; destruct Hc; auto).
          destruct (mem_str _ _); [exact HH | rewrite map_app; apply in_or_app; left; exact HH].
        * assert (In (c, ty) (dset String.eqb (a_index a) TCategorical types)) as Hin'.
          { destruct (mem_str (a_index a) (map fst (dset String.eqb (a_index a) TCategorical types))) eqn:Em2; [exact Hin|]. apply mem_str_nIn in Em2. destruct Em2. apply dset_names. auto. }
          apply In_dset in Hin' as [[-> ->]|Hin']; [split; discriminate|]. destruct (Htys c ty Hin') as (w & Hw1 & ->). apply get_var_In in Hw1 as [Hw1 Hw2].
          assert (In c (a_add a ++ copy)) as Hc by (rewrite <- Hnames; apply (in_map fst) in Hin'; exact Hin').
          rewrite Hsd in Hd by (right; exact Hc). injection Hd as <-. eapply compat_typed; [exact Hw | exact Hw1 | rewrite Hw2; apply HD; right; exact Hc | right; reflexivity].
      + intros c Hc. split; [exact Hc|]. exists (D c). split; [apply HD; exact Hc | apply Hsd; exact Hc].
      + exists (fun r => map (fun c => (c, cell c r)) (a_index a :: a_add a ++ copy)). split; [exact S2|]. split; [intros r c Hc; apply cell_select; exact Hc|].
        split; [intros nt Hnt; injection Hnt as <-; specialize (Hv v Em); split; [right; exact Hv|]; exists v; split; [left; exact Em|]; intros r; apply cell_select; right; exact Hv|].
        split; [intros c; rewrite dset_names, Hnames; cbn [In]; intuition congruence | intros r; rewrite map_map; cbn [fst]; apply map_id].
    - (* the base time index, renamed *)
      set (rn := fun c : string => if String.eqb c ti then nt else c) in *.
      set (cs' := a_index a :: a_add a ++ copy ++ [ti]) in *.
      assert (t_names (t_rename ti nt sel) = map rn cs') as Hrn by (unfold t_names, t_rename; cbn [t_cols]; rewrite map_map; cbn [fst]; rewrite S4, map_map; reflexivity).
      rewrite Hrn in Hnd. assert (NoDup cs') as Hnd' by (apply NoDup_map_inv with (f := rn); exact Hnd).
      assert (forall c, In c cs -> c <> ti /\ In c cs') as Hcs.
      { intros c Hc. split.
        - intros ->. assert (cs' = cs ++ [ti]) as Hc' by (unfold cs', cs; cbn; rewrite app_assoc; reflexivity). rewrite Hc' in Hnd'. apply NoDup_remove_2 in Hnd'. rewrite app_nil_r in Hnd'. contradiction.
        - unfold cs', cs in *. destruct Hc as [Hc|Hc]; [left; exact Hc|]. right. rewrite app_assoc. apply in_or_app. left. exact Hc. }
      assert (forall c, c <> ti -> rn c = c) as Hrc by (intros c Hc; unfold rn; destruct (String.eqb_spec c ti); [contradiction | reflexivity]).
      assert (rn ti = nt) as Hrt by (unfold rn; rewrite String.eqb_refl; reflexivity).
      assert (In ti cs') as Hti by (unfold cs'; right; rewrite app_assoc; apply in_or_app; right; left; reflexivity).
      assert (forall c, In c cs' -> t_dtype (t_rename ti nt sel) (rn c) = Ok (D c)) as Hsd.
      { intros c Hc. unfold t_dtype, t_rename. cbn [t_cols]. rewrite S4, map_map. cbn [fst snd]. fold rn.
        rewrite (dget_NoDup_In _ String.eqb_spec (rn c) (D c)); [reflexivity | rewrite map_map; cbn [fst]; exact Hnd |]. apply in_map_iff. exists c. auto. }
      assert (forall r c, In c cs' -> cell (rn c) (map (fun cv => (rn (fst cv), snd cv)) (map (fun c => (c, cell c r)) cs')) = cell c r) as Hcell.
      { intros r c Hc. rewrite map_map. cbn [fst snd]. apply (cell_built rn (fun c => cell c r)); assumption. }
      rewrite Hrn. destruct (Hcs (a_index a) (or_introl eq_refl)) as [Hi1 Hi2].
      split; [rewrite <- (Hrc _ Hi1); apply in_map; exact Hi2|]. split; [exact Hidx|]. split; [exact Hne|]. split; [exact Ht|].
      split; [|split].
      + intros c ty d Hin Hd. unfold all_types in Hin. apply in_app_or in Hin as [Hin|Hin].
        * exfalso. apply in_map_iff in Hin as (c' & _ & Hin). apply filter_In in Hin as [Hc Hn]. apply negb_true_iff, mem_str_nIn in Hn. apply Hn. clear Hn.
          assert (In c' (map fst (dset String.eqb (a_index a) TCategorical (dset String.eqb nt (v_type v) types)))) as HH.
          { apply dset_names. rewrite Hrn in Hc. apply in_map_iff in Hc as (c0 & <- & Hc0). destruct (String.eqb_spec c0 ti) as [->|Hd0].
            - right. apply dset_names. left. exact Hrt.
            - rewrite (Hrc c0 Hd0). unfold cs' in Hc0. destruct Hc0 as [<-|Hc0]; [left; reflexivity|]. right. apply dset_names. right. rewrite Hnames. rewrite app_assoc in Hc0. apply in_app_or in Hc0 as [Hc0|[Hc0|[]]]; [exact Hc0 | congruence]. }
          destruct (mem_str _ _); [exact HH | rewrite map_app; apply in_or_app; left; exact HH].
        * assert (In (c, ty) (dset String.eqb (a_index a) TCategorical (dset String.eqb nt (v_type v) types))) as Hin'.
          { destruct (mem_str (a_index a) _) eqn:Em2 in Hin; [exact Hin|]. apply mem_str_nIn in Em2. destruct Em2. apply dset_names. auto. }
          apply In_dset in Hin' as [[-> ->]|Hin']; [split; discriminate|]. apply In_dset in Hin' as [[-> ->]|Hin'].
          -- pose proof (Hsd ti Hti) as Hx. rewrite Hrt in Hx. rewrite Hx in Hd. injection Hd as <-. apply get_var_In in Ev as [Ev1 Ev2]. eapply compat_typed; [exact Hw | exact Ev1 | rewrite Ev2; apply HD; exact Hti | left; reflexivity].
          -- destruct (Htys c ty Hin') as (w & Hw1 & ->). apply get_var_In in Hw1 as [Hw1 Hw2].
             assert (In c cs) as Hc by (right; rewrite <- Hnames; apply (in_map fst) in Hin'; exact Hin'). destruct (Hcs c Hc) as [Hc1 Hc2].
             pose proof (Hsd c Hc2) as Hx. rewrite (Hrc c Hc1) in Hx. rewrite Hx in Hd. injection Hd as <-. eapply compat_typed; [exact Hw | exact Hw1 | rewrite Hw2; apply HD; exact Hc2 | right; reflexivity].
      + intros c Hc. destruct (Hcs c Hc) as [Hc1 Hc2]. split; [rewrite <- (Hrc c Hc1); apply in_map; exact Hc2|]. exists (D c). split; [apply HD; exact Hc2|]. pose proof (Hsd c Hc2) as Hx. rewrite (Hrc c Hc1) in Hx. exact Hx.
      + exists (fun r => map (fun cv => (rn (fst cv), snd cv)) (map (fun c => (c, cell c r)) cs')). split; [|split; [|split]].
        * unfold t_rename. cbn [t_rows]. rewrite S2, map_map. reflexivity.
        * intros r c Hc. destruct (Hcs c Hc) as [Hc1 Hc2]. pose proof (Hcell r c Hc2) as Hx. rewrite (Hrc c Hc1) in Hx. exact Hx.
        * intros nt' Hnt. injection Hnt as <-. split; [rewrite <- Hrt; apply in_map; exact Hti|]. exists ti. split; [right; exact Eti|]. intros r. pose proof (Hcell r ti Hti) as Hx. rewrite Hrt in Hx. exact Hx.
        * split; [|intros r; rewrite !map_map; cbn [fst]; reflexivity].
          intros c. rewrite !dset_names, Hnames. rewrite in_map_iff. split.
          -- intros [->|[->|Hc]]; [exists (a_index a); auto | exists ti; auto |]. destruct (Hcs c (or_intror Hc)) as [Hc1 Hc2]. exists c. auto.
          -- intros (c0 & <- & Hc0). destruct (String.eqb_spec c0 ti) as [->|Hd0]; [auto|]. rewrite (Hrc c0 Hd0). unfold cs' in Hc0. destruct Hc0 as [<-|Hc0]; [auto|]. rewrite app_assoc in Hc0. apply in_app_or in Hc0 as [Hc0|[Hc0|[]]]; [auto | congruence].
    - (* no time index *)
      rewrite S1 in *.
      assert (forall c, In c (a_index a :: a_add a ++ copy) -> t_dtype sel c = Ok (D c)) as Hsd.
      { intros c Hc. unfold t_dtype. rewrite S4.
        rewrite (dget_NoDup_In _ String.eqb_spec c (D c)); [reflexivity | rewrite map_map; cbn [fst]; rewrite map_id; exact Hnd |]. apply in_map_iff. exists c. auto. }
      split; [left; reflexivity|]. split; [exact Hidx|]. split; [exact Hne|]. split; [exact Ht|]. split; [|split].
      + intros c ty d Hin Hd. unfold all_types in Hin. apply in_app_or in Hin as [Hin|Hin].
        * exfalso. apply in_map_iff in Hin as (c' & _ & Hin). apply filter_In in Hin as [Hc Hn]. rewrite S1 in Hc. apply negb_true_iff, mem_str_nIn in Hn. apply Hn. clear Hn.
          assert (In c' (map fst (dset String.eqb (a_index a) TCategorical types))) as HH by (apply dset_names; rewrite Hnames; destruct Hc; auto).
          destruct (mem_str _ _); [exact HH | rewrite map_app; apply in_or_app; left; exact HH].
        * assert (In (c, ty) (dset String.eqb (a_index a) TCategorical types)) as Hin'.
          { destruct (mem_str (a_index a) (map fst (dset String.eqb (a_index a) TCategorical types))) eqn:Em2; [exact Hin|]. apply mem_str_nIn in Em2. destruct Em2. apply dset_names. auto. }
          apply In_dset in Hin' as [[-> ->]|Hin']; [split; discriminate|]. destruct (Htys c ty Hin') as (w & Hw1 & ->). apply get_var_In in Hw1 as [Hw1 Hw2].
          assert (In c (a_add a ++ copy)) as Hc by (rewrite <- Hnames; apply (in_map fst) in Hin'; exact Hin').
          rewrite Hsd in Hd by (right; exact Hc). injection Hd as <-. eapply compat_typed; [exact Hw | exact Hw1 | rewrite Hw2; apply HD; right; exact Hc | right; reflexivity].
      + intros c Hc. split; [exact Hc|]. exists (D c). split; [apply HD; exact Hc | apply Hsd; exact Hc].
      + exists (fun r => map (fun c => (c, cell c r)) (a_index a :: a_add a ++ copy)). split; [exact S2|]. split; [intros r c Hc; apply cell_select; exact Hc|]. split; [discriminate|].
        split; [intros c; rewrite dset_names, Hnames; cbn [In]; intuition congruence | intros r; rewrite map_map; cbn [fst]; apply map_id].
  Qed.

  (** the call without the secondary time index *)
  Definition no_sec (a : norm_args) : norm_args := mkNorm (a_base a) (a_new a) (a_index a) (a_add a) (a_mti a) None (a_time a) (a_sec_name a).


  Lemma prepare_split a base copy l p : normalize_prepare a base copy = (l, Ok p) -> exists p0, normalize_prepare (no_sec a) base copy = (l, Ok p0) /\
    normalize_second a base (p_df p0) = Ok (p_df p, p_sec p) /\ p_types p0 = p_types p /\ p_time p0 = p_time p.
  Proof.
    unfold normalize_prepare. intros H. apply sbind_Ok in H as (types & q & E & H). unfold sbind at 1.
    change (normalize_check (no_sec a) base copy) with (normalize_check a base copy). rewrite E.
    apply sbind_Ok in H as (tim & q1 & E1 & H). unfold sbind at 1. change (normalize_time (no_sec a) base types q) with (normalize_time a base types q). rewrite E1.
    apply sbind_Ok in H as (u & q2 & Eg & H). unfold sbind at 1. cbn [a_index no_sec]. rewrite Eg.
    unfold sbind at 1 in H. unfold get_copy at 1 in H. unfold sbind at 1. unfold get_copy at 1.
    apply sbind_Ok in H as (df2 & q3 & E2 & H). unfold sbind at 1. change (normalize_first (no_sec a) base) with (normalize_first a base). rewrite E2.
    apply sbind_Ok in H as (df3 & q4 & E3 & H). apply slift_Ok in E2 as [E2 ->]. apply slift_Ok in E3 as [E3 ->]. unfold sret in H. injection H as <- <-.
    unfold normalize_second, sbind, slift, sret. cbn [a_sec no_sec fst snd]. eexists. split; [reflexivity|]. cbn [p_df p_types p_time p_sec]. fold (normalize_second a base df2). destruct df3. auto.
  Qed.
  Lemma last_rows_spec i rs v : In v (map (cell i) rs) ->
    exists r, last_with i v rs = Some r /\ cell i r = v /\ In r (last_rows [i] rs) /\ forall r', In r' (last_rows [i] rs) -> cell i r' = v -> r' = r.
  Proof.
    intros Hv. destruct (first_rows_spec i (rev rs)) as (A & B & C). assert (In v (map (cell i) (first_rows [i] (rev rs)))) as H by (apply C; rewrite map_rev; apply -> in_rev; exact Hv).
    apply in_map_iff in H as (r & <- & Hr). exists r. split; [exact (A r Hr)|]. split; [reflexivity|]. unfold last_rows. split; [apply -> in_rev; exact Hr|].
    intros r' Hr' He. apply in_rev in Hr'. pose proof (A r Hr) as A1. pose proof (A r' Hr') as A2. rewrite He in A2. congruence.
  Qed.
  Lemma dget_app {V} (x y : list (string * V)) n : dget String.eqb n (x ++ y) = match dget String.eqb n x with Some c => Some c | None => dget String.eqb n y end.
  Proof. unfold dget. induction x as [|[a w] x IH]; cbn [app find fst]; [reflexivity|]. destruct (String.eqb n a); [reflexivity | exact IH]. Qed.
  Lemma cell_app_l (c : string) (x y : row) : ~ In c (map fst y) -> cell c (x ++ y) = cell c x.
  Proof. intros Hn. unfold cell. rewrite dget_app. rewrite (proj2 (dget_None String.eqb String.eqb_spec c y) Hn). destruct (dget String.eqb c x); reflexivity. Qed.
  Lemma cell_app_r (c : string) (x y : row) : ~ In c (map fst x) -> cell c (x ++ y) = cell c y.
  Proof. intros Hn. unfold cell. rewrite dget_app. rewrite (proj2 (dget_None String.eqb String.eqb_spec c x) Hn). reflexivity. Qed.

  (** the name of the secondary time index of the new entity, and of its variables *)
  Definition sec_name (a : norm_args) (sti : string) : string := match a_sec_name a with Some n => n | None => sti end.
  Definition sec_col (a : norm_args) (sti c : string) : string := if String.eqb c sti then sec_name a sti else c.
  (** an inferred type does not convert the column *)
  Definition infers_compatible : Prop := forall t c d, t_dtype t c = Ok d -> compat (infer t c) d.

  Lemma prepare_any a base copy l p : normalize_prepare a base copy = (l, Ok p) -> (a_sec a <> None -> infers_compatible) -> well_typed base -> NoDup (t_names (p_df p)) ->
    let cs := a_index a :: a_add a ++ copy in
    In (a_index a) (t_names (p_df p)) /\ ~ In (a_index a) (a_add a ++ copy) /\ a_index a <> n_index base /\
    (forall ti, n_time base = Some ti -> ~ In ti (a_add a)) /\
    (forall c ty d, In (c, ty) (all_types infer (p_df p) (p_types p) (a_index a)) -> t_dtype (p_df p) c = Ok d -> compat ty d) /\
    (forall c, In c cs -> In c (t_names (p_df p)) /\ exists d, t_dtype (n_tab base) c = Ok d /\ t_dtype (p_df p) c = Ok d) /\
    (p_sec p = match a_sec a with Some (sti, scols) => [(sec_name a sti, map (sec_col a sti) scols)] | None => [] end) /\
    exists f : row -> row, t_rows (p_df p) = map f (first_rows [a_index a] (t_rows (n_tab base))) /\
      (forall r c, In c cs -> cell c (f r) = cell c r) /\
      (forall nt, p_time p = Some nt -> In nt (t_names (p_df p)) /\ exists bt, (a_mti a = MtiVar bt \/ n_time base = Some bt) /\ forall r, cell nt (f r) = cell bt r) /\
      (forall sti scols c r, a_sec a = Some (sti, scols) -> In c (sti :: scols) -> In r (t_rows (n_tab base)) ->
         In (sec_col a sti c) (t_names (p_df p)) /\
         exists r', last_with (a_index a) (cell (a_index a) r) (t_rows (n_tab base)) = Some r' /\ cell (sec_col a sti c) (f r) = cell c r').
  Proof.
    intros H Hinf Hw Hnd cs. apply prepare_split in H as (p0 & H0 & H2 & Ety & Eti).
    assert (exists cols, t_cols (p_df p) = t_cols (p_df p0) ++ cols) as (cols0 & Hcols0).
    { unfold normalize_second in H2. destruct (a_sec a) as [[sti scols]|]; [|injection H2 as <- _; exists []; rewrite app_nil_r; reflexivity].
      destruct (t_select _ _) as [sdf|]; [|discriminate]. cbn in H2. destruct (_ || _); [discriminate|]. destruct (existsb _ _); [discriminate|]. injection H2 as <- _. eexists. reflexivity. }
    assert (NoDup (t_names (p_df p0))) as Hnd0.
    { unfold t_names in *. rewrite Hcols0, map_app in Hnd. clear -Hnd. induction (map fst (t_cols (p_df p0))) as [|x l IH]; [constructor|]. inversion Hnd as [|? ? H1 H2]; subst. constructor; [|exact (IH H2)]. intros Hx. apply H1. apply in_or_app. auto. }
    destruct (prepare_Ok _ _ _ _ _ H0 eq_refl Hw Hnd0) as (P1 & P2 & P3 & P4 & P5 & P6 & f & P7 & P8 & P9 & P10 & P11). cbn [a_index a_add a_mti no_sec] in *. rewrite Ety, Eti in *.
    unfold normalize_second in H2. destruct (a_sec a) as [[sti scols]|] eqn:Esec.
    2: { injection H2 as H2 H3. rewrite <- H2 in *. split; [exact P1|]. split; [exact P2|]. split; [exact P3|]. split; [exact P4|]. split; [exact P5|]. split; [exact P6|]. split; [congruence|].
         exists f. split; [exact P7|]. split; [exact P8|]. split; [exact P9 | discriminate]. }
    destruct (t_select _ _) as [sdf|] eqn:Es in H2; [|discriminate]. cbn in H2. fold (sec_name a sti) in H2.
    destruct (_ || _) eqn:Eg in H2; [discriminate|]. change (mem_str (a_index a) (sec_name a sti :: sti :: scols) = false) in Eg. apply mem_str_nIn in Eg.
    destruct (existsb _ _) eqn:Ex in H2; [discriminate|].
    set (cols := filter (fun cd : string * dtype => negb (String.eqb (fst cd) (a_index a))) (t_cols (t_rename sti (sec_name a sti) sdf))) in *.
    injection H2 as H2 H3. apply t_select_Ok in Es as (S1 & S2 & _ & D & S4 & S5). cbn [t_rows] in S2.
    assert (map fst cols = map (sec_col a sti) (sti :: scols)) as Hcn.
    { unfold cols, t_rename. cbn [t_cols]. rewrite S4, map_map. cbn [fst snd].
      change (fun x : string => (if String.eqb x sti then sec_name a sti else x, D x)) with (fun x => (sec_col a sti x, D x)).
      assert (sec_col a sti (a_index a) = a_index a) as Hi by (unfold sec_col; destruct (String.eqb_spec (a_index a) sti) as [e|]; [destruct Eg; right; left; auto | reflexivity]).
      cbn [map filter fst]. rewrite Hi, String.eqb_refl. cbn [negb].
      assert (forall x, In x (sti :: scols) -> sec_col a sti x <> a_index a) as Hx.
      { intros x Hx. unfold sec_col. destruct (String.eqb_spec x sti); intros E; apply Eg; [left; exact E | right; subst; exact Hx]. }
      change (map fst (filter (fun cd : string * dtype => negb (String.eqb (fst cd) (a_index a))) (map (fun x => (sec_col a sti x, D x)) (sti :: scols))) = map (sec_col a sti) (sti :: scols)).
      clear -Hx. induction (sti :: scols) as [|x l IH]; [reflexivity|]. cbn [map filter fst]. rewrite (proj2 (String.eqb_neq _ _) (Hx x (or_introl eq_refl))). cbn [negb map fst]. f_equal. apply IH. intros y Hy. apply Hx. right. exact Hy. }
    assert (t_cols (p_df p) = t_cols (p_df p0) ++ cols) as Hcols by (rewrite <- H2; reflexivity).
    assert (t_names (p_df p) = t_names (p_df p0) ++ map (sec_col a sti) (sti :: scols)) as Hnames by (unfold t_names; rewrite Hcols, map_app, Hcn; reflexivity).
    assert (t_rows (p_df p) = map (fun r => join_on (a_index a) (map fst cols) (t_rows (t_rename sti (sec_name a sti) sdf)) (f r)) (first_rows [a_index a] (t_rows (n_tab base)))) as Hrows by (rewrite <- H2; cbn [t_rows]; rewrite P7, map_map; reflexivity).
    assert (forall c, In c (t_names (p_df p0)) -> ~ In c (map (sec_col a sti) (sti :: scols))) as Hdis.
    { intros c Hc Hc'. rewrite <- Hcn in Hc'. enough (existsb (fun c => mem_str c (t_names (p_df p0))) (map fst cols) = true) by (assert (existsb (fun c => mem_str c (t_names (p_df p0))) (map fst cols) = false) as Ex' by exact Ex; congruence). apply existsb_exists. exists c. split; [exact Hc' | apply mem_str_In; exact Hc]. }
    assert (forall c d, t_dtype (p_df p0) c = Ok d -> t_dtype (p_df p) c = Ok d) as Hd1.
    { intros c d. unfold t_dtype. rewrite Hcols, dget_app. destruct (dget String.eqb c (t_cols (p_df p0))); [auto | discriminate]. }
    set (jr := fun r => join_on (a_index a) (map fst cols) (t_rows (t_rename sti (sec_name a sti) sdf)) (f r)) in *.
    assert (forall c r, In c (t_names (p_df p0)) -> cell c (jr r) = cell c (f r)) as Hj0.
    { intros c r Hc. unfold jr, join_on. apply cell_app_l. rewrite map_map. cbn [fst]. rewrite map_id, Hcn. apply Hdis. exact Hc. }
    split; [rewrite Hnames; apply in_or_app; left; exact P1|]. split; [exact P2|]. split; [exact P3|]. split; [exact P4|]. split; [|split; [|split]].
    - intros c ty d Hin Hd. unfold all_types in Hin. apply in_app_or in Hin as [Hin|Hin].
      + apply in_map_iff in Hin as (c' & Heq & Hin). injection Heq as <- <-. apply Hinf; [discriminate | exact Hd].
      + assert (In c (t_names (p_df p0))) as Hc.
        { apply P10. apply P10 in P1. apply mem_str_In in P1. rewrite P1 in Hin. apply (in_map fst) in Hin. exact Hin. }
        apply t_dtype_In in Hc as (d' & Hd'). assert (d' = d) as -> by (specialize (Hd1 _ _ Hd'); congruence). apply (P5 c ty d); [|exact Hd']. unfold all_types. apply in_or_app. right. exact Hin.
    - intros c Hc. destruct (P6 c Hc) as (H1 & d & H4 & H5). split; [rewrite Hnames; apply in_or_app; left; exact H1|]. exists d. auto.
    - rewrite <- H3; reflexivity.
    - exists jr. split; [exact Hrows|]. split; [|split].
      + intros r c Hc. rewrite Hj0 by (apply P6; exact Hc). apply P8. exact Hc.
      + intros nt Hnt. destruct (P9 nt Hnt) as (H1 & bt & H4 & H5). split; [rewrite Hnames; apply in_or_app; left; exact H1|]. exists bt. split; [exact H4|]. intros r. rewrite Hj0 by exact H1. apply H5.
      + intros sti' scols' c r Hs Hc Hr. injection Hs as <- <-. assert (In (sec_col a sti c) (map (sec_col a sti) (sti :: scols))) as Hin by (apply in_map; exact Hc).
        split; [rewrite Hnames; apply in_or_app; right; exact Hin|].
        destruct (last_rows_spec (a_index a) (t_rows (n_tab base)) (cell (a_index a) r) (in_map _ _ _ Hr)) as (r' & L1 & L2 & L3 & L4). exists r'. split; [exact L1|].
        unfold jr, join_on. rewrite cell_app_r by (rewrite P11; intros Hx; exact (Hdis _ Hx Hin)).
        rewrite Hcn. pose proof Hnd as Hnd2. rewrite Hnames in Hnd2. assert (NoDup (map (sec_col a sti) (sti :: scols))) as Hnd3 by (clear -Hnd2; induction (t_names (p_df p0)) as [|x l IH]; [exact Hnd2 | inversion Hnd2; auto]). clear Hnd2; rename Hnd3 into Hnd2.
        set (F := fun c0 => match find (fun q => val_eqb (cell (a_index a) q) (cell (a_index a) (f r))) (t_rows (t_rename sti (sec_name a sti) sdf)) with Some q => cell c0 q | None => VNull end).
        change (cell (sec_col a sti c) (map (fun c0 => (c0, F c0)) (map (sec_col a sti) (sti :: scols))) = cell c r').
        transitivity (F (sec_col a sti c)); [apply (cell_built (fun x => x) F); [rewrite map_id; exact Hnd2 | exact Hin]|].
        set (g := fun r0 : row => map (fun cv : string * val => (sec_col a sti (fst cv), snd cv)) (map (fun c0 => (c0, cell c0 r0)) (a_index a :: sti :: scols))).
        assert (t_rows (t_rename sti (sec_name a sti) sdf) = map g (last_rows [a_index a] (t_rows (n_tab base)))) as Hg by (unfold t_rename; cbn [t_rows]; rewrite S2, map_map; reflexivity).
        assert (sec_col a sti (a_index a) = a_index a) as Hi by (unfold sec_col; destruct (String.eqb_spec (a_index a) sti) as [e|]; [destruct Eg; right; left; auto | reflexivity]).
        assert (forall x r0, In x (a_index a :: sti :: scols) -> cell (sec_col a sti x) (g r0) = cell x r0) as Hcg.
        { intros x r0 Hx. unfold g. rewrite map_map. cbn [fst snd]. apply (cell_built (sec_col a sti) (fun c0 => cell c0 r0)); [|exact Hx].
          change (NoDup (sec_col a sti (a_index a) :: map (sec_col a sti) (sti :: scols))). rewrite Hi. constructor; [|exact Hnd2]. apply Hdis. exact P1. }
        unfold F. rewrite Hg.
        destruct (find (fun q : row => val_eqb (cell (a_index a) q) (cell (a_index a) (f r))) (map g (last_rows [a_index a] (t_rows (n_tab base))))) as [q|] eqn:Ef.
        * apply find_some in Ef as [Ef1 Ef2]. apply in_map_iff in Ef1 as (r0 & <- & Hr0). destruct (val_eqb_spec (cell (a_index a) (g r0)) (cell (a_index a) (f r))) as [Ev|]; [|discriminate].
          rewrite <- Hi in Ev at 1. rewrite Hcg in Ev by (left; reflexivity). rewrite P8 in Ev by (left; reflexivity). rewrite (L4 r0 Hr0 Ev) in *. apply Hcg. right. exact Hc.
        * exfalso. assert (val_eqb (cell (a_index a) (g r')) (cell (a_index a) (f r)) = false) as Hn by (apply (find_none _ _ Ef (g r')); apply in_map; exact L3). revert Hn. rewrite <- Hi at 1. rewrite Hcg by (left; reflexivity). rewrite P8 by (left; reflexivity). rewrite L2. destruct (val_eqb_spec (cell (a_index a) r) (cell (a_index a) r)); congruence.
  Qed.

  (** *** The split.  [copy] is the list of copied variables; the new entity has another name than the base entity, no
      inferred type of a column needs no conversion when a secondary time index is made, and the base entity has rows. *)
  Theorem C38_split_partial a copy s s' l base :
    normalize_entity a copy s = (s', l, Ok tt) -> dget String.eqb (a_base a) (s_ents s) = Some base ->
    a_new a <> a_base a -> (a_sec a <> None -> infers_compatible) -> well_typed base -> t_rows (n_tab base) <> [] ->
    exists new base', dget String.eqb (a_new a) (s_ents s') = Some new /\ dget String.eqb (a_base a) (s_ents s') = Some base' /\
      (* one row for each value *)
      n_index new = a_index a /\ NoDup (t_column (n_tab new) (a_index a)) /\
      (forall v, In v (t_column (n_tab new) (a_index a)) <-> In v (t_column (n_tab base) (a_index a))) /\
      (* with the values of the first row *)
      (forall c, In c (a_index a :: a_add a ++ copy) -> In c (t_names (n_tab new))) /\
      (forall q, In q (t_rows (n_tab new)) -> exists r, first_with (a_index a) (cell (a_index a) q) (t_rows (n_tab base)) = Some r /\
         (forall c, In c (a_add a ++ copy) -> cell c q = cell c r) /\
         (forall nt, n_time new = Some nt -> exists bt, (a_mti a = MtiVar bt \/ n_time base = Some bt) /\ cell nt q = cell bt r)) /\
      (* the secondary time index and its variables with the values of the last row *)
      (forall sti scols, a_sec a = Some (sti, scols) -> forall c, In c (sti :: scols) -> let c' := if String.eqb c sti then match a_sec_name a with Some n => n | None => sti end else c in
         In c' (t_names (n_tab new)) /\
         forall q, In q (t_rows (n_tab new)) -> exists r, last_with (a_index a) (cell (a_index a) q) (t_rows (n_tab base)) = Some r /\ cell c' q = cell c r) /\
      (* the base entity loses the moved columns only *)
      t_names (n_tab base') = filter (fun c => negb (mem_str c (a_add a))) (t_names (n_tab base)) /\
      Forall2 (fun r r' => forall c, ~ In c (a_add a) -> cell c r' = cell c r) (t_rows (n_tab base)) (t_rows (n_tab base')) /\
      (* and points to the new one *)
      In (mkRel (a_new a) (a_index a) (a_base a) (a_index a)) (s_rels s') /\ linked s' (mkRel (a_new a) (a_index a) (a_base a) (a_index a)).
  Proof.
    intros H Eb Hne Hsec Hw Hrows. unfold M_Entities.normalize_entity in H. unfold sent in H. rewrite Eb in H.
    destruct (normalize_prepare a base copy) as [copy' [p|]] eqn:Ep; [|discriminate]. destruct (normalize_commit a p s) as [s1 r1] eqn:Ec. injection H as -> _ ->.
    unfold M_Entities.normalize_commit in Ec. apply sbind_Ok in Ec as ([] & s1 & E1 & H).
    assert (NoDup (t_names (p_df p))) as Hnd.
    { unfold entity_from_dataframe in E1. apply sbind_Ok in E1 as (u & x & _ & E1). apply sbind_Ok in E1 as (u1 & x1 & _ & E1). apply sbind_Ok in E1 as (e & x2 & En & _).
      destruct (new_entity _ _ _ _ _ _ _ _ _ _ _ _ _) as [k y] eqn:En' in En. injection En as _ ->. apply new_entity_Ok in En' as (? & ? & ? & ? & ? & _ & _ & _ & Hn & _). exact Hn. }
    destruct (prepare_any _ _ _ _ _ Ep Hsec Hw Hnd) as (P1 & P2 & P3 & P4 & P5 & P6 & _ & f & P7 & P8 & P9 & P10).
    apply create_Ok in E1 as (_ & Er & Eid & e & Ee & Ni & Nt & Nx & Nid & Nd & rs & Np & Nf); [|exact P1 | exact P5].
    apply sbind_Ok in H as ([] & s2 & E2 & H).
    assert (dget String.eqb (a_base a) (s_ents s1) = Some base) as Eb1 by (rewrite Ee, (dget_dset_other _ String.eqb_spec) by congruence; exact Eb).
    unfold on_entity in E2. unfold sent in E2. rewrite Eb1 in E2. destruct (delete_variables (a_add a) (s_kind s1, base)) as [pd rd] eqn:Ed. destruct pd as [kd bd]. injection E2 as <- ->.
    apply delete_Ok in Ed as (vs & Ed). injection Ed as -> ->.
    apply sbind_Ok in H as ([] & s3 & E3 & H). rewrite (proj2 (String.eqb_neq _ _) Hne) in E3.
    apply (on_entity_vars _ _ _ _ _ (fun k e s' r Hx => convert_type_only to_numeric to_datetime _ _ _ _ _ _ Hx)) in E3.
    apply sbind_Ok in H as ([] & s4 & E4 & H). unfold reset_meta, smod in H. injection H as <-.
    set (base1 := with_vars vs (with_tab (t_drop (a_add a) (n_tab base)) base)) in *.
    destruct (vars_only_get _ _ (a_base a) base1 E3) as (vs3 & Eb3); [cbn [s_ents with_kind with_ents]; apply (dget_dset_same _ String.eqb_spec)|].
    destruct (vars_only_get _ _ (a_new a) e E3) as (ws3 & En3); [cbn [s_ents with_kind with_ents]; rewrite (dget_dset_other _ String.eqb_spec) by congruence; rewrite Ee; apply (dget_dset_same _ String.eqb_spec)|].
    set (rel := mkRel (a_new a) (a_index a) (a_base a) (a_index a)) in *.
    unfold relate in E4. apply sbind_Ok in E4 as (u5 & s5 & E5 & E4). apply make_relationship_state in E5 as ->.
    assert (exists wn wb, dget String.eqb (a_new a) (s_ents s4) = Some (with_vars wn e) /\ dget String.eqb (a_base a) (s_ents s4) = Some (with_vars wb base1) /\ In rel (s_rels s4)) as (wn & wb & Gn & Gb & Gr).
    { pose proof (add_relationship_cases to_numeric to_datetime rel s3 s4 (Ok tt)) as Hc. destruct Hc as [(Hin & -> & _)|[(_ & (x & Hx) & _)|(_ & _ & s6 & ce & pe & d & Hv & -> & _)]]; [| exact E4 | | discriminate |].
      - intros e0 He0. cbn [rel r_ce] in He0. rewrite Eb3 in He0. injection He0 as <-. cbn. intros Hx. apply map_eq_nil in Hx. exact (Hrows Hx).
      - exists ws3, vs3. repeat split; [exact En3 | exact Eb3 | exact Hin].
      - destruct (vars_only_get _ _ _ _ Hv Eb3) as (wb & Gb). destruct (vars_only_get _ _ _ _ Hv En3) as (wn & Gn). exists wn, wb. split; [exact Gn|]. split; [exact Gb|]. cbn. apply in_or_app. right. left. reflexivity. }
    exists (with_vars wn e), (with_vars wb base1). cbn [s_ents s_rels with_meta].
    destruct (first_rows_spec (a_index a) (t_rows (n_tab base))) as (F1 & F2 & F3).
    assert (Forall2 (fun r q => (forall c, In c (a_index a :: a_add a ++ copy) -> cell c q = cell c r) /\ (forall nt, In nt (t_names (p_df p)) -> cell nt q = cell nt (f r))) (first_rows [a_index a] (t_rows (n_tab base))) rs) as Hrs.
    { rewrite P7 in Nf. apply Forall2_map_l in Nf. eapply Forall2_impl; [|exact Nf]. intros r q Hq. split.
      - intros c Hc. rewrite Hq by (apply P6; exact Hc). apply P8. exact Hc.
      - intros nt Hnt. apply Hq. exact Hnt. }
    assert (map (cell (a_index a)) rs = map (cell (a_index a)) (first_rows [a_index a] (t_rows (n_tab base)))) as Hcol.
    { clear - Hrs. induction Hrs as [|r q l l' [H _] _ IH]; [reflexivity|]. cbn [map]. rewrite IH, (H (a_index a)) by (left; reflexivity). reflexivity. }
    split; [exact Gn|]. split; [exact Gb|]. cbn [n_index n_tab n_time with_vars]. split; [exact Ni|]. split; [rewrite <- Ni; apply Nx|]. split.
    { intros v. unfold t_column. rewrite <- F3, <- Hcol. split; apply Permutation_in; apply Permutation_map; [symmetry; exact Np | exact Np]. }
    split.
    { intros c Hc. apply P6 in Hc as (_ & d & _ & Hd). apply t_dtype_In. exists d. apply Nd. exact Hd. }
    split.
    { intros q Hq. apply (Permutation_in _ (Permutation_sym Np)) in Hq. destruct (Forall2_in_r _ _ _ q Hrs Hq) as (r & Hr & Hc & Ht). exists r.
      rewrite (Hc (a_index a)) by (left; reflexivity). split; [exact (F1 r Hr)|]. split; [intros c Hin; apply Hc; right; exact Hin|].
      intros nt Hnt. rewrite Nt in Hnt. destruct (P9 nt Hnt) as (Hin & bt & Hbt & Hcell). exists bt. split; [exact Hbt|]. rewrite (Ht nt Hin). apply Hcell. }
    split.
    { intros sti scols Es c Hc. change (if c =? sti then match a_sec_name a with Some n => n | None => sti end else c) with (sec_col a sti c).
      assert (In (sec_col a sti c) (t_names (p_df p))) as Hin.
      { destruct (t_rows (n_tab base)) as [|r0 l0]; [destruct (Hrows eq_refl)|]. apply (P10 sti scols c r0 Es Hc). left. reflexivity. }
      split; [apply t_dtype_In in Hin as (d & Hd); apply t_dtype_In; exists d; apply Nd; exact Hd|].
      intros q Hq. apply (Permutation_in _ (Permutation_sym Np)) in Hq. destruct (Forall2_in_r _ _ _ q Hrs Hq) as (r & Hr & Hc0 & Ht).
      assert (In r (t_rows (n_tab base))) as Hrb by (pose proof (F1 r Hr) as Hx; apply find_some in Hx as [Hx _]; exact Hx).
      destruct (P10 sti scols c r Es Hc Hrb) as (_ & r' & L1 & L2). exists r'. rewrite (Hc0 (a_index a)) by (left; reflexivity). split; [exact L1|]. rewrite (Ht _ Hin). exact L2. }
    split.
    { cbn [base1 n_tab with_vars with_tab]. unfold t_names, t_drop. cbn [t_cols]. clear. induction (t_cols (n_tab base)) as [|[c d] l IH]; [reflexivity|]. cbn. destruct (mem_str c (a_add a)); cbn; congruence. }
    split.
    { cbn [base1 n_tab with_vars with_tab]. unfold t_drop. cbn [t_rows]. clear. induction (t_rows (n_tab base)) as [|r l IH]; cbn; constructor; [|exact IH].
      intros c Hc. apply (cell_filter (fun c => negb (mem_str c (a_add a)))). apply negb_true_iff, mem_str_nIn. exact Hc. }
    split; [exact Gr|].
    assert (~ In (a_index a) (a_add a)) as Hia by (intros Hx; apply P2; apply in_or_app; left; exact Hx).
    destruct (P6 (a_index a) (or_introl eq_refl)) as (_ & d & D1 & D2).
    exists (with_vars wb base1), (with_vars wn e), d. cbn [r_ce r_pe r_pv r_cv rel n_index n_tab with_vars base1 with_tab s_ents with_meta].
    split; [exact Gb|]. split; [exact Gn|]. split; [symmetry; exact Ni|]. split; [exact P3|]. split; [rewrite t_drop_dtype by exact Hia; exact D1 | apply Nd; exact D2].
  Qed.

  (** *** If the moved variables depend on the chosen index only, looking them up in the new entity gives back every row. *)
  Theorem C38_lossless_partial a copy s s' l base :
    normalize_entity a copy s = (s', l, Ok tt) -> dget String.eqb (a_base a) (s_ents s) = Some base ->
    a_new a <> a_base a -> (a_sec a <> None -> infers_compatible) -> well_typed base -> determines (a_index a) (a_add a) (t_rows (n_tab base)) ->
    exists new base', dget String.eqb (a_new a) (s_ents s') = Some new /\ dget String.eqb (a_base a) (s_ents s') = Some base' /\
      Forall2 (fun r r' => exists q, In q (t_rows (n_tab new)) /\ cell (a_index a) q = cell (a_index a) r' /\
                 (forall q', In q' (t_rows (n_tab new)) -> cell (a_index a) q' = cell (a_index a) r' -> q' = q) /\
                 forall c, cell c r = if mem_str c (a_add a) then cell c q else cell c r')
        (t_rows (n_tab base)) (t_rows (n_tab base')).
  Proof.
    intros H Eb Hne Hsec Hw Hdet. destruct (t_rows (n_tab base)) as [|r0 l0] eqn:Erows.
    - (* nothing to look up *)
      unfold M_Entities.normalize_entity in H. unfold sent in H. rewrite Eb in H.
      destruct (normalize_prepare a base copy) as [copy' [p|]] eqn:Ep; [|discriminate]. destruct (normalize_commit a p s) as [s1 r1] eqn:Ec. injection H as -> _ ->.
      unfold M_Entities.normalize_commit in Ec. apply sbind_Ok in Ec as ([] & s1 & E1 & H).
      assert (exists e, dget String.eqb (a_new a) (s_ents s1) = Some e) as (e & Ee).
      { unfold entity_from_dataframe in E1. apply sbind_Ok in E1 as (u & x & _ & E1). apply sbind_Ok in E1 as (u1 & x1 & _ & E1). apply sbind_Ok in E1 as (e & x2 & En & E1). unfold sbind, smod, reset_meta in E1. injection E1 as <-. exists e. cbn. apply (dget_dset_same _ String.eqb_spec). }
      apply create_other with (id' := a_base a) in E1; [|congruence]. rewrite Eb in E1.
      apply sbind_Ok in H as ([] & s2 & E2 & H). unfold on_entity in E2. unfold sent in E2. rewrite E1 in E2. destruct (delete_variables (a_add a) (s_kind s1, base)) as [[kd bd] rd] eqn:Ed. injection E2 as <- ->.
      apply delete_Ok in Ed as (vs & Ed). injection Ed as -> ->.
      apply sbind_Ok in H as ([] & s3 & E3 & H). rewrite (proj2 (String.eqb_neq _ _) Hne) in E3. apply (on_entity_vars _ _ _ _ _ (fun k e s' r Hx => convert_type_only to_numeric to_datetime _ _ _ _ _ _ Hx)) in E3.
      apply sbind_Ok in H as ([] & s4 & E4 & H). unfold reset_meta, smod in H. injection H as <-. cbn [s_ents with_meta].
      destruct (vars_only_get _ _ (a_base a) (with_vars vs (with_tab (t_drop (a_add a) (n_tab base)) base)) E3) as (vs3 & Eb3); [cbn [s_ents with_kind with_ents]; apply (dget_dset_same _ String.eqb_spec)|].
      destruct (vars_only_get _ _ (a_new a) e E3) as (ws3 & En3); [cbn [s_ents with_kind with_ents]; rewrite (dget_dset_other _ String.eqb_spec) by congruence; exact Ee|].
      destruct (relate_rows to_numeric to_datetime _ _ _ _ E4 (a_base a) _ Eb3) as (b4 & Gb & Rb). destruct (relate_rows to_numeric to_datetime _ _ _ _ E4 (a_new a) _ En3) as (n4 & Gn & _).
      exists n4, b4. split; [exact Gn|]. split; [exact Gb|]. rewrite Rb. cbn. rewrite Erows. constructor.
    - rewrite <- Erows in *. assert (t_rows (n_tab base) <> []) as Hrows by (rewrite Erows; discriminate).
      destruct (C38_split_partial a copy s s' l base H Eb Hne Hsec Hw Hrows) as (new & base' & G1 & G2 & Ni & Nd & Nv & _ & Nq & _ & _ & Nr & _).
      assert (~ In (a_index a) (a_add a)) as Hia.
      { unfold M_Entities.normalize_entity in H. unfold sent in H. rewrite Eb in H. destruct (normalize_prepare a base copy) as [copy' [p|]] eqn:Ep; [|discriminate].
        unfold normalize_prepare in Ep. apply sbind_Ok in Ep as (types & q & Et & _). apply check_Ok in Et as (_ & Hi & _). intros Hx. apply Hi. apply in_or_app. left. exact Hx. }
      exists new, base'. split; [exact G1|]. split; [exact G2|].
      assert (forall r, In r (t_rows (n_tab base)) -> exists q, In q (t_rows (n_tab new)) /\ cell (a_index a) q = cell (a_index a) r /\
                 (forall q', In q' (t_rows (n_tab new)) -> cell (a_index a) q' = cell (a_index a) r -> q' = q) /\ forall c, In c (a_add a) -> cell c q = cell c r) as Hlook.
      { intros r Hr. assert (In (cell (a_index a) r) (t_column (n_tab new) (a_index a))) as Hin by (apply Nv; apply in_map; exact Hr). apply in_map_iff in Hin as (q & Hq1 & Hq2). exists q.
        split; [exact Hq2|]. split; [exact Hq1|]. split.
        - intros q' Hq' Heq. eapply NoDup_map_eq; [exact Nd | exact Hq' | exact Hq2 | congruence].
        - intros c Hc. destruct (Nq q Hq2) as (r1 & Hf & Hcc & _). rewrite Hcc by (apply in_or_app; left; exact Hc). apply find_some in Hf as [Hf1 Hf2]. destruct (val_eqb_spec (cell (a_index a) r1) (cell (a_index a) q)) as [Heq|]; [|discriminate].
          apply (Hdet r1 r c); auto. congruence. }
      clear - Nr Hlook Hia. revert Hlook. induction Nr as [|r r' l1 l2 Hc _ IH]; intros Hlook; constructor; [|apply IH; intros x Hx; apply Hlook; right; exact Hx].
      destruct (Hlook r (or_introl eq_refl)) as (q & Q1 & Q2 & Q3 & Q4). exists q. split; [exact Q1|]. rewrite (Hc (a_index a) Hia). split; [exact Q2|]. split; [exact Q3|].
      intros c. destruct (mem_str c (a_add a)) eqn:Em; [symmetry; apply Q4; apply mem_str_In; exact Em | symmetry; apply Hc; apply mem_str_nIn; exact Em].
  Qed.
End C38.

(** ** Concrete splits *)
Notation norm0 := (normalize_entity nr dt okd infd).
Definition events_only : eset := after [mk_events rows1].
Definition with_kinds : eset := after [mk_events rows1; Normalize (mkNorm "events" "kinds" "x" [] MtiFalse None None None) []].

Example C38_nonvacuous : exists base s',
  norm0 (n_args ["x"]) [] events_only = (s', [], Ok tt) /\ dget String.eqb "events" (s_ents events_only) = Some base /\ well_typed base /\ t_rows (n_tab base) <> [] /\
  option_map (fun e => t_rows (n_tab e)) (dget String.eqb "customers" (s_ents s')) =
    Some [[("cid", VNum 10); ("x", VNum 2); ("first_events_time", VNum 5)]; [("cid", VNum 20); ("x", VNum 3); ("first_events_time", VNum 5)]].
Proof.
  destruct (dget String.eqb "events" (s_ents events_only)) as [base|] eqn:E; [|vm_compute in E; discriminate]. exists base, (fst (fst (norm0 (n_args ["x"]) [] events_only))).
  split; [vm_compute; reflexivity|]. split; [reflexivity|]. split; [|split; [|vm_compute; reflexivity]]; vm_compute in E; injection E as <-.
  - intros v d Hv Hd. cbn in Hv. repeat (destruct Hv as [<-|Hv]; [vm_compute in Hd; injection Hd as <-; cbn; intuition congruence|]). destruct Hv.
  - discriminate.
Qed.

(** the demo rows whose x depends on cid only *)
Example C38_lossless_nonvacuous : exists base s',
  let s := after [mk_events [(1, 10, 5, 7); (2, 20, 6, 8); (3, 10, 7, 7)]%Z] in
  norm0 (n_args ["x"]) [] s = (s', [], Ok tt) /\ dget String.eqb "events" (s_ents s) = Some base /\ determines "cid" ["x"] (t_rows (n_tab base)).
Proof.
  set (s := after _). destruct (dget String.eqb "events" (s_ents s)) as [base|] eqn:E; [|vm_compute in E; discriminate]. exists base, (fst (fst (norm0 (n_args ["x"]) [] s))).
  split; [vm_compute; reflexivity|]. split; [exact E|]. vm_compute in E; injection E as <-. intros r1 r2 x H1 H2 Hc [<-|[]].
  cbn in H1, H2. repeat (destruct H1 as [<-|H1]; [|]); try destruct H1; repeat (destruct H2 as [<-|H2]; [|]); try destruct H2; vm_compute in Hc |- *; congruence.
Qed.

(** The name of the base entity is accepted as name of the new one: the call fails only after the rows are gone. *)
Theorem C38_same_name_refuted : exists a s s', norm0 a [] s = (s', [], Err ValueError) /\ s = events_only /\
  option_map (fun e => List.length (t_rows (n_tab e))) (dget String.eqb "events" (s_ents s)) = Some 4%nat /\
  option_map (fun e => t_rows (n_tab e)) (dget String.eqb "events" (s_ents s')) = Some [[("cid", VNum 10)]; [("cid", VNum 20)]].
Proof. exists (mkNorm "events" "events" "cid" ["x"] MtiFalse None None None), events_only, (fst (fst (norm0 (mkNorm "events" "events" "cid" ["x"] MtiFalse None None None) [] events_only))). split; [vm_compute; reflexivity|]. split; [reflexivity|]. split; vm_compute; reflexivity. Qed.

(** A variable that links the base entity to a parent may be moved: the old relationship then has no child column. *)
Theorem C38_dangling_refuted : exists a s s' r, norm0 a [] s = (s', [], Ok tt) /\ good_rels s /\ In r (s_rels s) /\ In r (s_rels s') /\ ~ linked s' r.
Proof.
  exists (mkNorm "events" "customers" "cid" ["x"] MtiFalse None None None), with_kinds, (fst (fst (norm0 (mkNorm "events" "customers" "cid" ["x"] MtiFalse None None None) [] with_kinds))), (mkRel "kinds" "x" "events" "x").
  split; [vm_compute; reflexivity|]. split.
  { unfold good_rels. assert (s_rels with_kinds = [mkRel "kinds" "x" "events" "x"]) as -> by (vm_compute; reflexivity).
    split; [constructor; [intros [] | constructor]|]. constructor; [|constructor].
    destruct (dget String.eqb "events" (s_ents with_kinds)) as [ce|] eqn:E1; [|vm_compute in E1; discriminate]. destruct (dget String.eqb "kinds" (s_ents with_kinds)) as [pe|] eqn:E2; [|vm_compute in E2; discriminate].
    exists ce, pe, DInt. split; [exact E1|]. split; [exact E2|]. vm_compute in E1, E2. injection E1 as <-. injection E2 as <-. split; [reflexivity|]. split; [discriminate|]. split; reflexivity. }
  split; [vm_compute; auto|]. split; [vm_compute; auto|]. intros (ce & pe & d & E1 & _ & _ & _ & Hd & _). vm_compute in E1. injection E1 as <-. vm_compute in Hd. discriminate.
Qed.

(** ** C39: the caller's objects *)
Section C39.
  Variables to_numeric to_datetime : list val -> res (dtype * list val).
  Variable obj_kind : val -> res (option tkind).
  Variable infer : table -> string -> vtype.
  Notation normalize_entity := (normalize_entity to_numeric to_datetime obj_kind infer).

  Lemma prepare_list a base copy l r : normalize_prepare a base copy = (l, r) ->
    l = copy \/ exists ti, n_time base = Some ti /\ (a_mti a = MtiNone \/ a_mti a = MtiTrue) /\ l = copy ++ [ti].
  Proof.
    assert (forall x l1 r1, normalize_check a base x = (l1, r1) -> l1 = x) as Hck.
    { intros x l1 r1 H. pose (Q := fun y : list string => y = x).
      enough (keeps Q (normalize_check a base)) as K by exact (K x l1 r1 eq_refl H).
      unfold normalize_check. apply keeps_bind; [intros y z q Hy Hz; injection Hz as <- _; exact Hy|]. intros cp.
      apply keeps_bind; [destruct (n_time base); [apply keeps_bind; [apply keeps_lift | intros; apply keeps_guard] | apply keeps_ret]|]. intros _.
      apply keeps_bind; [apply keeps_guard|]. intros _. apply keeps_bind; [apply keeps_guard|]. intros _. apply keeps_bind; [apply keeps_guard|]. intros _. apply keeps_bind; [apply keeps_guard|]. intros _.
      apply keeps_bind; [destruct (a_mti a); try apply keeps_ret; apply keeps_bind; [apply keeps_guard | intros; apply keeps_guard]|]. intros _.
      apply keeps_bind; [apply keeps_guard|]. intros _. apply keeps_bind; [apply keeps_lift|]. intros _. apply keeps_lift. }
    intros H. unfold normalize_prepare in H. apply sbind_any in H as [(types & q & E & H)|(x & E & _)]; apply Hck in E as ->; [|left; reflexivity].
    assert (forall l1 r1, normalize_time a base types copy = (l1, r1) -> l1 = copy \/ exists ti, n_time base = Some ti /\ (a_mti a = MtiNone \/ a_mti a = MtiTrue) /\ l1 = copy ++ [ti]) as Htm.
    { intros l1 r1. unfold normalize_time. destruct (n_time base) as [ti|].
      - assert (forall (k : list string -> vtype -> option (string * string) * bool * list (string * vtype)) l1 r1, sbind (if mem_str ti (a_add a) then sret tt else add_copy ti) (fun _ => v <~ slift (get_var ti (n_vars base)) ;; sret (k [] (v_type v))) copy = (l1, r1) -> l1 = copy \/ l1 = copy ++ [ti]) as Hk.
        { intros k l2 r2 Hx. apply sbind_any in Hx as [(u & q & E & Hx)|(x & E & _)].
          - assert (q = copy \/ q = copy ++ [ti]) as Hq by (destruct (mem_str ti (a_add a)); [unfold sret in E | unfold add_copy in E]; injection E as <-; auto).
            apply sbind_any in Hx as [(v & q' & E' & Hx)|(x & E' & _)]; apply slift_state in E' as ->; [unfold sret in Hx; injection Hx as <- _|]; exact Hq.
          - destruct (mem_str ti (a_add a)); [unfold sret in E | unfold add_copy in E]; discriminate. }
        intros Hx. destruct (a_mti a) eqn:Em.
        + apply (Hk (fun _ t => (Some (ti, match a_time a with Some n => n | None => ("first_" ++ n_id base ++ "_time")%string end), true, dset String.eqb match a_time a with Some n => n | None => ("first_" ++ n_id base ++ "_time")%string end t types))) in Hx as [->| ->]; [left; reflexivity|]. right. exists ti. auto.
        + apply (Hk (fun _ t => (Some (ti, match a_time a with Some n => n | None => ("first_" ++ n_id base ++ "_time")%string end), true, dset String.eqb match a_time a with Some n => n | None => ("first_" ++ n_id base ++ "_time")%string end t types))) in Hx as [->| ->]; [left; reflexivity|]. right. exists ti. auto.
        + unfold sret in Hx. injection Hx as <- _. left. reflexivity.
        + unfold sret in Hx. injection Hx as <- _. left. reflexivity.
      - intros Hx. left. destruct (a_mti a); unfold sret, sfail in Hx; injection Hx as <- _; reflexivity. }
    apply sbind_any in H as [(tim & q & E & H)|(x & E & _)]; apply Htm in E; [|exact E].
    enough (l = q) as -> by exact E. clear - H.
    apply sbind_any in H as [(u & q1 & E & H)|(x & E & _)]; apply sguard_state in E as ->; [|reflexivity]. unfold sbind at 1 in H. unfold get_copy in H.
    apply sbind_any in H as [(d2 & q1 & E & H)|(x & E & _)]; apply slift_state in E as ->; [|reflexivity].
    apply sbind_any in H as [(d3 & q1 & E & H)|(x & E & _)]; apply slift_state in E as ->; [|reflexivity]. unfold sret in H. injection H as <- _. reflexivity.
  Qed.

  (** *** The list copy_variables comes back unchanged, or with the time index of the base entity appended. *)
  Theorem C39_copy_variables_exact a copy s s' l r : normalize_entity a copy s = (s', l, r) ->
    l = copy \/ copy <> [] /\ exists base ti, dget String.eqb (a_base a) (s_ents s) = Some base /\ n_time base = Some ti /\
                  (a_mti a = MtiNone \/ a_mti a = MtiTrue) /\ l = copy ++ [ti].
  Proof.
    unfold M_Entities.normalize_entity, sent. destruct (dget String.eqb (a_base a) (s_ents s)) as [base|] eqn:E; [|intros H; injection H as _ <- _; left; reflexivity].
    destruct (normalize_prepare a base copy) as [cp rp] eqn:Ep. apply prepare_list in Ep.
    assert (forall x, (match copy with [] => [] | _ :: _ => cp end) = x -> x = copy \/ copy <> [] /\ exists base0 ti, Some base = Some base0 /\ n_time base0 = Some ti /\ (a_mti a = MtiNone \/ a_mti a = MtiTrue) /\ x = copy ++ [ti]) as Hx.
    { intros x <-. destruct copy as [|c0 cs]; [left; reflexivity|]. destruct Ep as [->|(ti & H1 & H2 & ->)]; [left; reflexivity|]. right. split; [discriminate|]. exists base, ti. auto. }
    destruct rp as [p|x]; [destruct (normalize_commit _ _ _ _ a p s) as [s1 r1]|]; intros H; injection H as _ H _; exact (Hx _ H).
  Qed.
  (** so it is unchanged whenever it is empty, the base entity has no time index, or a time index is named or refused *)
  Theorem C39_copy_unchanged_partial a copy s s' l r : normalize_entity a copy s = (s', l, r) ->
    copy = [] \/ (exists v, a_mti a = MtiVar v) \/ a_mti a = MtiFalse \/ (forall base, dget String.eqb (a_base a) (s_ents s) = Some base -> n_time base = None) ->
    l = copy.
  Proof.
    intros H Hc. apply C39_copy_variables_exact in H as [H|(Hne & base & ti & E & Et & Hm & _)]; [exact H|]. exfalso.
    destruct Hc as [Hc|[(v & Hc)|[Hc|Hc]]]; [contradiction | destruct Hm; congruence | destruct Hm; congruence | rewrite (Hc base E) in Et; discriminate].
  Qed.

  (** *** entity_from_dataframe: a frame with the index among its columns, whose types fit, comes back as it was. *)
  Theorem C39_frame_partial t i given : In i (t_names t) ->
    (forall c ty d, In (c, ty) (all_types infer t given i) -> t_dtype t c = Ok d -> compat ty d) ->
    caller_frame to_numeric to_datetime infer t (Some i) given false = t.
  Proof.
    intros Hi Hc. unfold caller_frame.
    assert (create_index (Some i) false t = Ok (None, i, t)) as ->.
    { unfold create_index. apply mem_str_In in Hi. rewrite Hi. reflexivity. }
    destruct (create_variables to_numeric to_datetime infer t given i) as [vt|] eqn:E; [|reflexivity]. apply create_variables_Ok in E as [E _]. apply convert_all_id in E; [exact E | exact Hc].
  Qed.
  (** secondary_time_index comes back unchanged exactly if every list names its own time; variable_types is in [P_Args] *)
  Theorem C39_secondary_partial sec : (forall c cs, In (c, cs) sec -> In c cs) <-> caller_secondary sec = sec.
  Proof.
    unfold caller_secondary. induction sec as [|[c cs] sec IH]; [split; [reflexivity | intros _ ? ? []]|]. cbn [map fst snd]. split.
    - intros H. rewrite (proj1 IH) by (intros c' cs' Hin; apply H; right; exact Hin). pose proof (H c cs (or_introl eq_refl)) as Hc. apply mem_str_In in Hc. rewrite Hc. reflexivity.
    - intros H. injection H as H1 H2. intros c' cs' [Hd|Hin]; [|apply (proj2 IH H2 c' cs' Hin)]. injection Hd as <- <-.
      destruct (mem_str c cs) eqn:E; [apply mem_str_In; exact E|]. exfalso. apply (f_equal (@List.length string)) in H1. rewrite app_length in H1. cbn in H1. lia.
  Qed.
End C39.

(** *** The same list given twice: the second call fails, although it succeeds with a fresh list of the same content. *)
Theorem C39_copy_variables_refuted : exists copy a1 a2 s1 l, norm0 a1 copy events_only = (s1, l, Ok tt) /\ l <> copy /\
  snd (norm0 a2 l s1) = Err AssertionError /\ snd (norm0 a2 copy s1) = Ok tt.
Proof.
  exists ["x"], (n_args []), (mkNorm "events" "c2" "cid" [] MtiNone None None None), (fst (fst (norm0 (n_args []) ["x"] events_only))), ["x"; "t"].
  split; [vm_compute; reflexivity|]. split; [discriminate|]. split; vm_compute; reflexivity.
Qed.
(** The frame given to entity_from_dataframe gains the created index column, and columns are converted in it. *)
Theorem C39_frame_refuted :
  t_names (caller_frame nr dt infd (evs rows1) (Some "key") [] true) = "key" :: t_names (evs rows1) /\
  exists t given, In "id" (t_names t) /\ caller_frame nr dt infd t (Some "id") given false <> t.
Proof.
  split; [vm_compute; reflexivity|]. exists (mkTab [("id", DInt); ("s", DObj)] [[("id", VNum 1); ("s", VStr "3")]]), [("s", TNumeric)].
  split; [left; reflexivity|]. vm_compute. discriminate.
Qed.
Theorem C39_secondary_refuted : caller_secondary [("t2", ["x"])] = [("t2", ["x"; "t2"])].
Proof. reflexivity. Qed.
(** GroupByTransformFeature always lengthens the caller's list, so repeating the call makes a feature with other inputs. *)
Theorem C39_groupby_refuted p bs g nm : let first := M_Feature.make_groupby p bs g nm in
  fst first = bs ++ [g] /\ fst first <> bs /\ M_Feature.fbases (snd first) = bs ++ [g] /\ M_Feature.fbases (snd (M_Feature.make_groupby p (fst first) g nm)) = bs ++ [g; g].
Proof.
  cbn. split; [reflexivity|]. split; [intros H; apply (f_equal (@List.length M_Feature.feat)) in H; rewrite app_length in H; cbn in H; lia|]. split; [reflexivity|]. rewrite <- app_assoc. reflexivity.
Qed.
Example C39_nonvacuous : caller_frame nr dt infd (evs rows1) (Some "id") [] false = evs rows1 /\
  (forall c ty d, In (c, ty) (all_types infd (evs rows1) [] "id") -> t_dtype (evs rows1) c = Ok d -> compat ty d) /\
  exists s l, norm0 (mkNorm "events" "customers" "cid" ["x"] MtiFalse None None None) [] events_only = (s, l, Ok tt).
Proof.
  split; [vm_compute; reflexivity|]. split; [|exists (fst (fst (norm0 (mkNorm "events" "customers" "cid" ["x"] MtiFalse None None None) [] events_only))), []; vm_compute; reflexivity].
  intros c ty d H Hd. vm_compute in H. repeat (destruct H as [H|H]; [injection H as <- <-; vm_compute in Hd; injection Hd as <-; vm_compute; split; congruence|]). destruct H.
Qed.

Print Assumptions C38_split_partial.
Print Assumptions C38_lossless_partial.
Print Assumptions C39_copy_variables_exact.
Print Assumptions C39_frame_partial.
