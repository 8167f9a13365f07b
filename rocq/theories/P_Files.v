(** C71: an entity set saved to a directory with its data and read back. *)
From Coq Require Import Sorting.Permutation Sorting.Sorted.
From Verif Require Import Base BaseFacts M_Schema M_Table M_LastTime L_LastTime M_Entities S_Entities S_Calls.
From Verif Require Import P_Equality L_Entities L_Tables P_Relate P_Meta P_Tables L_Normalize P_Normalize P_Concat P_Describe M_Files S_Files L_Files.
Local Open Scope string_scope.
Local Open Scope list_scope.

Definition fits (ty : vtype) (d : dtype) : Prop :=
  (ty = TNumeric \/ ty = TNumericTimeIndex -> d = DInt \/ d = DFloat) /\ (ty = TDatetime \/ ty = TDatetimeTimeIndex -> d = DDate).

Lemma isort_map_commute {A B} (f : A -> B) (leb : B -> B -> bool) (leb' : A -> A -> bool) l : (forall a b, leb (f a) (f b) = leb' a b) -> isort leb (map f l) = map f (isort leb' l).
Proof.
  intros H. induction l as [|a l IH]; [reflexivity|]. cbn [map isort]. rewrite IH. generalize (isort leb' l). intros m. induction m as [|b m IHm]; [reflexivity|]. cbn [map insert]. rewrite H. destruct (leb' a b); [reflexivity|]. cbn [map]. f_equal. exact IHm.
Qed.
(** the rows in the order of the time index *)
Definition sorted_rows (time : option string) (i : string) (rs : list row) : list row := match time with Some ti => isort (row_leb ti i) rs | None => rs end.

Section C71.
  Variables to_numeric to_datetime : list val -> res (dtype * list val).
  Variable obj_kind : val -> res (option tkind).
  Variable infer : table -> string -> vtype.
  Variable touched : list relationship -> list string -> list string.
  Variable last_times : eset -> string -> list (val * val).
  Notation init := (init to_numeric to_datetime obj_kind).
  Notation load_frame := (load_frame to_numeric to_datetime obj_kind infer).
  Notation load_entity := (load_entity to_numeric to_datetime obj_kind infer).
  Notation load := (load to_numeric to_datetime obj_kind infer touched last_times).
  Notation read_entityset := (read_entityset to_numeric to_datetime obj_kind infer touched last_times).

  Lemma kind_of k e c ty d : NoDup (map v_id (n_vars e)) -> In (c, ty) (tyl (n_vars e)) -> time_typed (Some k) ty -> t_dtype (n_tab e) c = Ok d -> fits ty d -> column_kind obj_kind e c = Ok (Some k).
  Proof.
    intros Hn Hin Hk Hd [F1 F2]. unfold column_kind. destruct (t_rows (n_tab e)) as [|r rs].
    - destruct (get_var_tyl _ _ _ Hn Hin) as (v & Hv & Ht). rewrite Hv. cbn [bind]. rewrite Ht. destruct Hk as [[Hk [-> | ->]]|[Hk [-> | ->]]]; injection Hk as ->; reflexivity.
    - rewrite Hd. cbn [bind]. destruct Hk as [[Hk Ht]|[Hk Ht]]; injection Hk as ->; [rewrite (F2 Ht); reflexivity|]. destruct (F1 Ht) as [-> | ->]; reflexivity.
  Qed.

  Lemma secondary_given k e : NoDup (map v_id (n_vars e)) -> forall sec done,
    (forall c cs, In (c, cs) sec -> In c cs /\ exists ty d, In (c, ty) (tyl (n_vars e)) /\ time_typed (Some k) ty /\ t_dtype (n_tab e) c = Ok d /\ fits ty d) ->
    secondary_go obj_kind done sec (Some k, e) = ((Some k, e), Ok (done ++ sec)).
  Proof.
    intros Hn. induction sec as [|[c cs] sec IH]; intros done H; cbn [secondary_go]; [unfold sret; rewrite app_nil_r; reflexivity|]. unfold sbind at 1. unfold eget at 1. cbn [snd].
    destruct (H c cs (or_introl eq_refl)) as (Hc & ty & d & Hin & Hk & Hd & Hf). unfold sbind at 1. unfold slift at 1. rewrite (kind_of k e c ty d Hn Hin Hk Hd Hf). unfold sbind at 1. cbn [known_kind]. unfold sret at 1. unfold sbind at 1. cbn [fst].
    replace (tkind_eqb k k) with true by (destruct k; reflexivity). apply mem_str_In in Hc. rewrite Hc. rewrite IH by (intros c' cs' H'; apply H; right; exact H'). rewrite <- app_assoc. reflexivity.
  Qed.

  (** initialising an entity whose variables have their final types and whose data needs no conversion *)
  Lemma init_given i time sec k0 k e : NoDup (map v_id (n_vars e)) -> In i (t_names (n_tab e)) -> In (i, TIndex) (tyl (n_vars e)) -> NoDup (t_column (n_tab e) i) -> k = None \/ k = k0 ->
    (forall ti, time = Some ti -> exists d, t_dtype (n_tab e) ti = Ok d /\
       (d = DDate /\ In (ti, TDatetimeTimeIndex) (tyl (n_vars e)) /\ k0 = Some KDate \/ (d = DInt \/ d = DFloat) /\ In (ti, TNumericTimeIndex) (tyl (n_vars e)) /\ k0 = Some KNum)) ->
    (time = None -> sec = []) -> n_time e = None ->
    (forall c cs, In (c, cs) sec -> In c cs /\ exists ty d, In (c, ty) (tyl (n_vars e)) /\ time_typed k0 ty /\ t_dtype (n_tab e) c = Ok d /\ fits ty d) ->
    exists vs k', init i time sec false (k, e) = ((k', with_sec sec (with_time time (with_tab (mkTab (t_cols (n_tab e)) (sorted_rows time i (t_rows (n_tab e)))) (with_index i (with_vars vs e))))), Ok tt) /\ tyl vs = tyl (n_vars e) /\ (k' = None \/ k' = k0).
  Proof.
    intros Hn Hi Hit Hu Hk Ht Hnt Hnone Hs. assert (In i (map v_id (n_vars e))) as Hii by (apply tyl_inv in Hit as (v & Hv & <- & _); apply in_map; exact Hv).
    assert (nodup_vals (t_column (n_tab e) i) = true) as Hnd by (apply nodup_vals_spec; exact Hu). apply t_dtype_In in Hi as (d0 & Hd0).
    unfold L_Tables.init. unfold sbind at 1. unfold set_index. unfold sbind at 1. unfold eget at 1. cbn [snd]. unfold sbind at 1. unfold slift at 1. rewrite Hd0. unfold sbind at 1. unfold sguard at 1. rewrite Hnd. cbn [negb orb].
    unfold sbind at 1. rewrite (convert_total to_numeric to_datetime i TIndex k e Hii). unfold emod at 1. cbn [fst snd].
    set (vs1 := replace_first i (mkVar i TIndex [] None) (n_vars e)).
    assert (tyl vs1 = tyl (n_vars e)) as Hty1. { apply replace_tyl. intros v Hv <-. eapply tyl_fun; [exact Hn | apply tyl_In; exact Hv | exact Hit]. }
    set (e1 := with_index i (with_vars vs1 e)).
    assert (NoDup (map v_id vs1)) as Hn1 by (rewrite <- tyl_ids, Hty1, tyl_ids; exact Hn).
    destruct time as [ti|].
    - destruct (Ht ti eq_refl) as (d & Hd & Hdk).
      assert (exists kd ty, k0 = Some kd /\ In (ti, ty) (tyl (n_vars e)) /\ time_typed (Some kd) ty /\ fits ty d /\ (if dtype_eqb d DDate || match t_rows (n_tab e) with [] => false | _ => tkind_eqb kd KDate end then TDatetimeTimeIndex else TNumericTimeIndex) = ty) as (kd & ty & -> & Hin & Hkt & Hfit & Hdate).
      { destruct Hdk as [(-> & Hin & ->)|(Hne & Hin & ->)]; [exists KDate, TDatetimeTimeIndex | exists KNum, TNumericTimeIndex]; (split; [reflexivity|]; split; [exact Hin|]; split; [|split]).
        - left. auto. - split; [intros [H|H]; discriminate | reflexivity]. - reflexivity. - right. auto. - split; [intros _; exact Hne | intros [H|H]; discriminate].
        - destruct Hne as [-> | ->]; cbn; destruct (t_rows (n_tab e)); reflexivity. }
      set (t' := mkTab (t_cols (n_tab e)) (sorted_rows (Some ti) i (t_rows (n_tab e)))).
      match goal with |- context [sbind ?m _ (k, e1)] => assert (exists vs2, m (k, e1) = ((Some kd, with_time (Some ti) (with_tab t' (with_vars vs2 e1))), Ok tt) /\ tyl vs2 = tyl (n_vars e)) as (vs2 & E2 & Hty2) end.
      { unfold set_time_index. unfold sbind at 1. unfold eget at 1. cbn [snd]. unfold sbind at 1. unfold slift at 1. rewrite (kind_of kd e1 ti ty d); [|exact Hn1 | change (In (ti, ty) (tyl vs1)); rewrite Hty1; exact Hin | exact Hkt | exact Hd | exact Hfit].
        unfold sbind at 1. cbn [known_kind]. unfold sret at 1. unfold sbind at 1. assert (claim_kind kd (k, e1) = ((Some kd, e1), Ok tt)) as ->.
        { unfold claim_kind. cbn [fst snd]. destruct Hk as [-> | ->]; [reflexivity|]. destruct kd; reflexivity. }
        unfold sbind at 1. unfold slift at 1. cbn [n_tab e1 with_index with_vars]. rewrite Hd. cbv zeta. rewrite Hdate. unfold sbind at 1. unfold emod at 1. cbn [fst snd]. unfold sbind at 1.
        match goal with |- context [convert_variable_type _ _ ti ty false (?kk, ?ee)] => rewrite (convert_total to_numeric to_datetime ti ty kk ee) end; [|change (In ti (map v_id vs1)); rewrite <- tyl_ids, Hty1; apply (in_map fst) in Hin; exact Hin].
        unfold emod at 1. cbn [fst snd]. exists (replace_first ti (mkVar ti ty [] None) vs1). split; [reflexivity|].
        rewrite <- Hty1. apply replace_tyl. intros v Hv <-. eapply tyl_fun; [exact Hn1 | apply tyl_In; exact Hv | rewrite Hty1; exact Hin]. }
      unfold sbind at 1. rewrite E2. unfold set_secondary_time_index. unfold sbind at 1. rewrite (secondary_given kd (with_time (Some ti) (with_tab t' (with_vars vs2 e1)))); [|change (NoDup (map v_id vs2)); rewrite <- tyl_ids, Hty2, tyl_ids; exact Hn | change (n_vars (with_time (Some ti) (with_tab t' (with_vars vs2 e1)))) with vs2; rewrite Hty2; exact Hs].
      unfold emod. cbn [fst snd app]. exists vs2, (Some kd). split; [reflexivity|]. auto.
    - rewrite (Hnt eq_refl). unfold sbind, sret, set_secondary_time_index, secondary_go, emod. cbn. exists vs1, k. split; [|auto]. f_equal. f_equal. unfold e1. destruct e as [a1 [cs rs] a3 a4 a5 a6 a7 a8]; cbn in *. subst. reflexivity.
  Qed.

  Lemma convert_all_fits t tys : (forall c ty, In (c, ty) tys -> exists d, t_dtype t c = Ok d /\ fits ty d) -> convert_all to_numeric to_datetime t tys = Ok t.
  Proof.
    unfold convert_all. induction tys as [|[c ty] tys IH]; intros H; cbn [foldM]; [reflexivity|].
    assert (convert_one to_numeric to_datetime t (c, ty) = Ok t) as ->.
    { unfold convert_one. destruct (H c ty (or_introl eq_refl)) as (d & -> & F1 & F2). cbn [bind].
      assert (is_numeric_type ty && negb (numeric_dtype d) = false)%bool as ->. { destruct ty; try reflexivity; (destruct F1 as [-> | ->]; [auto | reflexivity | reflexivity]). }
      assert (is_datetime_type ty && negb (dtype_eqb d DDate) = false)%bool as ->; [|reflexivity]. destruct ty; try reflexivity; (rewrite F2; [reflexivity | auto]). }
    cbn. apply IH. intros c' ty' H'. apply (H c' ty'). right. exact H'.
  Qed.

  Lemma load_frame_Ok e k0 s : storable k0 e -> s_kind s = None \/ s_kind s = k0 ->
    exists s' e', load_frame (describe_entity e) (n_tab e) s = (s', Ok tt) /\ s_ents s' = dset String.eqb (n_id e) e' (s_ents s) /\ s_rels s' = s_rels s /\ s_id s' = s_id s /\
      (s_kind s' = None \/ s_kind s' = k0) /\ same_schema e e' /\
      List.length (t_rows (n_tab e')) = List.length (t_rows (n_tab e)) /\ forall v, In v (n_vars e) -> t_column (n_tab e') (v_id v) = map (cell (v_id v)) (sorted_rows (n_time e) (n_index e) (t_rows (n_tab e))).
  Proof.
    intros ((Hn & Hd & (iv & Hiv & Hivi & Hivt) & Ht & Hnt & Hs) & Hperm & Hframe & Huniq & Hfits) Hk. set (vs := n_vars e) in *. set (t := n_tab e) in *.
    assert (forall c, In c (map v_id vs) -> exists d, t_dtype t c = Ok d) as Htt by (intros c Hc; apply in_map_iff in Hc as (v & <- & Hv); apply Hd; exact Hv).
    assert (In (n_index e) (map v_id vs)) as Hii by (rewrite <- Hivi; apply in_map; exact Hiv).
    set (given := map (fun v => (v_id v, v_type v)) vs). set (vs0 := map (fun ct => mkVar (fst ct) (snd ct) [] None) given).
    assert (map v_id vs0 = map v_id vs) as Hids0 by (unfold vs0, given; rewrite !map_map; reflexivity).
    assert (tyl vs0 = tyl vs) as Hty0 by (unfold tyl, vs0, given; rewrite !map_map; reflexivity).
    destruct (split_index vs0 (n_index e)) as (iv0 & Hf & Hp0); [rewrite Hids0; exact Hn | rewrite Hids0; exact Hii|].
    set (vs1 := iv0 :: filter (fun v => negb (String.eqb (v_id v) (n_index e))) vs0) in *.
    assert (Permutation (tyl vs) (tyl vs1)) as Hp1 by (rewrite <- Hty0; apply Permutation_map; exact Hp0).
    assert (Permutation (map v_id vs) (map v_id vs1)) as Hp1' by (rewrite <- Hids0; apply Permutation_map; exact Hp0).
    assert (create_variables to_numeric to_datetime infer t given (n_index e) = Ok (vs1, t)) as Hcv.
    { unfold create_variables. assert (all_types infer t given (n_index e) = given) as ->.
      { unfold all_types. assert (map fst given = map v_id vs) as Hg by (unfold given; rewrite map_map; reflexivity). rewrite Hg. apply mem_str_In in Hii as Hm. rewrite Hm. rewrite Hg.
        assert (filter (fun c => negb (mem_str c (map v_id vs))) (t_names t) = []) as ->; [|reflexivity].
        assert (forall l, incl l (map v_id vs) -> filter (fun c => negb (mem_str c (map v_id vs))) l = []) as Hx; [|apply Hx; intros x Hx0; apply (Permutation_in _ (Permutation_sym Hperm)); exact Hx0].
        induction l as [|a l IH]; intros Hl; [reflexivity|]. cbn. assert (mem_str a (map v_id vs) = true) as -> by (apply mem_str_In; apply Hl; left; reflexivity). cbn. apply IH. intros x Hx. apply Hl. right. exact Hx. }
      rewrite convert_all_fits; [|intros c ty Hin; unfold given in Hin; apply in_map_iff in Hin as (v & E & Hv); injection E as <- <-; destruct (Hd v Hv) as (d & Hdv); exists d; split; [exact Hdv | exact (Hfits v d Hv Hdv)]]. cbn [bind]. fold vs0. rewrite Hf. reflexivity. }
    destruct (t_select_total t (map v_id vs1)) as (t2 & Hsel); [intros c Hc; apply Htt; apply (Permutation_in _ (Permutation_sym Hp1')); exact Hc|].
    pose proof (t_select_Ok _ _ _ Hsel) as (S1 & S2 & _ & D & S3 & S4).
    assert (forall v, In v vs -> t_dtype t2 (v_id v) = t_dtype (n_tab e) (v_id v)) as Ht2.
    { intros v Hv. assert (In (v_id v) (map v_id vs1)) as Hin by (apply (Permutation_in _ Hp1'); apply in_map; exact Hv). unfold t_dtype at 1. rewrite S3, dget_map_key by exact Hin. rewrite <- S4 by exact Hin. reflexivity. }
    assert (forall v, In v vs -> forall r, cell (v_id v) (map (fun c => (c, cell c r)) (map v_id vs1)) = cell (v_id v) r) as Hcell.
    { intros v Hv r. unfold cell at 1. rewrite dget_map_key; [reflexivity|]. apply (Permutation_in _ Hp1'). apply in_map. exact Hv. }
    destruct (init_given (n_index e) (n_time e) (n_sec e) k0 (s_kind s) (mkEnt (n_id e) t2 vs1 (n_index e) None [] None None)) as (vs2 & k' & Hinit & Hty2 & Hk'); cbn [n_tab n_vars n_time].
    { apply (Permutation_NoDup Hp1'). exact Hn. }
    { rewrite S1. apply (Permutation_in _ Hp1'). exact Hii. }
    { apply (Permutation_in _ Hp1). rewrite <- Hivi, <- Hivt. apply tyl_In. exact Hiv. }
    { unfold t_column. rewrite S2, map_map. erewrite map_ext; [exact Huniq|]. intros r. rewrite <- Hivi. apply Hcell. exact Hiv. }
    { exact Hk. }
    { intros ti Hti. destruct (Ht ti Hti) as (_ & v & d & Hv & Hvt & Hdt & Hc). exists d. rewrite <- Hvt at 1. rewrite Ht2 by exact Hv. rewrite Hvt. split; [exact Hdt|].
      assert (t_dtype (n_tab e) (v_id v) = Ok d) as Hdt' by (rewrite Hvt; exact Hdt). destruct Hc as [(H1 & H2 & H3)|(H1 & H2 & H3)]; [left | right]; (split; [first [exact H1 | apply (proj1 (Hfits v d Hv Hdt')); right; exact H2]|]; split; [|exact H3]); apply (Permutation_in _ Hp1); rewrite <- Hvt, <- H2; apply tyl_In; exact Hv. }
    { intros Hx. apply Hnt. exact Hx. }
    { reflexivity. }
    { intros c cs Hin. destruct (Hs c cs Hin) as (Hc & v & Hv & Hvc & Hvk). split; [exact Hc|]. destruct (Hd v Hv) as (d & Hdv). exists (v_type v), d. split; [apply (Permutation_in _ Hp1); rewrite <- Hvc; apply tyl_In; exact Hv|]. split; [exact Hvk|]. split; [rewrite <- Hvc, Ht2 by exact Hv; exact Hdv | exact (Hfits v d Hv Hdv)]. }
    set (e2 := with_sec (n_sec e) (with_time (n_time e) (with_tab (mkTab (t_cols t2) (sorted_rows (n_time e) (n_index e) (t_rows t2))) (with_index (n_index e) (with_vars vs2 (mkEnt (n_id e) t2 vs1 (n_index e) None [] None None)))))) in *.
    set (e3 := with_vars (map (restore_values vs) vs2) e2).
    assert (entity_from_dataframe to_numeric to_datetime obj_kind infer (n_id e) t (Some (n_index e)) given false (n_time e) (n_sec e) false s =
              (with_meta None (with_ents (dset String.eqb (n_id e) e2 (s_ents s)) (with_kind k' s)), Ok tt)) as Hefd.
    { unfold entity_from_dataframe. unfold sbind at 1. unfold sguard at 1.
      assert (match n_time e with Some a => negb (String.eqb a (n_index e)) | None => true end = true) as ->.
      { destruct (n_time e) as [ti|]; [|reflexivity]. destruct (Ht ti eq_refl) as (Hne & _). destruct (String.eqb_spec ti (n_index e)); [contradiction | reflexivity]. }
      unfold sbind at 1. unfold sguard at 1. assert (match n_time e with Some _ => true | None => forallb (fun ct => negb (vtype_eqb (snd ct) TDatetimeTimeIndex)) given end = true) as ->.
      { destruct (n_time e) as [ti|]; [reflexivity|]. apply forallb_forall. intros [c ty] Hin. unfold given in Hin. apply in_map_iff in Hin as (v & Hv & Hin). injection Hv as <- <-. cbn. destruct (vtype_eqb_spec (v_type v) TDatetimeTimeIndex) as [Hx|]; [|reflexivity]. exfalso. exact (proj2 (Hnt eq_refl) v Hin Hx). }
      unfold sbind at 1. assert (new_entity to_numeric to_datetime obj_kind infer (n_id e) t (Some (n_index e)) given false (n_time e) (n_sec e) false (s_kind s) = (k', Ok e2)) as ->; [|reflexivity].
      unfold new_entity. unfold sbind at 1. unfold sguard at 1. assert (nodup_str (t_names t) = true) as -> by (apply nodup_str_spec; apply Hframe).
      unfold sbind at 1. unfold sguard at 1. assert (match n_time e with Some ti => mem_str ti (t_names t) | None => true end = true) as ->.
      { destruct (n_time e) as [ti|]; [|reflexivity]. destruct (Ht ti eq_refl) as (_ & v & d & Hv & <- & _). apply mem_str_In. apply (Permutation_in _ Hperm). apply in_map. exact Hv. }
      unfold sbind at 1. unfold slift at 1. assert (create_index (Some (n_index e)) false t = Ok (None, n_index e, t)) as -> by (unfold create_index; assert (mem_str (n_index e) (t_names t) = true) as Hm by (apply mem_str_In; apply (Permutation_in _ Hperm); exact Hii); rewrite Hm; reflexivity).
      unfold sbind at 1. unfold slift at 1. rewrite Hcv. unfold sbind at 1. unfold slift at 1. cbn [fst snd]. rewrite Hsel. cbv zeta. fold (init (n_index e) (n_time e) (n_sec e) false). rewrite Hinit. reflexivity. }
    exists (with_kind k' (with_ents (dset String.eqb (n_id e) e3 (dset String.eqb (n_id e) e2 (s_ents s))) (with_meta None (with_ents (dset String.eqb (n_id e) e2 (s_ents s)) (with_kind k' s))))), e3.
    split.
    { unfold M_Files.load_frame. cbn [d_id d_index d_time d_sec d_vars describe_entity]. fold t vs given. unfold sbind at 1. rewrite Hefd. unfold on_entity. unfold sent at 1. cbn [s_ents with_meta with_ents]. rewrite (dget_dset_same _ String.eqb_spec). reflexivity. }
    cbn [s_ents s_rels s_id s_kind with_kind with_ents with_meta]. split; [|split; [reflexivity|]; split; [reflexivity|]; split; [exact Hk'|]; split].
    { clear. induction (s_ents s) as [|[i x] l IH]; cbn; [rewrite String.eqb_refl; reflexivity|]. destruct (String.eqb (n_id e) i) eqn:E; cbn; rewrite E; [reflexivity | f_equal; exact IH]. }
    { split; [reflexivity|]. split; [reflexivity|]. split; [reflexivity|]. split; [reflexivity|]. split; [|exact Ht2]. apply restore_all; [exact Hn|]. rewrite Hty2. exact Hp1. }
    assert (sorted_rows (n_time e) (n_index e) (t_rows t2) = map (fun r => map (fun c => (c, cell c r)) (map v_id vs1)) (sorted_rows (n_time e) (n_index e) (t_rows t))) as Hsort.
    { rewrite S2. unfold sorted_rows. destruct (n_time e) as [ti|]; [|reflexivity]. apply isort_map_commute. intros a b. destruct (Ht ti eq_refl) as (_ & tv & _ & Htv & Hti & _). unfold row_leb. rewrite <- Hti, <- Hivi, !Hcell by assumption. reflexivity. }
    split.
    { cbn. rewrite Hsort, map_length. unfold sorted_rows. destruct (n_time e); [|reflexivity]. apply Permutation_length. apply isort_perm. }
    { intros v Hv. unfold t_column. cbn. rewrite Hsort, map_map. apply map_ext. intros r. apply Hcell. exact Hv. }
  Qed.

  Lemma describe_cols e : storable (s_kind (empty_set "")) e \/ (exists k, storable k e) -> d_dtypes (describe_entity e) = t_cols (n_tab e).
  Proof.
    intros H. assert (exists k, storable k e) as (k & _ & Hp & _) by (destruct H; eauto). clear H. cbn [describe_entity d_dtypes].
    assert (forall l, incl (map fst l) (map v_id (n_vars e)) -> filter (fun cd : string * dtype => mem_str (fst cd) (map v_id (n_vars e))) l = l) as Hx.
    { induction l as [|a l IH]; intros Hl; [reflexivity|]. cbn [filter]. assert (mem_str (fst a) (map v_id (n_vars e)) = true) as -> by (apply mem_str_In; apply Hl; left; reflexivity). f_equal. apply IH. intros x Hin. apply Hl. right. exact Hin. }
    apply Hx. intros x Hin. apply (Permutation_in _ (Permutation_sym Hp)). exact Hin.
  Qed.

  (** what a reading must preserve of one entity *)
  Definition kept (e e' : ent) : Prop :=
    same_schema e e' /\ List.length (t_rows (n_tab e')) = List.length (t_rows (n_tab e)) /\
    forall v, In v (n_vars e) -> t_column (n_tab e') (v_id v) = map (cell (v_id v)) (sorted_rows (n_time e) (n_index e) (t_rows (n_tab e))).

  Lemma load_entities_Ok dr f k0 l : forall s, NoDup (map n_id l) -> (forall e, In e l -> storable k0 e /\ safe f e /\ dget String.eqb (location f (n_id e)) dr = Some (entity_file f (n_tab e))) -> s_kind s = None \/ s_kind s = k0 ->
    exists s', siter (load_entity dr) (map (fun d => mkStored d (location f (d_id d)) f) (map describe_entity l)) s = (s', Ok tt) /\ s_rels s' = s_rels s /\ s_id s' = s_id s /\
      (forall e, In e l -> exists e', dget String.eqb (n_id e) (s_ents s') = Some e' /\ kept e e') /\
      (forall id, ~ In id (map n_id l) -> dget String.eqb id (s_ents s') = dget String.eqb id (s_ents s)) /\
      (NoDup (map fst (s_ents s)) -> NoDup (map fst (s_ents s'))).
  Proof.
    induction l as [|e l IH]; intros s Hn Hd Hk; cbn [map siter]; [exists s; split; [reflexivity|]; split; [reflexivity|]; split; [reflexivity|]; split; [intros e [] | split; [reflexivity | auto]]|].
    cbn [map] in Hn. inversion Hn as [|? ? Hna Hn']; subst. destruct (Hd e (or_introl eq_refl)) as (Hst & Hsafe & Hg). destruct (load_frame_Ok e k0 s Hst Hk) as (s1 & e1 & E1 & He1 & Hr1 & Hi1 & Hk1 & Hs1 & Hrow1 & Hcol1).
    destruct (IH s1 Hn') as (s2 & E2 & Hr2 & Hi2 & Hin2 & Hout2 & Hnd2); [intros x Hx; apply Hd; right; exact Hx | exact Hk1|].
    assert (load_entity dr (mkStored (describe_entity e) (location f (d_id (describe_entity e))) f) s = (s1, Ok tt)) as E0.
    { unfold M_Files.load_entity. unfold sbind, slift. change (d_id (describe_entity e)) with (n_id e). rewrite (read_back f e dr (t_cols (n_tab e))); [exact E1 | apply Hst | exact Hsafe | reflexivity | exact Hg | apply describe_cols; right; eauto]. }
    exists s2. split; [unfold sbind; rewrite E0; exact E2|]. split; [congruence|]. split; [congruence|]. split; [|split].
    - intros x [<-|Hx]; [|apply Hin2; exact Hx]. exists e1. split; [rewrite Hout2 by exact Hna; rewrite He1; apply (dget_dset_same _ String.eqb_spec) | unfold kept; auto].
    - intros id Hni. rewrite Hout2 by (intros Hx; apply Hni; right; exact Hx). rewrite He1. apply (dget_dset_other _ String.eqb_spec). intros ->. apply Hni. left. reflexivity.
    - intros Hnk. apply Hnd2. rewrite He1. apply (dset_NoDup _ String.eqb_spec). exact Hnk.
  Qed.

  Lemma disk_trip f dr s : dicts s -> NoDup (s_rels s) -> (forall id e, dget String.eqb id (s_ents s) = Some e -> storable (s_kind s) e /\ safe f e) ->
    Forall (link_typed s) (s_rels s) ->
    exists s', read_entityset (save f s dr) = Ok s' /\ s_id s' = s_id s /\ s_rels s' = s_rels s /\
      (forall id, match dget String.eqb id (s_ents s), dget String.eqb id (s_ents s') with
                 | Some e, Some e' => kept e e' | None, None => True | _, _ => False end) /\
      NoDup (map fst (s_ents s')).
  Proof.
    intros [Hk He] Hr Hd Hl. 
    set (l := isort (fun a b => str_leb (n_id a) (n_id b)) (map snd (s_ents s))).
    assert (Permutation l (map snd (s_ents s))) as Hp by apply isort_perm.
    assert (map n_id (map snd (s_ents s)) = map fst (s_ents s)) as Hids.
    { rewrite map_map. apply map_ext_in. intros [id e] Hin. apply He in Hin as (Hid & _). exact Hid. }
    assert (NoDup (map n_id l)) as Hnl by (apply (Permutation_NoDup (Permutation_map n_id (Permutation_sym Hp))); rewrite Hids; exact Hk).
    assert (forall e, In e l <-> dget String.eqb (n_id e) (s_ents s) = Some e) as Hinl.
    { intros e. split; intros H.
      - apply (Permutation_in _ Hp) in H. apply in_map_iff in H as ([id x] & <- & Hin). cbn [snd]. destruct (He id x Hin) as (-> & _). apply (dget_NoDup_In _ String.eqb_spec); assumption.
      - apply (dget_In _ String.eqb_spec) in H. apply (Permutation_in _ (Permutation_sym Hp)). apply in_map_iff. exists (n_id e, e). auto. }
    assert (NoDup (map fst (saves f s))) as Hops by (apply saves_NoDup; rewrite Hids; exact Hk).
    unfold M_Files.read_entityset, save. rewrite (write_all_get dr (saves f s) description_file (FDescription (d_name (describe s)) (map (fun d => mkStored d (location f (d_id d)) f) (d_ents (describe s))) (d_rels (describe s))) Hops); [|unfold saves; apply in_or_app; right; left; reflexivity].
    unfold describe. cbn [d_ents d_rels d_name]. fold l. unfold M_Files.load. assert (forall X, map st_descr (map (fun d => mkStored d (location f (d_id d)) f) X) = X) as -> by (intros X; rewrite map_map; apply map_id).
    destruct (load_entities_Ok (write_all dr (saves f s)) f (s_kind s) l (empty_set (s_id s)) Hnl) as (s1 & E1 & Hr1 & Hi1 & Hin1 & Hout1 & Hnd1); [intros e Hin; apply Hinl in Hin; destruct (Hd _ _ Hin) as [Hst Hsf]; split; [exact Hst|]; split; [exact Hsf|]; apply write_all_get; [exact Hops|]; unfold saves; apply in_or_app; left; apply in_map_iff; exists (n_id e, e); split; [reflexivity | apply (dget_In _ String.eqb_spec); exact Hin] | left; reflexivity|].
    assert (forall id e, dget String.eqb id (s_ents s) = Some e -> describable (s_kind s) e) as Hd' by (intros id e E; exact (proj1 (proj1 (Hd id e E)))).
    assert (forall id, match dget String.eqb id (s_ents s), dget String.eqb id (s_ents s1) with Some e, Some e' => kept e e' | None, None => True | _, _ => False end) as Hsame.
    { intros id. destruct (dget String.eqb id (s_ents s)) as [e|] eqn:E.
      - assert (n_id e = id) as <- by (apply (dget_In _ String.eqb_spec) in E; apply He in E as (Hid & _); exact Hid). apply Hinl in E. destruct (Hin1 e E) as (e' & -> & Hs). exact Hs.
      - rewrite Hout1; [exact I|]. intros Hin. apply in_map_iff in Hin as (e & <- & Hin). apply Hinl in Hin. congruence. }
    assert (forall id e1, dget String.eqb id (s_ents s1) = Some e1 -> exists e, dget String.eqb id (s_ents s) = Some e /\ same_schema e e1) as Hback.
    { intros id e1 E. specialize (Hsame id). rewrite E in Hsame. destruct (dget String.eqb id (s_ents s)) as [e|]; [destruct Hsame as [Hsame _]; eauto | destruct Hsame]. }
    assert (forall id e, dget String.eqb id (s_ents s) = Some e -> exists e1, dget String.eqb id (s_ents s1) = Some e1 /\ same_schema e e1) as Hforth.
    { intros id e E. specialize (Hsame id). rewrite E in Hsame. destruct (dget String.eqb id (s_ents s1)) as [e1|]; [destruct Hsame as [Hsame _]; eauto | destruct Hsame]. }
    destruct (relates_Ok to_numeric to_datetime (s_rels s) s1) as (s2 & E2 & He2 & Hr2 & Hi2).
    { rewrite Hr1. exact Hr. }
    { intros id e1 E. destruct (Hback id e1 E) as (e & E0 & (_ & _ & _ & _ & Hv & _)). eapply Permutation_NoDup; [apply Permutation_map; exact Hv|]. exact (proj1 (Hd' id e E0)). }
    { intros r Hin. rewrite Forall_forall in Hl. destruct (Hl r Hin) as ((ce & pe & d & Ce & Pe & Hpv & Hcv & Dc & Dp) & ce' & vc & Ce' & Hvc & Hvci & Hvct). rewrite Ce in Ce'. injection Ce' as <-.
      destruct (Hforth _ _ Ce) as (c1 & C1 & (_ & Ci & _ & _ & Cv & Cd)). destruct (Hforth _ _ Pe) as (p1 & P1 & (_ & Pi & _ & _ & Pv & Pd)).
      destruct (Hd' _ _ Pe) as (_ & _ & (vp & Hvp & Hvpi & Hvpt) & _). split; [split|].
      - exists c1, p1, d. split; [exact C1|]. split; [exact P1|]. split; [congruence|]. split; [congruence|]. split; [rewrite <- Hvci, Cd, Hvci by exact Hvc; exact Dc|]. rewrite Hpv, <- Hvpi, Pd, Hvpi, <- Hpv by exact Hvp. exact Dp.
      - exists c1, vc. split; [exact C1|]. split; [apply (Permutation_in _ Cv); exact Hvc | auto].
      - exists p1, vp. split; [exact P1|]. split; [apply (Permutation_in _ Pv); exact Hvp | split; [congruence | exact Hvpt]]. }
    assert (exists s3, match map d_id (filter d_lti (map describe_entity l)) with [] => sret tt | x :: y => add_last_time_indexes touched last_times (x :: y) end s2 = (s3, Ok tt) /\ s_id s3 = s_id s2 /\ s_rels s3 = s_rels s2 /\
              (forall id, match dget String.eqb id (s_ents s2) with Some e => exists q, dget String.eqb id (s_ents s3) = Some (with_lti q e) | None => dget String.eqb id (s_ents s3) = None end) /\ map fst (s_ents s3) = map fst (s_ents s2)) as (s3 & E3 & Hi3 & Hr3 & He3 & Hk3).
    { destruct (map d_id (filter d_lti (map describe_entity l))) as [|x y].
      - exists s2. split; [reflexivity|]. split; [reflexivity|]. split; [reflexivity|]. split; [|reflexivity]. intros id. destruct (dget String.eqb id (s_ents s2)) as [e|]; [exists (n_lti e); destruct e; reflexivity | reflexivity].
      - destruct (add_last_time_indexes touched last_times (x :: y) s2) as [s3 r3] eqn:Ea. assert (r3 = Ok tt /\ s_id s3 = s_id s2 /\ s_rels s3 = s_rels s2 /\ map fst (s_ents s3) = map fst (s_ents s2)) as (-> & Hi & Hre & Hks).
        { unfold add_last_time_indexes, sbind, sget, smod, reset_meta in Ea. injection Ea as <- <-. split; [reflexivity|]. split; [reflexivity|]. split; [reflexivity|]. cbn [s_ents with_meta with_ents]. rewrite map_map. apply map_ext. intros [i e]. cbn. destruct (mem_str i _); reflexivity. }
        exists s3. split; [reflexivity|]. split; [exact Hi|]. split; [exact Hre|]. split; [|exact Hks]. intros id. destruct (dget String.eqb id (s_ents s2)) as [e|] eqn:E; [eapply last_times_tab; [exact Ea | exact E]|].
        apply (dget_None _ String.eqb_spec id (s_ents s3)). rewrite Hks. apply (dget_None _ String.eqb_spec id (s_ents s2)). exact E. }
    exists s3. split.
    { unfold sbind at 1. rewrite E1. unfold sbind at 1. rewrite E2. rewrite E3. reflexivity. }
    split; [rewrite Hi3, Hi2, Hi1; reflexivity|]. split; [rewrite Hr3, Hr2, Hr1; reflexivity|]. split; [|rewrite Hk3, He2; apply Hnd1; constructor].
    intros id. specialize (Hsame id). specialize (He3 id). rewrite He2 in He3. destruct (dget String.eqb id (s_ents s)) as [e|].
    - destruct (dget String.eqb id (s_ents s1)) as [e1|]; [|destruct Hsame]. destruct He3 as (q & ->). exact Hsame.
    - destruct (dget String.eqb id (s_ents s1)) as [e1|]; [destruct Hsame|]. rewrite He3. exact I.
  Qed.


  (** *** What is read is what was written *)
  Lemma kept_same e e' : ordered e -> kept e e' -> same_schema e e' /\ same_data e e'.
  Proof.
    intros Ho (Hs & Hl & Hc). split; [exact Hs|]. split; [exact Hl|]. intros v Hv. rewrite (Hc v Hv). unfold t_column. f_equal. unfold sorted_rows, ordered in *. destruct (n_time e) as [ti|]; [|reflexivity].
    apply isort_id. unfold in_order in Ho. clear -Ho. induction Ho as [|a l _ IH Hf]; [constructor|]. constructor; [exact IH|]. eapply Forall_impl; [|exact Hf]. intros b H. apply row_leb_spec. exact H.
  Qed.
  Lemma kept_sorted e e' : kept e e' -> same_rows_sorted e e'.
  Proof.
    intros (Hs & Hl & Hc). exists (sorted_rows (n_time e) (n_index e) (t_rows (n_tab e))).
    assert (Permutation (sorted_rows (n_time e) (n_index e) (t_rows (n_tab e))) (t_rows (n_tab e))) as Hp by (unfold sorted_rows; destruct (n_time e); [apply isort_perm | reflexivity]).
    split; [exact Hp|]. split; [intros ti Hti; rewrite Hti; apply isort_rows_sorted|]. split; [rewrite (Permutation_length Hp); exact Hl | exact Hc].
  Qed.

  (** C71: whatever the directory held before, reading a saved entity set gives its schema, relationships and data back *)
  Theorem C71_round_trip_partial f before s : dicts s -> NoDup (s_rels s) -> (forall id e, dget String.eqb id (s_ents s) = Some e -> storable (s_kind s) e /\ safe f e) ->
    Forall (link_typed s) (s_rels s) -> (forall id e, dget String.eqb id (s_ents s) = Some e -> ordered e) ->
    exists s', read_entityset (save f s before) = Ok s' /\ s_id s' = s_id s /\ s_rels s' = s_rels s /\
      forall id, match dget String.eqb id (s_ents s), dget String.eqb id (s_ents s') with
                 | Some e, Some e' => same_schema e e' /\ same_data e e' | None, None => True | _, _ => False end.
  Proof.
    intros H1 H2 H3 H4 H5. destruct (disk_trip f before s H1 H2 H3 H4) as (s' & E & Hi & Hr & He & _). exists s'. split; [exact E|]. split; [exact Hi|]. split; [exact Hr|].
    intros id. specialize (He id). destruct (dget String.eqb id (s_ents s)) as [e|] eqn:Ee, (dget String.eqb id (s_ents s')) as [e'|]; try exact He. apply kept_same; [apply (H5 id e Ee) | exact He].
  Qed.

  (** rows that were not in the order of the time index come back sorted *)
  Theorem C71_sorted_partial f before s : dicts s -> NoDup (s_rels s) -> (forall id e, dget String.eqb id (s_ents s) = Some e -> storable (s_kind s) e /\ safe f e) ->
    Forall (link_typed s) (s_rels s) ->
    exists s', read_entityset (save f s before) = Ok s' /\
      forall id, match dget String.eqb id (s_ents s), dget String.eqb id (s_ents s') with
                 | Some e, Some e' => same_schema e e' /\ same_rows_sorted e e' | None, None => True | _, _ => False end.
  Proof.
    intros H1 H2 H3 H4. destruct (disk_trip f before s H1 H2 H3 H4) as (s' & E & Hi & Hr & He & _). exists s'. split; [exact E|].
    intros id. specialize (He id). destruct (dget String.eqb id (s_ents s)) as [e|] eqn:Ee, (dget String.eqb id (s_ents s')) as [e'|]; try exact He. split; [apply He | apply kept_sorted; exact He].
  Qed.

  (** *** Earlier contents of the directory do not matter *)
  Lemma read_same d1 d2 st : dget String.eqb (st_location st) d1 = dget String.eqb (st_location st) d2 -> read_entity_data d1 st = read_entity_data d2 st.
  Proof. intros H. unfold read_entity_data. rewrite H. reflexivity. Qed.
  Lemma loads_same d1 d2 l : (forall st, In st l -> dget String.eqb (st_location st) d1 = dget String.eqb (st_location st) d2) -> forall s, siter (load_entity d1) l s = siter (load_entity d2) l s.
  Proof.
    induction l as [|st l IH]; intros H s; [reflexivity|]. cbn [siter]. unfold sbind. assert (load_entity d1 st s = load_entity d2 st s) as ->.
    { unfold M_Files.load_entity, sbind, slift. rewrite (read_same d1 d2 st) by (apply H; left; reflexivity). reflexivity. }
    destruct (load_entity d2 st s) as [s1 [x|]]; [apply IH; intros st' Hst'; apply H; right; exact Hst' | reflexivity].
  Qed.

  (** for every entity set with distinct ids, every format and everything that may have been in the directory before,
      including an interrupted save *)
  Theorem C71_fresh f s d1 d2 : dicts s -> read_entityset (save f s d1) = read_entityset (save f s d2).
  Proof.
    intros [Hk He]. assert (map n_id (map snd (s_ents s)) = map fst (s_ents s)) as Hids.
    { rewrite map_map. apply map_ext_in. intros [id e] Hin. apply He in Hin as (Hid & _). exact Hid. }
    assert (NoDup (map fst (saves f s))) as Hops by (apply saves_NoDup; rewrite Hids; exact Hk).
    assert (forall p, In p (map fst (saves f s)) -> dget String.eqb p (save f s d1) = dget String.eqb p (save f s d2)) as Hg.
    { intros p Hp. apply in_map_iff in Hp as ([q x] & <- & Hp). cbn [fst]. unfold save. rewrite !(write_all_get _ _ q x Hops Hp). reflexivity. }
    unfold M_Files.read_entityset. rewrite (Hg description_file) by (unfold saves; rewrite map_app; apply in_or_app; right; left; reflexivity).
    assert (dget String.eqb description_file (save f s d2) = Some (FDescription (d_name (describe s)) (map (fun d => mkStored d (location f (d_id d)) f) (d_ents (describe s))) (d_rels (describe s)))) as ->.
    { unfold save. apply write_all_get; [exact Hops|]. unfold saves. apply in_or_app. right. left. reflexivity. }
    unfold M_Files.load, sbind. rewrite (loads_same (save f s d1) (save f s d2)); [reflexivity|].
    intros st Hst. apply Hg. apply in_map_iff in Hst as (d & <- & Hd). cbn [st_location]. unfold describe in Hd. cbn [d_ents] in Hd. apply in_map_iff in Hd as (e & <- & Hin). apply (Permutation_in _ (isort_perm _ _)) in Hin. apply in_map_iff in Hin as ([id e0] & <- & Hin).
    unfold saves. rewrite map_app, map_map. apply in_or_app. left. apply in_map_iff. exists (id, e0). split; [reflexivity | exact Hin].
  Qed.

  (** *** Stopping in the middle of a save *)
  (** into a directory without a description: there is nothing to read, however far the save went *)
  Theorem C71_stopped f s d d' : dicts s -> dget String.eqb description_file d = None -> stopped (saves f s) d d' -> exists x, read_entityset d' = Err x.
  Proof.
    intros [Hk He] Hd (n & Hn & Hs).
    assert (forall m, (m < List.length (saves f s))%nat -> ~ In description_file (map fst (firstn m (saves f s)))) as Hnot.
    { intros m Hm. unfold saves in *. rewrite app_length in Hm. cbn [List.length] in Hm. rewrite firstn_app. replace (m - _)%nat with 0%nat by lia. cbn [firstn]. rewrite app_nil_r. intros Hin. apply in_map_iff in Hin as ([p x] & Hp & Hin). cbn in Hp. subst p.
      assert (In (description_file, x) (map (fun ie => (location f (n_id (snd ie)), entity_file f (n_tab (snd ie)))) (s_ents s))) as H by (rewrite <- (firstn_skipn m); apply in_or_app; left; exact Hin).
      apply in_map_iff in H as (ie & H & _). apply (f_equal fst) in H. exact (location_not_description _ _ H). }
    assert (dget String.eqb description_file (write_all d (firstn n (saves f s))) = None) as H0 by (rewrite write_all_other by (apply Hnot; exact Hn); exact Hd).
    destruct Hs as [-> | (p & g & Hnth & ->)]; unfold M_Files.read_entityset; [rewrite H0; eauto|].
    unfold write. cbn [fst snd]. destruct (String.eqb_spec p description_file) as [->|Hne]; [rewrite (dget_dset_same _ String.eqb_spec); eauto|]. rewrite (dget_dset_other _ String.eqb_spec) by congruence. rewrite H0. eauto.
  Qed.
End C71.

(** ** Concrete entity sets *)
Notation back := (read_entityset nr dt okd infd tch lts).
(** the entity set of C54_nonvacuous, stored in each of the formats in a directory that held something else *)
Definition junk : dir := [("data/old.csv", FTorn); (description_file, FTorn)].
Lemma told_storable : forall f id e, f = Pickle \/ f = Parquet \/ f = Csv "," -> dget String.eqb id (s_ents told) = Some e -> storable (s_kind told) e /\ safe f e /\ ordered e.
Proof.
  intros f id e Hf H. pose proof (proj1 (proj2 (proj2 C54_nonvacuous)) id e H) as Hd. assert (s_ents told = told_ents) as He by (vm_cast_no_check (eq_refl told_ents)). rewrite He in H. clear He. apply (dget_In _ String.eqb_spec) in H. cbn [told_ents In] in H.
  assert (forall (e : ent), forallb (fun r => if list_eq_dec String.string_dec (map fst r) (t_names (n_tab e)) then true else false) (t_rows (n_tab e)) = true -> nodupb (t_names (n_tab e)) = true -> framed (n_tab e)) as Hframe.
  { intros x Hx Hn. split; [apply nodupb_spec; exact Hn|]. rewrite forallb_forall in Hx. intros r Hr. specialize (Hx r Hr). destruct (list_eq_dec _ _ _); [assumption | discriminate]. }
  assert (forall (e : ent), forallb (fun cd => match snd cd with DInt => forallb (fun v => match v with VNum _ => true | _ => false end) (t_column (n_tab e) (fst cd)) | DDate => forallb (fun v => match v with VNum _ => true | _ => false end) (t_column (n_tab e) (fst cd)) | _ => false end) (t_cols (n_tab e)) = true -> safe f e) as Hsafe.
  { intros x Hx. rewrite forallb_forall in Hx. assert (forall c d, t_dtype (n_tab x) c = Ok d -> (d = DInt \/ d = DDate) /\ forall v, In v (t_column (n_tab x) c) -> exists z, v = VNum z) as Hq.
    { intros c d Hc. unfold t_dtype in Hc. destruct (dget String.eqb c (t_cols (n_tab x))) as [d'|] eqn:E; [|discriminate]. injection Hc as ->. apply (dget_In _ String.eqb_spec) in E. specialize (Hx _ E). cbn [fst snd] in Hx.
      destruct d; try discriminate; (split; [auto|]; rewrite forallb_forall in Hx; intros v Hv; specialize (Hx v Hv); destruct v; try discriminate; eauto). }
    destruct Hf as [-> | [-> | ->]]; [exact I | |].
    - intros c d Hc. intros ->. destruct (Hq c DObj Hc) as [[H0|H0] _]; discriminate.
    - split; [reflexivity|]. intros c d Hc. destruct (Hq c d Hc) as [[-> | ->] Hv]; [left; auto | right; left; split; [auto | intros v Hv'; right; apply Hv; exact Hv']]. }
  assert (forall l : list val, nodup_vals l = true -> NoDup l) as Hnv by (intros l; apply nodup_vals_spec).
  split; [split; [exact Hd|]|split].
  - destruct H as [H|[H|[]]]; injection H as <- <-; (split; [apply NoDup_Permutation; [apply nodupb_spec; reflexivity | apply nodupb_spec; reflexivity | intros x; cbn; tauto]|]; split; [apply Hframe; reflexivity|]; split; [apply Hnv; reflexivity|]);
      intros v d Hv E; cbn in Hv; repeat (destruct Hv as [<-|Hv]; [cbn in E; injection E as <-; split; intros [Hx|Hx]; try discriminate; auto|]); destruct Hv.
  - destruct H as [H|[H|[]]]; injection H as <- <-; apply Hsafe; reflexivity.
  - destruct H as [H|[H|[]]]; injection H as <- <-; unfold ordered; cbn [n_time n_tab n_index];
      match goal with |- in_order ?t ?i ?rs => replace rs with (isort (row_leb t i) rs) by (vm_compute; reflexivity) end; apply isort_rows_sorted.
Qed.
Example C71_nonvacuous : (dicts told /\ NoDup (s_rels told) /\ Forall (link_typed told) (s_rels told)) /\
  (forall f id e, f = Pickle \/ f = Parquet \/ f = Csv "," -> dget String.eqb id (s_ents told) = Some e -> storable (s_kind told) e /\ safe f e /\ ordered e) /\
  (exists s', back (save (Csv ",") told junk) = Ok s' /\ map (fun ie => (fst ie, t_rows (n_tab (snd ie)))) (s_ents s') <> [] /\
     forall id, match dget String.eqb id (s_ents told), dget String.eqb id (s_ents s') with Some e, Some e' => same_data e e' | None, None => True | _, _ => False end).
Proof.
  destruct C54_nonvacuous as (H1 & H2 & _ & H3 & _). split; [auto|]. split; [exact told_storable|].
  destruct (C71_round_trip_partial nr dt okd infd tch lts (Csv ",") junk told H1 H2) as (s' & E & _ & _ & He); [intros id e H; apply (told_storable (Csv ",")) in H as (A & B & _); [auto | auto] | exact H3 | intros id e H; apply (told_storable (Csv ",")) in H as (_ & _ & C); [exact C | auto]|].
  exists s'. split; [exact E|]. split.
  - specialize (He "events"). destruct (s_ents s') as [|p l]; [|discriminate]. assert (dget String.eqb "events" (s_ents told) <> None) as Hne by (vm_compute; discriminate). cbn [dget] in He. destruct (dget String.eqb "events" (s_ents told)); [destruct He | congruence].
  - intros id. specialize (He id). destruct (dget String.eqb id (s_ents told)), (dget String.eqb id (s_ents s')); try exact He. apply He.
Qed.

(** a table of products with a code and a label *)
Definition prods (rows : list (Z * val * val)) : table :=
  mkTab [("pid", DInt); ("code", DObj); ("label", DObj)] (map (fun q => [("pid", VNum (fst (fst q))); ("code", snd (fst q)); ("label", snd q)]) rows).
Definition shop (rows : list (Z * val * val)) : eset := after [Create "products" (prods rows) (Some "pid") [("code", TCategorical); ("label", TCategorical)] false None [] false].
Definition column_read (f : format) (s : eset) (before : dir) (c : string) : res (list val) :=
  do s' <- back (save f s before); do e <- sent "products" s'; Ok (t_column (n_tab e) c).
Definition column_of (s : eset) (c : string) : res (list val) := do e <- sent "products" s; Ok (t_column (n_tab e) c).

(** saved as text with another separator, it cannot be read *)
Theorem C71_separator_refuted : exists s x, column_of s "label" = Ok [VStr "tea"; VStr "milk"] /\ column_read (Csv ",") s [] "label" = Ok [VStr "tea"; VStr "milk"] /\ back (save (Csv ";") s []) = Err x.
Proof. exists (shop [(1%Z, VStr "a1", VStr "tea"); (2%Z, VStr "b2", VStr "milk")]), KeyError. repeat split; vm_compute; reflexivity. Qed.
(** texts of digits come back as numbers *)
Theorem C71_digits_refuted : exists s, column_of s "code" = Ok [VStr "007"; VStr "012"] /\ column_read (Csv ",") s [] "code" = Ok [VNum 7%Z; VNum 12%Z].
Proof. exists (shop [(1%Z, VStr "007", VStr "tea"); (2%Z, VStr "012", VStr "milk")]). split; vm_compute; reflexivity. Qed.
(** the texts "NA" and "" come back as missing values *)
Theorem C71_words_refuted : exists s, column_of s "code" = Ok [VStr "NA"; VStr ""; VStr "UK"] /\ column_read (Csv ",") s [] "code" = Ok [VNull; VNull; VStr "UK"].
Proof. exists (shop [(1%Z, VStr "NA", VStr "tea"); (2%Z, VStr "", VStr "milk"); (3%Z, VStr "UK", VStr "rice")]). split; vm_compute; reflexivity. Qed.
(** in parquet files the missing values of a text column become the text "nan" *)
Theorem C71_missing_refuted : exists s, column_of s "label" = Ok [VStr "tea"; VNull] /\ column_read Parquet s [] "label" = Ok [VStr "tea"; VStr "nan"].
Proof. exists (shop [(1%Z, VStr "a1", VStr "tea"); (2%Z, VStr "b2", VNull)]). split; vm_compute; reflexivity. Qed.
(** stopping while an earlier save is replaced leaves a directory that is read without complaint: new data for some
    entities, old data for the others, and links that lead nowhere *)
Definition two_tables (p c : list Z) : eset :=
  after [Create "products" (mkTab [("pid", DInt)] (map (fun i => [("pid", VNum i)]) p)) (Some "pid") [] false None [] false;
         Create "sales" (mkTab [("sid", DInt); ("pid", DInt)] (map (fun i => [("sid", VNum i); ("pid", VNum i)]) c)) (Some "sid") [("pid", TId)] false None [] false;
         Relate (mkRel "products" "pid" "sales" "pid")].
Theorem C71_replaced_refuted : exists old new d s' es ep, column_of old "pid" = Ok [VNum 1%Z; VNum 2%Z] /\ column_of new "pid" = Ok [VNum 8%Z; VNum 9%Z] /\
  stopped (saves Pickle new) (save Pickle old []) d /\ back d = Ok s' /\
  dget String.eqb "products" (s_ents s') = Some ep /\ dget String.eqb "sales" (s_ents s') = Some es /\ s_rels s' = [mkRel "products" "pid" "sales" "pid"] /\
  t_column (n_tab ep) "pid" = [VNum 8%Z; VNum 9%Z] /\ t_column (n_tab es) "pid" = [VNum 1%Z; VNum 2%Z].
Proof.
  set (old := two_tables [1; 2]%Z [1; 2]%Z). set (new := two_tables [8; 9]%Z [8; 9]%Z).
  exists old, new, (write_all (save Pickle old []) (firstn 1 (saves Pickle new))).
  destruct (back (write_all (save Pickle old []) (firstn 1 (saves Pickle new)))) as [s'|x] eqn:E; [|vm_compute in E; discriminate].
  vm_compute in E. injection E as <-. do 3 eexists. split; [vm_compute; reflexivity|]. split; [vm_compute; reflexivity|].
  split; [exists 1%nat; split; [vm_compute; lia | left; reflexivity]|]. repeat split; vm_compute; reflexivity.
Qed.

Print Assumptions C71_round_trip_partial.
Print Assumptions C71_sorted_partial.
Print Assumptions C71_fresh.
Print Assumptions C71_stopped.
Print Assumptions C71_replaced_refuted.
