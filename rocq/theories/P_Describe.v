(** C54: an entity set rebuilt from its description has the same schema. *)
From Coq Require Import Sorting.Permutation Sorting.Sorted.
From Verif Require Import Base BaseFacts M_Schema M_Table M_LastTime L_LastTime M_Entities S_Entities S_Calls.
From Verif Require Import P_Equality L_Entities L_Tables P_Relate P_Meta P_Tables L_Normalize P_Normalize P_Concat.
Local Open Scope string_scope.
Local Open Scope list_scope.

Definition tyl (vs : list variable) : list (string * vtype) := map (fun v => (v_id v, v_type v)) vs.
Lemma tyl_ids vs : map fst (tyl vs) = map v_id vs.
Proof. unfold tyl. rewrite map_map. reflexivity. Qed.
Lemma replace_tyl id ty vs : (forall v, In v vs -> v_id v = id -> v_type v = ty) -> tyl (replace_first id (mkVar id ty [] None) vs) = tyl vs.
Proof.
  induction vs as [|v vs IH]; intros H; cbn; [reflexivity|]. destruct (String.eqb_spec (v_id v) id) as [Heq|Hne]; cbn.
  - rewrite (H v (or_introl eq_refl) Heq), Heq. reflexivity.
  - f_equal. apply IH. intros w Hw. apply H. right. exact Hw.
Qed.
Lemma tyl_In vs v : In v vs -> In (v_id v, v_type v) (tyl vs).
Proof. intros H. unfold tyl. apply in_map_iff. exists v. auto. Qed.
Lemma tyl_inv vs id ty : In (id, ty) (tyl vs) -> exists v, In v vs /\ v_id v = id /\ v_type v = ty.
Proof. intros H. apply in_map_iff in H as (v & Hv & Hin). injection Hv as <- <-. eauto. Qed.
Lemma tyl_fun vs id t1 t2 : NoDup (map v_id vs) -> In (id, t1) (tyl vs) -> In (id, t2) (tyl vs) -> t1 = t2.
Proof. intros Hn H1 H2. rewrite <- tyl_ids in Hn. pose proof (NoDup_map_eq fst (tyl vs) _ _ Hn H1 H2 eq_refl) as H. congruence. Qed.
Lemma get_var_tyl vs id ty : NoDup (map v_id vs) -> In (id, ty) (tyl vs) -> exists v, get_var id vs = Ok v /\ v_type v = ty.
Proof.
  intros Hn H. apply tyl_inv in H as (v & Hv & <- & <-). exists v. unfold get_var. rewrite (find_NoDup _ _ Hn Hv). auto.
Qed.

Lemma split_index (vs : list variable) i : NoDup (map v_id vs) -> In i (map v_id vs) ->
  exists iv, filter (fun v => String.eqb (v_id v) i) vs = [iv] /\ Permutation vs (iv :: filter (fun v => negb (String.eqb (v_id v) i)) vs).
Proof.
  induction vs as [|v vs IH]; intros Hn Hin; [destruct Hin|]. cbn [map] in Hn. inversion Hn as [|? ? Hna Hn']; subst. cbn [filter]. destruct (String.eqb_spec (v_id v) i) as [Heq|Hne]; cbn [negb].
  - exists v. assert (forall l, ~ In i (map v_id l) -> filter (fun v => String.eqb (v_id v) i) l = [] /\ filter (fun v => negb (String.eqb (v_id v) i)) l = l) as Hf.
    { induction l as [|w l IHl]; intros Hl; [auto|]. cbn. cbn in Hl. destruct (String.eqb_spec (v_id w) i) as [Hw|]; [destruct Hl; auto|]. cbn. destruct IHl as [-> ->]; [tauto | auto]. }
    rewrite Heq in Hna. destruct (Hf vs Hna) as [-> ->]. auto.
  - destruct IH as (iv & -> & Hp); [exact Hn' | destruct Hin; [contradiction | assumption] |]. exists iv. split; [reflexivity|]. rewrite Hp at 1. apply perm_swap.
Qed.

Section C54.
  Variables to_numeric to_datetime : list val -> res (dtype * list val).
  Variable obj_kind : val -> res (option tkind).
  Variable infer : table -> string -> vtype.
  Variable touched : list relationship -> list string -> list string.
  Variable last_times : eset -> string -> list (val * val).
  Notation init := (init to_numeric to_datetime obj_kind).
  Notation rebuild_entity := (rebuild_entity to_numeric to_datetime obj_kind infer).
  Notation rebuild := (rebuild to_numeric to_datetime obj_kind infer touched last_times).
  Notation description_to_entityset := (description_to_entityset to_numeric to_datetime obj_kind infer touched last_times).

  Lemma kind_empty k e c ty : t_rows (n_tab e) = [] -> NoDup (map v_id (n_vars e)) -> In (c, ty) (tyl (n_vars e)) -> time_typed (Some k) ty -> column_kind obj_kind e c = Ok (Some k).
  Proof.
    intros Hr Hn Hin Hk. unfold column_kind. rewrite Hr. destruct (get_var_tyl _ _ _ Hn Hin) as (v & Hv & Ht). rewrite Hv. cbn [bind]. rewrite Ht. destruct Hk as [[Hk [-> | ->]]|[Hk [-> | ->]]]; injection Hk as ->; reflexivity.
  Qed.

  Lemma secondary_exact k e : t_rows (n_tab e) = [] -> NoDup (map v_id (n_vars e)) -> forall sec done,
    (forall c cs, In (c, cs) sec -> In c cs /\ exists ty, In (c, ty) (tyl (n_vars e)) /\ time_typed (Some k) ty) ->
    secondary_go obj_kind done sec (Some k, e) = ((Some k, e), Ok (done ++ sec)).
  Proof.
    intros Hr Hn. induction sec as [|[c cs] sec IH]; intros done H; cbn [secondary_go]; [unfold sret; rewrite app_nil_r; reflexivity|]. unfold sbind at 1. unfold eget at 1. cbn [snd].
    destruct (H c cs (or_introl eq_refl)) as (Hc & ty & Hin & Hk). unfold sbind at 1. unfold slift at 1. rewrite (kind_empty k e c ty Hr Hn Hin Hk). unfold sbind at 1. cbn [known_kind]. unfold sret at 1. unfold sbind at 1. cbn [fst].
    replace (tkind_eqb k k) with true by (destruct k; reflexivity). apply mem_str_In in Hc. rewrite Hc. rewrite IH by (intros c' cs' H'; apply H; right; exact H'). rewrite <- app_assoc. reflexivity.
  Qed.

  (** initialising an empty entity whose variables have their final types *)
  Lemma init_empty i time sec k0 k e : t_rows (n_tab e) = [] -> NoDup (map v_id (n_vars e)) -> In i (t_names (n_tab e)) -> In (i, TIndex) (tyl (n_vars e)) -> k = None \/ k = k0 ->
    (forall ti, time = Some ti -> exists d, t_dtype (n_tab e) ti = Ok d /\
       (d = DDate /\ In (ti, TDatetimeTimeIndex) (tyl (n_vars e)) /\ k0 = Some KDate \/ d <> DDate /\ In (ti, TNumericTimeIndex) (tyl (n_vars e)) /\ k0 = Some KNum)) ->
    (time = None -> sec = []) -> n_time e = None ->
    (forall c cs, In (c, cs) sec -> In c cs /\ exists ty, In (c, ty) (tyl (n_vars e)) /\ time_typed k0 ty) ->
    exists vs k', init i time sec false (k, e) = ((k', with_sec sec (with_time time (with_index i (with_vars vs e)))), Ok tt) /\ tyl vs = tyl (n_vars e) /\ (k' = None \/ k' = k0).
  Proof.
    intros Hr Hn Hi Hit Hk Ht Hnt Hnone Hs. assert (In i (map v_id (n_vars e))) as Hii by (apply tyl_inv in Hit as (v & Hv & <- & _); apply in_map; exact Hv).
    assert (nodup_vals (t_column (n_tab e) i) = true) as Hnd by (unfold t_column; rewrite Hr; reflexivity). apply t_dtype_In in Hi as (d0 & Hd0).
    unfold L_Tables.init. unfold sbind at 1. unfold set_index. unfold sbind at 1. unfold eget at 1. cbn [snd]. unfold sbind at 1. unfold slift at 1. rewrite Hd0. unfold sbind at 1. unfold sguard at 1. rewrite Hnd. cbn [negb orb].
    unfold sbind at 1. rewrite (convert_total to_numeric to_datetime i TIndex k e Hii). unfold emod at 1. cbn [fst snd].
    set (vs1 := replace_first i (mkVar i TIndex [] None) (n_vars e)).
    assert (tyl vs1 = tyl (n_vars e)) as Hty1. { apply replace_tyl. intros v Hv <-. eapply tyl_fun; [exact Hn | apply tyl_In; exact Hv | exact Hit]. }
    set (e1 := with_index i (with_vars vs1 e)).
    assert (NoDup (map v_id vs1)) as Hn1 by (rewrite <- tyl_ids, Hty1, tyl_ids; exact Hn).
    destruct time as [ti|].
    - destruct (Ht ti eq_refl) as (d & Hd & Hdk).
      assert (exists kd ty, k0 = Some kd /\ In (ti, ty) (tyl (n_vars e)) /\ time_typed (Some kd) ty /\ (if dtype_eqb d DDate then TDatetimeTimeIndex else TNumericTimeIndex) = ty) as (kd & ty & -> & Hin & Hkt & Hdate).
      { destruct Hdk as [(-> & Hin & ->)|(Hne & Hin & ->)]; [exists KDate, TDatetimeTimeIndex | exists KNum, TNumericTimeIndex]; (split; [reflexivity|]; split; [exact Hin|]; split).
        - left. auto. - reflexivity. - right. auto. - destruct (dtype_eqb_spec d DDate); [contradiction | reflexivity]. }
      match goal with |- context [sbind ?m _ (k, e1)] => assert (exists vs2, m (k, e1) = ((Some kd, with_time (Some ti) (with_vars vs2 e1)), Ok tt) /\ tyl vs2 = tyl (n_vars e)) as (vs2 & E2 & Hty2) end.
      { unfold set_time_index. unfold sbind at 1. unfold eget at 1. cbn [snd]. unfold sbind at 1. unfold slift at 1. rewrite (kind_empty kd e1 ti ty); [|exact Hr | exact Hn1 | change (In (ti, ty) (tyl vs1)); rewrite Hty1; exact Hin | exact Hkt].
        unfold sbind at 1. cbn [known_kind]. unfold sret at 1. unfold sbind at 1. assert (claim_kind kd (k, e1) = ((Some kd, e1), Ok tt)) as ->.
        { unfold claim_kind. cbn [fst snd]. destruct Hk as [-> | ->]; [reflexivity|]. destruct kd; reflexivity. }
        unfold sbind at 1. unfold slift at 1. cbn [n_tab e1 with_index with_vars]. rewrite Hd. cbv zeta. rewrite Hr, orb_false_r, Hdate. unfold sbind at 1. unfold emod at 1. cbn [fst snd]. unfold sbind at 1.
        match goal with |- context [convert_variable_type _ _ ti ty false (?kk, ?ee)] => rewrite (convert_total to_numeric to_datetime ti ty kk ee) end; [|change (In ti (map v_id vs1)); rewrite <- tyl_ids, Hty1; apply (in_map fst) in Hin; exact Hin].
        unfold emod at 1. cbn [fst snd]. exists (replace_first ti (mkVar ti ty [] None) vs1). split.
        - f_equal. f_equal. unfold e1. destruct e; cbn in Hr |- *. destruct n_tab as [cols rows]. cbn in Hr |- *. subst rows. reflexivity.
        - rewrite <- Hty1. apply replace_tyl. intros v Hv <-. eapply tyl_fun; [exact Hn1 | apply tyl_In; exact Hv | rewrite Hty1; exact Hin]. }
      unfold sbind at 1. rewrite E2. unfold set_secondary_time_index. unfold sbind at 1. rewrite (secondary_exact kd (with_time (Some ti) (with_vars vs2 e1))); [|exact Hr | change (NoDup (map v_id vs2)); rewrite <- tyl_ids, Hty2, tyl_ids; exact Hn | change (n_vars (with_time (Some ti) (with_vars vs2 e1))) with vs2; rewrite Hty2; exact Hs].
      unfold emod. cbn [fst snd app]. exists vs2, (Some kd). split; [reflexivity|]. auto.
    - rewrite (Hnt eq_refl). unfold sbind, sret, set_secondary_time_index, secondary_go, emod. cbn. exists vs1, k. split; [|auto]. f_equal. f_equal. unfold e1. destruct e; cbn in *. subst. reflexivity.
  Qed.

  Lemma convert_all_empty t tys : t_rows t = [] -> (forall c ty, In (c, ty) tys -> exists d, t_dtype t c = Ok d) -> convert_all to_numeric to_datetime t tys = Ok t.
  Proof.
    intros Hr. unfold convert_all. induction tys as [|[c ty] tys IH]; intros H; cbn [foldM]; [reflexivity|].
    assert (convert_one to_numeric to_datetime t (c, ty) = Ok t) as ->.
    { unfold convert_one, convert_variable_data. destruct (H c ty (or_introl eq_refl)) as (d & ->). cbn. rewrite Hr. destruct (is_numeric_type ty && _)%bool; [reflexivity|]. destruct (is_datetime_type ty && _)%bool; reflexivity. }
    cbn. apply IH. intros c' ty' H'. apply (H c' ty'). right. exact H'.
  Qed.

  Lemma described_dtype e v : In v (n_vars e) ->
    dget String.eqb (v_id v) (filter (fun cd => mem_str (fst cd) (map v_id (n_vars e))) (t_cols (n_tab e))) = dget String.eqb (v_id v) (t_cols (n_tab e)).
  Proof.
    intros Hv. assert (mem_str (v_id v) (map v_id (n_vars e)) = true) as Hm by (apply mem_str_In; apply in_map; exact Hv).
    induction (t_cols (n_tab e)) as [|[c d] l IH]; [reflexivity|]. cbn [filter fst dget]. destruct (String.eqb_spec (v_id v) c) as [<-|Hne].
    - rewrite Hm. cbn [dget]. rewrite String.eqb_refl. reflexivity.
    - destruct (mem_str c _); [cbn [dget]; destruct (String.eqb_spec (v_id v) c); [contradiction | exact IH] | exact IH].
  Qed.

  Lemma restore_all vs l : NoDup (map v_id vs) -> Permutation (tyl vs) (tyl l) -> Permutation vs (map (restore_values vs) l).
  Proof.
    intros Hn Hp. set (f := fun it : string * vtype => match find (fun w => String.eqb (v_id w) (fst it)) vs with Some w => mkVar (fst it) (snd it) (v_values w) (v_desc w) | None => mkVar (fst it) (snd it) [] None end).
    assert (map (restore_values vs) l = map f (tyl l)) as ->.
    { unfold tyl. rewrite map_map. apply map_ext_in. intros v Hv. unfold restore_values, f. cbn [fst snd]. destruct (find _ vs) as [w|] eqn:E; [reflexivity|]. exfalso.
      apply tyl_In in Hv. apply (Permutation_in _ (Permutation_sym Hp)) in Hv. apply tyl_inv in Hv as (w & Hw & Hid & _). apply (find_none _ _ E) in Hw. rewrite Hid, String.eqb_refl in Hw. discriminate. }
    rewrite <- (Permutation_map f Hp). unfold tyl. rewrite map_map. rewrite <- (map_id vs) at 1. erewrite map_ext_in; [reflexivity|]. intros v Hv. unfold f. cbn [fst snd]. rewrite (find_NoDup _ _ Hn Hv). destruct v; reflexivity.
  Qed.

  Lemma rebuild_entity_Ok e k0 s : describable k0 e -> s_kind s = None \/ s_kind s = k0 ->
    exists s' e', rebuild_entity (describe_entity e) s = (s', Ok tt) /\ s_ents s' = dset String.eqb (n_id e) e' (s_ents s) /\ s_rels s' = s_rels s /\ s_id s' = s_id s /\
      (s_kind s' = None \/ s_kind s' = k0) /\ same_schema e e' /\ t_rows (n_tab e') = [].
  Proof.
    intros (Hn & Hd & (iv & Hiv & Hivi & Hivt) & Ht & Hnt & Hs) Hk. set (vs := n_vars e) in *. set (t := empty_frame (describe_entity e)).
    assert (t_names t = map v_id vs) as Hnames by (unfold t, t_names, empty_frame; cbn; rewrite map_map; reflexivity).
    assert (forall v, In v vs -> t_dtype t (v_id v) = t_dtype (n_tab e) (v_id v)) as Htd.
    { intros v Hv. unfold t, t_dtype at 1, empty_frame. cbn [t_cols d_vars d_dtypes describe_entity]. fold vs.
      destruct (Hd v Hv) as (d & Hdv). assert (dget String.eqb (v_id v) (map (fun v0 => (v_id v0, match dget String.eqb (v_id v0) (filter (fun cd => mem_str (fst cd) (map v_id vs)) (t_cols (n_tab e))) with Some x => x | None => DObj end)) vs) = Some d) as ->; [|symmetry; exact Hdv].
      apply (dget_NoDup_In _ String.eqb_spec); [rewrite map_map; exact Hn|]. apply in_map_iff. exists v. split; [|exact Hv]. f_equal. unfold vs. rewrite described_dtype by exact Hv. unfold t_dtype in Hdv. destruct (dget _ _ _); congruence. }
    assert (t_rows t = []) as Hrows by reflexivity.
    assert (forall c, In c (map v_id vs) -> exists d, t_dtype t c = Ok d) as Htt by (intros c Hc; apply in_map_iff in Hc as (v & <- & Hv); rewrite Htd by exact Hv; apply Hd; exact Hv).
    assert (In (n_index e) (map v_id vs)) as Hii by (rewrite <- Hivi; apply in_map; exact Hiv).
    set (given := map (fun v => (v_id v, v_type v)) vs). set (vs0 := map (fun ct => mkVar (fst ct) (snd ct) [] None) given).
    assert (map v_id vs0 = map v_id vs) as Hids0 by (unfold vs0, given; rewrite !map_map; reflexivity).
    assert (tyl vs0 = tyl vs) as Hty0 by (unfold tyl, vs0, given; rewrite !map_map; reflexivity).
    destruct (split_index vs0 (n_index e)) as (iv0 & Hf & Hp0); [rewrite Hids0; exact Hn | rewrite Hids0; exact Hii|].
    set (vs1 := iv0 :: filter (fun v => negb (String.eqb (v_id v) (n_index e))) vs0) in *.
    assert (Permutation (tyl vs) (tyl vs1)) as Hp1 by (rewrite <- Hty0; apply Permutation_map; exact Hp0).
    assert (Permutation (map v_id vs) (map v_id vs1)) as Hp1' by (rewrite <- Hids0; apply Permutation_map; exact Hp0).
    assert (create_variables to_numeric to_datetime infer t given (n_index e) = Ok (vs1, t)) as Hcv.
    { unfold create_variables. assert (all_types infer t given (n_index e) = given) as ->.
      { unfold all_types. assert (map fst given = map v_id vs) as Hg by (unfold given; rewrite map_map; reflexivity). rewrite Hg. apply mem_str_In in Hii as Hm. rewrite Hm. rewrite Hg, Hnames.
        assert (filter (fun c => negb (mem_str c (map v_id vs))) (map v_id vs) = []) as ->; [|reflexivity].
        assert (forall l, incl l (map v_id vs) -> filter (fun c => negb (mem_str c (map v_id vs))) l = []) as Hx; [|apply Hx; apply incl_refl].
        induction l as [|a l IH]; intros Hl; [reflexivity|]. cbn. assert (mem_str a (map v_id vs) = true) as -> by (apply mem_str_In; apply Hl; left; reflexivity). cbn. apply IH. intros x Hx. apply Hl. right. exact Hx. }
      rewrite convert_all_empty; [|exact Hrows | intros c ty Hin; apply Htt; apply (in_map fst) in Hin; unfold given in Hin; rewrite map_map in Hin; exact Hin]. cbn [bind]. fold vs0. rewrite Hf. reflexivity. }
    destruct (t_select_total t (map v_id vs1)) as (t2 & Hsel); [intros c Hc; apply Htt; apply (Permutation_in _ (Permutation_sym Hp1')); exact Hc|].
    pose proof (t_select_Ok _ _ _ Hsel) as (S1 & S2 & _ & D & S3 & S4).
    assert (forall v, In v vs -> t_dtype t2 (v_id v) = t_dtype (n_tab e) (v_id v)) as Ht2.
    { intros v Hv. assert (In (v_id v) (map v_id vs1)) as Hin by (apply (Permutation_in _ Hp1'); apply in_map; exact Hv). unfold t_dtype at 1. rewrite S3, dget_map_key by exact Hin. rewrite <- S4 by exact Hin. apply Htd. exact Hv. }
    destruct (init_empty (n_index e) (n_time e) (n_sec e) k0 (s_kind s) (mkEnt (n_id e) t2 vs1 (n_index e) None [] None None)) as (vs2 & k' & Hinit & Hty2 & Hk'); cbn [n_tab n_vars n_time].
    { rewrite S2, Hrows. reflexivity. }
    { apply (Permutation_NoDup Hp1'). exact Hn. }
    { rewrite S1. apply (Permutation_in _ Hp1'). exact Hii. }
    { apply (Permutation_in _ Hp1). rewrite <- Hivi, <- Hivt. apply tyl_In. exact Hiv. }
    { exact Hk. }
    { intros ti Hti. destruct (Ht ti Hti) as (_ & v & d & Hv & Hvt & Hdt & Hc). exists d. rewrite <- Hvt at 1. rewrite Ht2 by exact Hv. rewrite Hvt. split; [exact Hdt|].
      destruct Hc as [(H1 & H2 & H3)|(H1 & H2 & H3)]; [left | right]; (split; [exact H1|]; split; [|exact H3]); apply (Permutation_in _ Hp1); rewrite <- Hvt, <- H2; apply tyl_In; exact Hv. }
    { intros Hx. apply Hnt. exact Hx. }
    { reflexivity. }
    { intros c cs Hin. destruct (Hs c cs Hin) as (Hc & v & Hv & Hvc & Hvk). split; [exact Hc|]. exists (v_type v). split; [|exact Hvk]. apply (Permutation_in _ Hp1). rewrite <- Hvc. apply tyl_In. exact Hv. }
    set (e2 := with_sec (n_sec e) (with_time (n_time e) (with_index (n_index e) (with_vars vs2 (mkEnt (n_id e) t2 vs1 (n_index e) None [] None None))))) in *.
    set (e3 := with_vars (map (restore_values vs) vs2) e2).
    assert (entity_from_dataframe to_numeric to_datetime obj_kind infer (n_id e) t (Some (n_index e)) given false (n_time e) (n_sec e) false s =
              (with_meta None (with_ents (dset String.eqb (n_id e) e2 (s_ents s)) (with_kind k' s)), Ok tt)) as Hefd.
    { unfold entity_from_dataframe. unfold sbind at 1. unfold sguard at 1.
      assert (match n_time e with Some a => negb (String.eqb a (n_index e)) | None => true end = true) as ->.
      { destruct (n_time e) as [ti|]; [|reflexivity]. destruct (Ht ti eq_refl) as (Hne & _). destruct (String.eqb_spec ti (n_index e)); [contradiction | reflexivity]. }
      unfold sbind at 1. unfold sguard at 1. assert (match n_time e with Some _ => true | None => forallb (fun ct => negb (vtype_eqb (snd ct) TDatetimeTimeIndex)) given end = true) as ->.
      { destruct (n_time e) as [ti|]; [reflexivity|]. apply forallb_forall. intros [c ty] Hin. unfold given in Hin. apply in_map_iff in Hin as (v & Hv & Hin). injection Hv as <- <-. cbn. destruct (vtype_eqb_spec (v_type v) TDatetimeTimeIndex) as [Hx|]; [|reflexivity]. exfalso. exact (proj2 (Hnt eq_refl) v Hin Hx). }
      unfold sbind at 1. assert (new_entity to_numeric to_datetime obj_kind infer (n_id e) t (Some (n_index e)) given false (n_time e) (n_sec e) false (s_kind s) = (k', Ok e2)) as ->; [|reflexivity].
      unfold new_entity. unfold sbind at 1. unfold sguard at 1. assert (nodup_str (t_names t) = true) as -> by (apply nodup_str_spec; rewrite Hnames; exact Hn).
      unfold sbind at 1. unfold sguard at 1. assert (match n_time e with Some ti => mem_str ti (t_names t) | None => true end = true) as ->.
      { destruct (n_time e) as [ti|]; [|reflexivity]. destruct (Ht ti eq_refl) as (_ & v & d & Hv & <- & _). apply mem_str_In. rewrite Hnames. apply in_map. exact Hv. }
      unfold sbind at 1. unfold slift at 1. assert (create_index (Some (n_index e)) false t = Ok (None, n_index e, t)) as -> by (unfold create_index; rewrite Hnames; apply mem_str_In in Hii as Hm; rewrite Hm; reflexivity).
      unfold sbind at 1. unfold slift at 1. rewrite Hcv. unfold sbind at 1. unfold slift at 1. cbn [fst snd]. rewrite Hsel. cbv zeta. fold (init (n_index e) (n_time e) (n_sec e) false). rewrite Hinit. reflexivity. }
    exists (with_kind k' (with_ents (dset String.eqb (n_id e) e3 (dset String.eqb (n_id e) e2 (s_ents s))) (with_meta None (with_ents (dset String.eqb (n_id e) e2 (s_ents s)) (with_kind k' s))))), e3.
    split.
    { unfold M_Entities.rebuild_entity. cbn [d_id d_index d_time d_sec d_vars describe_entity]. fold t vs given. unfold sbind at 1. rewrite Hefd. unfold on_entity. unfold sent at 1. cbn [s_ents with_meta with_ents]. rewrite (dget_dset_same _ String.eqb_spec). reflexivity. }
    cbn [s_ents s_rels s_id s_kind with_kind with_ents with_meta]. split; [|split; [reflexivity|]; split; [reflexivity|]; split; [exact Hk'|]; split].
    { clear. induction (s_ents s) as [|[i x] l IH]; cbn; [rewrite String.eqb_refl; reflexivity|]. destruct (String.eqb (n_id e) i) eqn:E; cbn; rewrite E; [reflexivity | f_equal; exact IH]. }
    { split; [reflexivity|]. split; [reflexivity|]. split; [reflexivity|]. split; [reflexivity|]. split; [|exact Ht2]. apply restore_all; [exact Hn|]. rewrite Hty2. exact Hp1. }
    { cbn. rewrite S2, Hrows. reflexivity. }
  Qed.

  Lemma rebuild_entities_Ok k0 l : forall s, NoDup (map n_id l) -> (forall e, In e l -> describable k0 e) -> s_kind s = None \/ s_kind s = k0 ->
    exists s', siter rebuild_entity (map describe_entity l) s = (s', Ok tt) /\ s_rels s' = s_rels s /\ s_id s' = s_id s /\
      (forall e, In e l -> exists e', dget String.eqb (n_id e) (s_ents s') = Some e' /\ same_schema e e' /\ t_rows (n_tab e') = []) /\
      (forall id, ~ In id (map n_id l) -> dget String.eqb id (s_ents s') = dget String.eqb id (s_ents s)) /\
      (NoDup (map fst (s_ents s)) -> NoDup (map fst (s_ents s'))).
  Proof.
    induction l as [|e l IH]; intros s Hn Hd Hk; cbn [map siter]; [exists s; split; [reflexivity|]; split; [reflexivity|]; split; [reflexivity|]; split; [intros e [] | split; [reflexivity | auto]]|].
    cbn [map] in Hn. inversion Hn as [|? ? Hna Hn']; subst. destruct (rebuild_entity_Ok e k0 s (Hd e (or_introl eq_refl)) Hk) as (s1 & e1 & E1 & He1 & Hr1 & Hi1 & Hk1 & Hs1 & Hrow1).
    destruct (IH s1 Hn') as (s2 & E2 & Hr2 & Hi2 & Hin2 & Hout2 & Hnd2); [intros x Hx; apply Hd; right; exact Hx | exact Hk1|].
    exists s2. split; [unfold sbind; rewrite E1; exact E2|]. split; [congruence|]. split; [congruence|]. split; [|split].
    - intros x [<-|Hx]; [|apply Hin2; exact Hx]. exists e1. split; [rewrite Hout2 by exact Hna; rewrite He1; apply (dget_dset_same _ String.eqb_spec) | auto].
    - intros id Hni. rewrite Hout2 by (intros Hx; apply Hni; right; exact Hx). rewrite He1. apply (dget_dset_other _ String.eqb_spec). intros ->. apply Hni. left. reflexivity.
    - intros Hnk. apply Hnd2. rewrite He1. apply (dset_NoDup _ String.eqb_spec). exact Hnk.
  Qed.

  (** a relationship between variables that have their final types changes nothing else *)
  Lemma relate_exact r s : link_typed s r -> ~ In r (s_rels s) -> (exists pe v, dget String.eqb (r_pe r) (s_ents s) = Some pe /\ In v (n_vars pe) /\ v_id v = r_pv r /\ v_type v = TIndex) ->
    (forall id e, dget String.eqb id (s_ents s) = Some e -> NoDup (map v_id (n_vars e))) ->
    exists s', relate to_numeric to_datetime r s = (s', Ok tt) /\ s_ents s' = s_ents s /\ s_rels s' = s_rels s ++ [r] /\ s_id s' = s_id s.
  Proof.
    intros ((ce & pe & d & Ce & Pe & Hpv & Hcv & Dc & Dp) & ce' & vc & Ce' & Hvc & Hvci & Hvct) Hnew (pe' & vp & Pe' & Hvp & Hvpi & Hvpt) Hnd. rewrite Ce in Ce'. injection Ce' as <-. rewrite Pe in Pe'. injection Pe' as <-.
    assert (get_var (r_cv r) (n_vars ce) = Ok vc) as Gc by (unfold get_var; rewrite <- Hvci, (find_NoDup _ _ (Hnd _ _ Ce) Hvc); reflexivity).
    assert (get_var (r_pv r) (n_vars pe) = Ok vp) as Gp by (unfold get_var; rewrite <- Hvpi, (find_NoDup _ _ (Hnd _ _ Pe) Hvp); reflexivity).
    exists (with_meta None (with_rels (s_rels s ++ [r]) s)). split; [|auto].
    unfold M_Entities.relate. unfold sbind at 1. unfold make_relationship. unfold sbind at 1. unfold sget at 1. unfold sbind at 1. unfold slift at 1. unfold sent at 1. rewrite Pe. unfold sbind at 1. unfold slift at 1. rewrite Gp.
    unfold sbind at 1. unfold slift at 1. unfold sent at 1. rewrite Ce. unfold sbind at 1. unfold slift at 1. rewrite Gc. unfold sguard at 1. rewrite Hpv, String.eqb_refl.
    unfold add_relationship. unfold sbind at 1. unfold sget at 1. assert (existsb (rel_eqb r) (s_rels s) = false) as ->.
    { destruct (existsb (rel_eqb r) (s_rels s)) eqn:E; [|reflexivity]. apply existsb_exists in E as (r' & Hr' & E). destruct (rel_eqb_spec' r r'); [subst; contradiction | discriminate]. }
    unfold sbind at 1. unfold slift at 1. unfold sent at 1. rewrite Ce. unfold sbind at 1. unfold sguard at 1. assert (negb (String.eqb (n_index ce) (r_cv r)) = true) as -> by (destruct (String.eqb_spec (n_index ce) (r_cv r)); [congruence | reflexivity]).
    unfold sbind at 1. unfold slift at 1. unfold sent at 1. rewrite Pe.
    assert (ensure_type to_numeric to_datetime (r_ce r) (r_cv r) TId s = (s, Ok tt)) as E1.
    { unfold ensure_type. unfold sbind at 1. unfold sget at 1. unfold sbind at 1. unfold slift at 1. unfold sent at 1. rewrite Ce. unfold sbind at 1. unfold slift at 1. rewrite Gc, Hvct. reflexivity. }
    assert (ensure_type to_numeric to_datetime (r_pe r) (r_pv r) TIndex s = (s, Ok tt)) as E2.
    { unfold ensure_type. unfold sbind at 1. unfold sget at 1. unfold sbind at 1. unfold slift at 1. unfold sent at 1. rewrite Pe. unfold sbind at 1. unfold slift at 1. rewrite Gp, Hvpt. reflexivity. }
    unfold sbind at 1. rewrite E1. unfold sbind at 1. rewrite E2. unfold sbind at 1. unfold sget at 1. unfold sbind at 1. unfold slift at 1. unfold sent at 1. rewrite Ce. unfold sbind at 1. unfold slift at 1. rewrite Dc.
    unfold sbind at 1. unfold slift at 1. unfold sent at 1. rewrite Pe. unfold sbind at 1. unfold slift at 1. rewrite Dp. cbv zeta.
    assert (match t_rows (n_tab ce) with [] => dtype_eqb d DObj && numeric_dtype d | _ :: _ => false end = false) as -> by (destruct (t_rows (n_tab ce)); [destruct d; reflexivity | reflexivity]).
    unfold sbind at 1. unfold sret at 1. unfold sbind at 1. unfold sguard at 1. destruct (dtype_eqb_spec d d) as [_|Hx]; [|congruence]. reflexivity.
  Qed.

  Lemma relates_Ok rs : forall s, NoDup (s_rels s ++ rs) -> (forall id e, dget String.eqb id (s_ents s) = Some e -> NoDup (map v_id (n_vars e))) ->
    (forall r, In r rs -> link_typed s r /\ exists pe v, dget String.eqb (r_pe r) (s_ents s) = Some pe /\ In v (n_vars pe) /\ v_id v = r_pv r /\ v_type v = TIndex) ->
    exists s', siter (relate to_numeric to_datetime) rs s = (s', Ok tt) /\ s_ents s' = s_ents s /\ s_rels s' = s_rels s ++ rs /\ s_id s' = s_id s.
  Proof.
    induction rs as [|r rs IH]; intros s Hn Hnd Hl; cbn [siter]; [exists s; rewrite app_nil_r; auto|].
    destruct (Hl r (or_introl eq_refl)) as [H1 H2]. destruct (relate_exact r s H1) as (s1 & E1 & He & Hr & Hi); [|exact H2 | exact Hnd|].
    { intros Hin. apply NoDup_remove_2 in Hn. apply Hn. apply in_or_app. left. exact Hin. }
    destruct (IH s1) as (s2 & E2 & He2 & Hr2 & Hi2); [rewrite Hr, <- app_assoc; exact Hn | rewrite He; exact Hnd | |].
    { intros r' Hr'. unfold link_typed, linked. rewrite He. exact (Hl r' (or_intror Hr')). }
    exists s2. split; [unfold sbind; rewrite E1; exact E2|]. split; [congruence|]. split; [rewrite Hr2, Hr, <- app_assoc; reflexivity | congruence].
  Qed.

  Lemma round_trip s : dicts s -> NoDup (s_rels s) -> (forall id e, dget String.eqb id (s_ents s) = Some e -> describable (s_kind s) e) ->
    Forall (link_typed s) (s_rels s) ->
    exists s', description_to_entityset (describe s) = Ok s' /\ s_id s' = s_id s /\ s_rels s' = s_rels s /\
      (forall id, match dget String.eqb id (s_ents s), dget String.eqb id (s_ents s') with
                 | Some e, Some e' => same_schema e e' | None, None => True | _, _ => False end) /\
      NoDup (map fst (s_ents s')).
  Proof.
    intros [Hk He] Hr Hd Hl. unfold M_Entities.description_to_entityset, M_Entities.rebuild, describe. cbn [d_ents d_rels d_name].
    set (l := isort (fun a b => str_leb (n_id a) (n_id b)) (map snd (s_ents s))).
    assert (Permutation l (map snd (s_ents s))) as Hp by apply isort_perm.
    assert (map n_id (map snd (s_ents s)) = map fst (s_ents s)) as Hids.
    { rewrite map_map. apply map_ext_in. intros [id e] Hin. apply He in Hin as (Hid & _). exact Hid. }
    assert (NoDup (map n_id l)) as Hnl by (apply (Permutation_NoDup (Permutation_map n_id (Permutation_sym Hp))); rewrite Hids; exact Hk).
    assert (forall e, In e l <-> dget String.eqb (n_id e) (s_ents s) = Some e) as Hinl.
    { intros e. split; intros H.
      - apply (Permutation_in _ Hp) in H. apply in_map_iff in H as ([id x] & <- & Hin). cbn [snd]. destruct (He id x Hin) as (-> & _). apply (dget_NoDup_In _ String.eqb_spec); assumption.
      - apply (dget_In _ String.eqb_spec) in H. apply (Permutation_in _ (Permutation_sym Hp)). apply in_map_iff. exists (n_id e, e). auto. }
    destruct (rebuild_entities_Ok (s_kind s) l (empty_set (s_id s)) Hnl) as (s1 & E1 & Hr1 & Hi1 & Hin1 & Hout1 & Hnd1); [intros e Hin; apply (Hd (n_id e)); apply Hinl; exact Hin | left; reflexivity|].
    assert (forall id, match dget String.eqb id (s_ents s), dget String.eqb id (s_ents s1) with Some e, Some e' => same_schema e e' | None, None => True | _, _ => False end) as Hsame.
    { intros id. destruct (dget String.eqb id (s_ents s)) as [e|] eqn:E.
      - assert (n_id e = id) as <- by (apply (dget_In _ String.eqb_spec) in E; apply He in E as (Hid & _); exact Hid). apply Hinl in E. destruct (Hin1 e E) as (e' & -> & Hs & _). exact Hs.
      - rewrite Hout1; [exact I|]. intros Hin. apply in_map_iff in Hin as (e & <- & Hin). apply Hinl in Hin. congruence. }
    assert (forall id e1, dget String.eqb id (s_ents s1) = Some e1 -> exists e, dget String.eqb id (s_ents s) = Some e /\ same_schema e e1) as Hback.
    { intros id e1 E. specialize (Hsame id). rewrite E in Hsame. destruct (dget String.eqb id (s_ents s)) as [e|]; [eauto | destruct Hsame]. }
    assert (forall id e, dget String.eqb id (s_ents s) = Some e -> exists e1, dget String.eqb id (s_ents s1) = Some e1 /\ same_schema e e1) as Hforth.
    { intros id e E. specialize (Hsame id). rewrite E in Hsame. destruct (dget String.eqb id (s_ents s1)) as [e1|]; [eauto | destruct Hsame]. }
    destruct (relates_Ok (s_rels s) s1) as (s2 & E2 & He2 & Hr2 & Hi2).
    { rewrite Hr1. exact Hr. }
    { intros id e1 E. destruct (Hback id e1 E) as (e & E0 & (_ & _ & _ & _ & Hv & _)). eapply Permutation_NoDup; [apply Permutation_map; exact Hv|]. exact (proj1 (Hd id e E0)). }
    { intros r Hin. rewrite Forall_forall in Hl. destruct (Hl r Hin) as ((ce & pe & d & Ce & Pe & Hpv & Hcv & Dc & Dp) & ce' & vc & Ce' & Hvc & Hvci & Hvct). rewrite Ce in Ce'. injection Ce' as <-.
      destruct (Hforth _ _ Ce) as (c1 & C1 & (_ & Ci & _ & _ & Cv & Cd)). destruct (Hforth _ _ Pe) as (p1 & P1 & (_ & Pi & _ & _ & Pv & Pd)).
      destruct (Hd _ _ Pe) as (_ & _ & (vp & Hvp & Hvpi & Hvpt) & _). split; [split|].
      - exists c1, p1, d. split; [exact C1|]. split; [exact P1|]. split; [congruence|]. split; [congruence|]. split; [rewrite <- Hvci, Cd, Hvci by exact Hvc; exact Dc|]. rewrite Hpv, <- Hvpi, Pd, Hvpi, <- Hpv by exact Hvp. exact Dp.
      - exists c1, vc. split; [exact C1|]. split; [apply (Permutation_in _ Cv); exact Hvc | auto].
      - exists p1, vp. split; [exact P1|]. split; [apply (Permutation_in _ Pv); exact Hvp | split; [congruence | exact Hvpt]]. }
    assert (exists s3, match map d_id (filter d_lti (map describe_entity l)) with [] => sret tt | x :: y => add_last_time_indexes touched last_times (x :: y) end s2 = (s3, Ok tt) /\ s_id s3 = s_id s2 /\ s_rels s3 = s_rels s2 /\
              (forall id, match dget String.eqb id (s_ents s2) with Some e => exists q, dget String.eqb id (s_ents s3) = Some (with_lti q e) | None => dget String.eqb id (s_ents s3) = None end) /\ map fst (s_ents s3) = map fst (s_ents s2)) as (s3 & E3 & Hi3 & Hr3 & He3 & Hk3).
    { destruct (map d_id (filter d_lti (map describe_entity l))) as [|x y].
      - exists s2. split; [reflexivity|]. split; [reflexivity|]. split; [reflexivity|]. split; [|reflexivity]. intros id. destruct (dget String.eqb id (s_ents s2)) as [e|]; [exists (n_lti e); destruct e; reflexivity | reflexivity].
      - destruct (add_last_time_indexes touched last_times (x :: y) s2) as [s3 r3] eqn:Ea. assert (r3 = Ok tt /\ s_id s3 = s_id s2 /\ s_rels s3 = s_rels s2 /\ map fst (s_ents s3) = map fst (s_ents s2)) as (-> & Hi & Hre & Hks).
        { unfold add_last_time_indexes, sbind, sget, smod, reset_meta in Ea. injection Ea as <- <-. split; [reflexivity|]. split; [reflexivity|]. split; [reflexivity|]. cbn [s_ents with_meta with_ents]. rewrite map_map. apply map_ext. intros [i e]. cbn. destruct (mem_str i _); reflexivity. }
        exists s3. split; [reflexivity|]. split; [exact Hi|]. split; [exact Hre|]. split; [|exact Hks]. intros id. destruct (dget String.eqb id (s_ents s2)) as [e|] eqn:E; [eapply last_times_tab; [exact Ea | exact E]|].
        apply (dget_None _ String.eqb_spec id (s_ents s3)). rewrite Hks. apply (dget_None _ String.eqb_spec id (s_ents s2)). exact E. }
    exists s3. split.
    { unfold sbind at 1. rewrite E1. unfold sbind at 1. rewrite E2. rewrite E3. reflexivity. }
    split; [rewrite Hi3, Hi2, Hi1; reflexivity|]. split; [rewrite Hr3, Hr2, Hr1; reflexivity|]. split; [|rewrite Hk3, He2; apply Hnd1; constructor].
    intros id. specialize (Hsame id). specialize (He3 id). rewrite He2 in He3. destruct (dget String.eqb id (s_ents s)) as [e|].
    - destruct (dget String.eqb id (s_ents s1)) as [e1|]; [|destruct Hsame]. destruct He3 as (q & ->). exact Hsame.
    - destruct (dget String.eqb id (s_ents s1)) as [e1|]; [destruct Hsame|]. rewrite He3. exact I.
  Qed.

  (** *** The round trip *)
  Theorem C54_round_trip_partial s : dicts s -> NoDup (s_rels s) -> (forall id e, dget String.eqb id (s_ents s) = Some e -> describable (s_kind s) e) ->
    Forall (link_typed s) (s_rels s) ->
    exists s', description_to_entityset (describe s) = Ok s' /\ s_id s' = s_id s /\ s_rels s' = s_rels s /\
      forall id, match dget String.eqb id (s_ents s), dget String.eqb id (s_ents s') with
                 | Some e, Some e' => same_schema e e' | None, None => True | _, _ => False end.
  Proof. intros H1 H2 H3 H4. destruct (round_trip s H1 H2 H3 H4) as (s' & E & Hi & Hr & He & _). exists s'. auto. Qed.

  (** the library's own comparison finds them equal, both ways *)
  Theorem C54_equal_partial s : dicts s -> NoDup (s_rels s) -> (forall id e, dget String.eqb id (s_ents s) = Some e -> describable (s_kind s) e) ->
    Forall (link_typed s) (s_rels s) ->
    exists s', description_to_entityset (describe s) = Ok s' /\ eset_eqb s s' = true /\ eset_eqb s' s = true.
  Proof.
    intros H1 H2 H3 H4. destruct (round_trip s H1 H2 H3 H4) as (s' & E & Hi & Hr & He & Hn). exists s'. split; [exact E|]. pose proof H1 as [Hk Hes].
    assert (forall id e', dget String.eqb id (s_ents s') = Some e' -> exists e, dget String.eqb id (s_ents s) = Some e /\ same_schema e e') as Hb.
    { intros id e' E'. specialize (He id). rewrite E' in He. destruct (dget String.eqb id (s_ents s)) as [e|]; [eauto | destruct He]. }
    assert (dicts s') as Hd'.
    { split; [exact Hn|]. intros id e' Hin. apply (dget_NoDup_In _ String.eqb_spec _ _ _ Hn) in Hin. destruct (Hb id e' Hin) as (e & E0 & (Hid & _ & _ & Hsec & Hv & _)). apply (dget_In _ String.eqb_spec) in E0. destruct (Hes id e E0) as (A & B & C). split; [congruence|]. split; [rewrite Hsec; exact B|].
      eapply Permutation_NoDup; [apply Permutation_map; exact Hv | exact C]. }
    assert (same_entities s s') as Hse.
    { intros id. specialize (He id). destruct (dget String.eqb id (s_ents s)) as [e|], (dget String.eqb id (s_ents s')) as [e'|]; try exact He. destruct He as (_ & Ha & Hb' & Hc & Hv & _). split; [congruence|]. split; [congruence|]. split; [intros k; rewrite Hc; reflexivity|].
      intros i ty. split; intros (v & Hv1 & Hv2); exists v; (split; [|exact Hv2]); [exact (Permutation_in _ Hv Hv1) | exact (Permutation_in _ (Permutation_sym Hv) Hv1)]. }
    split; apply C41_equal_exact; auto; (split; [|rewrite Hr; apply incl_refl]); [exact Hse|]. apply same_entities_sym. exact Hse.
  Qed.
End C54.

(** ** Concrete round trips *)
Notation back0 := (description_to_entityset nr dt okd infd tch lts).
(** events with a secondary time index, and customers split off with the time of their first event *)
Definition ev2 : table :=
  mkTab [("id", DInt); ("cid", DInt); ("t", DDate); ("x", DInt); ("end", DDate); ("result", DInt)]
        (map (fun q => let '(i, c, t, x) := q in [("id", VNum i); ("cid", VNum c); ("t", VNum t); ("x", VNum x); ("end", VNum (t + 3)%Z); ("result", VNum (x + 1)%Z)]) rows1).
Definition told : eset := after [Create "events" ev2 (Some "id") [] false (Some "t") [("end", ["result"; "end"])] false; Normalize (n_args ["x"]) []; Interesting "events" (fun _ => [VNum 20%Z]); LastTimes []].
Definition told_ents : list (string * ent) := Eval vm_compute in s_ents told.
Fixpoint nodupb (l : list string) : bool := match l with [] => true | a :: l => negb (mem_str a l) && nodupb l end.
Lemma nodupb_spec l : nodupb l = true -> NoDup l.
Proof. induction l as [|a l IH]; intros H; constructor; apply andb_true_iff in H as [H1 H2]; [apply mem_str_nIn; apply negb_true_iff; exact H1 | auto]. Qed.

Example C54_nonvacuous : dicts told /\ NoDup (s_rels told) /\ (forall id e, dget String.eqb id (s_ents told) = Some e -> describable (s_kind told) e) /\ Forall (link_typed told) (s_rels told) /\
  s_rels told = [mkRel "customers" "cid" "events" "cid"] /\ map (fun ie => (fst ie, n_sec (snd ie))) (s_ents told) = [("events", [("end", ["result"; "end"])]); ("customers", [])].
Proof.
  assert (s_kind told = Some KDate) as Hk by (vm_compute; reflexivity). assert (s_rels told = [mkRel "customers" "cid" "events" "cid"]) as Hr by (vm_compute; reflexivity).
  assert (s_ents told = told_ents) as He by (vm_cast_no_check (eq_refl told_ents)). unfold dicts, link_typed, linked. rewrite Hk, Hr, He. clear.
  split; [split; [apply nodupb_spec; reflexivity|]; intros id e [H|[H|[]]]; injection H as <- <-; (split; [reflexivity|]; split; apply nodupb_spec; reflexivity)|].
  split; [constructor; [intros [] | constructor]|]. split; [|split; [|split; reflexivity]].
  - intros id e H. apply (dget_In _ String.eqb_spec) in H. destruct H as [H|[H|[]]]; injection H as <- <-; unfold describable; cbn [n_vars n_tab n_index n_time n_sec].
    + split; [apply nodupb_spec; reflexivity|]. split; [intros v Hv; cbn in Hv; repeat (destruct Hv as [<-|Hv]; [eexists; reflexivity|]); destruct Hv|]. split; [eexists; split; [left; reflexivity|]; split; reflexivity|].
      split; [intros ti Hti; injection Hti as <-; split; [discriminate|]; exists (mkVar "t" TDatetimeTimeIndex [] None), DDate; split; [cbn; tauto|]; split; [reflexivity|]; split; [reflexivity|]; left; auto|].
      split; [discriminate|]. intros c cs [H|[]]. injection H as <- <-. split; [cbn; tauto|]. exists (mkVar "end" TDatetime [] None). split; [cbn; tauto|]. split; [reflexivity|]. left. auto.
    + split; [apply nodupb_spec; reflexivity|]. split; [intros v Hv; cbn in Hv; repeat (destruct Hv as [<-|Hv]; [eexists; reflexivity|]); destruct Hv|]. split; [eexists; split; [left; reflexivity|]; split; reflexivity|].
      split; [intros ti Hti; injection Hti as <-; split; [discriminate|]; exists (mkVar "first_events_time" TDatetimeTimeIndex [] None), DDate; split; [cbn; tauto|]; split; [reflexivity|]; split; [reflexivity|]; left; auto|].
      split; [discriminate|]. intros c cs [].
  - constructor; [|constructor]. split.
    + do 2 eexists. exists DInt. split; [reflexivity|]. split; [reflexivity|]. split; [reflexivity|]. split; [discriminate|]. split; reflexivity.
    + eexists. exists (mkVar "cid" TId [VNum 20%Z] None). split; [reflexivity|]. split; [cbn; tauto|]. split; reflexivity.
Qed.

(** ** What the round trip loses *)
(** An entity with a secondary time index but no time index cannot be rebuilt when no earlier entity has a time index. *)
Definition untimed : table := mkTab [("id", DInt); ("end", DDate); ("result", DInt)] [[("id", VNum 1); ("end", VNum 3); ("result", VNum 4)]]%Z.
Theorem C54_secondary_refuted : exists s, s = after [mk_events rows1; Create "audit" untimed (Some "id") [] false None [("end", ["result"])] false] /\
  map fst (s_ents s) = ["events"; "audit"] /\ back0 (describe s) = Err TypeError.
Proof. eexists. split; [reflexivity|]. split; vm_compute; reflexivity. Qed.

(** A variable type chosen by hand for a link is replaced: [convert_variable_type] to Categorical, then the round trip. *)
Theorem C54_link_type_refuted : exists s s', s = fst (on_entity "events" (convert_variable_type nr dt "cid" TCategorical false) (after [mk_events rows1; Normalize (n_args ["x"]) []])) /\
  back0 (describe s) = Ok s' /\ eset_eqb s s' = false /\
  option_map (fun e => map v_type (filter (fun v => String.eqb (v_id v) "cid") (n_vars e))) (dget String.eqb "events" (s_ents s)) = Some [TCategorical] /\
  option_map (fun e => map v_type (filter (fun v => String.eqb (v_id v) "cid") (n_vars e))) (dget String.eqb "events" (s_ents s')) = Some [TId].
Proof.
  exists (fst (on_entity "events" (convert_variable_type nr dt "cid" TCategorical false) (after [mk_events rows1; Normalize (n_args ["x"]) []]))).
  exists (match back0 (describe (fst (on_entity "events" (convert_variable_type nr dt "cid" TCategorical false) (after [mk_events rows1; Normalize (n_args ["x"]) []])))) with Ok x => x | Err _ => empty_set "" end).
  split; [reflexivity|]. split; [vm_compute; reflexivity|]. split; [vm_compute; reflexivity|]. split; vm_compute; reflexivity.
Qed.

Print Assumptions C54_round_trip_partial.
Print Assumptions C54_equal_partial.
