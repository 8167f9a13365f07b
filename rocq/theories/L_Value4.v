(** Aggregations keep a frame meaningful. *)
From Verif Require Import Base BaseFacts M_Schema S_Schema M_Trie M_Table M_Query S_Query L_Query S_View L_View
  M_Feature M_FeatureSet M_Calc S_Calc S_Group S_Sem S_Approx S_Value L_Frame L_FeatureSet L_Group P_Select L_Value1 L_Value2 L_Value3.

Lemma NoDup_app' {A} (l1 l2 : list A) : NoDup l1 -> NoDup l2 -> (forall x, In x l1 -> ~ In x l2) -> NoDup (l1 ++ l2).
Proof.
  revert l2. induction l1 as [|x l1 IH]; intros l2 H1 H2 H; cbn; [exact H2|]. inversion H1; subst. constructor.
  - rewrite in_app_iff. intros [Hx|Hx]; [contradiction | exact (H x (or_introl eq_refl) Hx)].
  - apply IH; auto. intros y Hy. apply H. right; exact Hy.
Qed.

Lemma filter_swap {A} (p q : A -> bool) l : filter p (filter q l) = filter q (filter p l).
Proof. rewrite !filter_filter. apply filter_ext. intros a. apply andb_comm. Qed.

Lemma Forall2_skipn {A B} (P : A -> B -> Prop) n : forall l l', Forall2 P l l' -> Forall2 P (skipn n l) (skipn n l').
Proof. induction n as [|n IH]; intros l l' H; [exact H|]. destruct H; cbn; [constructor | apply IH; assumption]. Qed.

Lemma filter_flat_keys (h : row -> val) (rs : list row) (sel : list row -> list row) keys k :
  (forall l x, In x (sel l) -> In x l) -> NoDup keys ->
  filter (fun r => val_eqb (h r) k) (flat_map (fun k' => sel (filter (fun r => val_eqb (h r) k') rs)) keys)
  = if mem_val k keys then sel (filter (fun r => val_eqb (h r) k) rs) else [].
Proof.
  intros Hsel. induction keys as [|k0 keys IH]; intros Hn; [reflexivity|]. inversion Hn as [|x l Hx Hl]; subst. cbn [flat_map].
  assert (forall k1, filter (fun r => val_eqb (h r) k) (sel (filter (fun r => val_eqb (h r) k1) rs)) = if val_eqb k k1 then sel (filter (fun r => val_eqb (h r) k1) rs) else []) as E.
  { intros k1. assert (forall r, In r (sel (filter (fun r => val_eqb (h r) k1) rs)) -> val_eqb (h r) k = val_eqb k k1) as Hin.
    { intros r Hr. apply Hsel, filter_In in Hr as [_ Hr]. destruct (val_eqb_spec (h r) k1) as [E1|]; [|discriminate].
      destruct (val_eqb_spec (h r) k) as [E3|E3], (val_eqb_spec k k1) as [E2|E2]; try reflexivity; congruence. }
    revert Hin. generalize (sel (filter (fun r => val_eqb (h r) k1) rs)). intros l0 Hin. destruct (val_eqb k k1); induction l0 as [|r l0 IHl]; cbn [filter]; try reflexivity;
      rewrite (Hin r (or_introl eq_refl)); [f_equal|]; apply IHl; intros r' Hr'; apply Hin; right; exact Hr'. }
  rewrite filter_app, E, (IH Hl). unfold mem_val at 2. cbn [existsb]. destruct (val_eqb_spec k k0) as [->|Hne]; cbn [orb]; [|reflexivity].
  destruct (mem_val k0 keys) eqn:Em; [apply mem_val_In in Em; contradiction | apply app_nil_r].
Qed.

Lemma combine_concat {A B} (g : list A) (names : A -> list string) (vs : list (list B)) :
  Forall2 (fun f v => List.length v = List.length (names f)) g vs ->
  forall i f j n, nth_error g i = Some f -> nth_error (names f) j = Some n ->
  exists v b, nth_error vs i = Some v /\ nth_error v j = Some b /\ In (n, b) (combine (flat_map names g) (List.concat vs)).
Proof.
  induction 1 as [|f0 v0 g vs H0 H IH]; intros i f j n Hi Hj; [destruct i; discriminate|]. cbn [flat_map List.concat].
  assert (forall (l1 : list string) (l2 : list B) l3 l4, List.length l1 = List.length l2 -> combine (l1 ++ l3) (l2 ++ l4) = combine l1 l2 ++ combine l3 l4) as Hc.
  { clear. induction l1 as [|x l1 IH]; intros [|y l2] l3 l4 E; cbn in *; try discriminate; [reflexivity | f_equal; apply IH; lia]. }
  rewrite (Hc (names f0) v0 _ _ (eq_sym H0)). destruct i as [|i]; cbn in Hi.
  - injection Hi as ->. destruct (nth_error_ex v0 j) as (b & Hb); [rewrite H0; eapply nth_error_len; exact Hj|].
    exists v0, b. split; [reflexivity|]. split; [exact Hb|]. apply in_app_iff. left. eapply combine_In_nth; eassumption.
  - destruct (IH i f j n Hi Hj) as (v & b & H1 & H2 & H3). exists v, b. split; [exact H1|]. split; [exact H2|]. apply in_app_iff. auto.
Qed.

Lemma combine_fst_incl {A B} (l : list A) (l' : list B) : List.incl (map fst (combine l l')) l.
Proof. intros x Hx. apply in_map_iff in Hx as ([a b] & <- & H). eapply in_combine_l; exact H. Qed.

Lemma NoDup_combine_fst {A B} (l : list A) (l' : list B) : NoDup l -> NoDup (map fst (combine l l')).
Proof.
  revert l'. induction l as [|a l IH]; intros [|b l'] H; cbn; try constructor; inversion H; subst; auto.
  intros Hin. apply combine_fst_incl in Hin. contradiction.
Qed.

Lemma cell_In_unique (x : row) n v : NoDup (map fst x) -> In (n, v) x -> cell n x = v.
Proof. intros H1 H2. unfold cell. rewrite (dget_NoDup_In _ String.eqb_spec _ _ _ H1 H2). reflexivity. Qed.

Section Value4.
  Variables (es : entityset) (T : Z) (tw : option window) (incl : bool) (given : feat -> option (row -> list val)) (fs : list feat).
  Notation rels := (es_rels es).
  Notation fname := (fname rels).
  Notation fnames := (fnames rels).
  Notation R := (rows_at es T tw incl).
  Notation sem := (sem_with es T tw incl given).
  Notation owner := (owner es T tw incl).
  Notation calculated := (calculated fs).
  Notation means := (means es T tw incl given fs).
  Notation sees := (sees es T tw incl given fs).
  Notation sees_row := (sees_row es T tw incl given fs).
  Notation lvl_ok := (lvl_ok es T tw incl).
  Notation done := (done es T tw incl given).

  Hypothesis Hes : good_es es.
  Hypothesis Hip : index_present es.
  Hypothesis Hw : win_time tw.
  Hypothesis Hcn : clear_names es fs.
  Hypothesis Hov : forall f g, given f = Some g -> is_aggregation f.
  Hypothesis Hwt : forall f, needed fs f -> wt rels f.
  Hypothesis Hpf : plain_features rels fs.
  Hypothesis Hovl : forall f g r, needed fs f -> given f = Some g -> List.length (g r) = fnout f.

  Lemma flat_names_NoDup eid g : (forall f, In f g -> calculated f /\ fentity f = eid) -> NoDup g -> NoDup (flat_map fnames g).
  Proof.
    induction g as [|f g IH]; intros Hg Hn; [constructor|]. inversion Hn as [|x l Hx Hl]; subst. cbn [flat_map].
    destruct (Hg f (or_introl eq_refl)) as [C E]. apply NoDup_app'.
    - apply (names_NoDup es fs Hcn f C).
    - apply IH; [|exact Hl]. intros f' Hf'. apply Hg. right; exact Hf'.
    - intros n H1 H2. apply in_flat_map in H2 as (f' & Hf' & H2). destruct (Hg f' (or_intror Hf')) as [C' E'].
      apply In_nth_error in H1 as (i & Hi). apply In_nth_error in H2 as (j & Hj).
      destruct (cn_columns es fs Hcn f f' i j n C C') as [<- _]; try congruence.
  Qed.

  Lemma agg_base p bs path u wh prev nm : calculated (FAgg p bs path u wh prev nm) ->
    exists ce, bs <> [] /\ path <> [] /\ backward_chain rels (match path with r :: _ => r_pe r | [] => ""%string end) path ce /\
      (forall b, In b bs -> needed fs b /\ fentity b = ce /\ fnout b = 1) /\
      (forall w, wh = Some w -> needed fs w /\ fentity w = ce /\ fnout w = 1).
  Proof.
    intros C. pose proof (Hwt _ (proj1 C)) as Hw'. inversion Hw' as [| |p' bs' path' u' wh' prev' nm' ce H1 H2 H3 H4 H5 H6 H7| | |]; subst.
    exists ce. split; [exact H1|]. split; [exact H2|]. split; [exact H3|]. split.
    - intros b Hb. split; [|apply H5; exact Hb]. apply (needed_dep fs (FAgg p bs path u wh prev nm)); [apply C|]. cbn [fdeps]. apply in_app_iff. auto.
    - intros w Hwh. split; [|apply H7; exact Hwh]. apply (needed_dep fs (FAgg p bs path u wh prev nm)); [apply C|]. cbn [fdeps]. apply in_app_iff. right. subst wh. left; reflexivity.
  Qed.

  Lemma name_inj b w : needed fs b -> needed fs w -> fentity b = fentity w -> fname b = fname w -> b = w.
  Proof. intros H1 H2 E1 E2. apply (cn_unique es fs Hcn b w H1 H2). unfold funique. rewrite E1, E2. reflexivity. Qed.

  Lemma can_agg_spec p bs path u wh prev nm : calculated (FAgg p bs path u wh prev nm) ->
    can_agg es (FAgg p bs path u wh prev nm) = negb (p_time p) && Nat.eqb (List.length bs) 1 && Nat.eqb (p_nout p) 1.
  Proof.
    intros C. cbn [can_agg]. destruct wh as [w|]; [|reflexivity].
    destruct (agg_base _ _ _ _ _ _ _ C) as (ce & _ & _ & _ & Hb & Hwh). destruct (Hwh w eq_refl) as (Nw & Ew & _).
    pose proof (pf_where rels fs Hpf _ _ _ _ _ _ _ C) as Hnw.
    assert (filter (fun b => negb (String.eqb (fname b) (fname w))) bs = bs) as ->; [|reflexivity].
    clear -Hb Nw Ew Hnw Hcn Hov. induction bs as [|b bs IH]; [reflexivity|]. cbn [filter].
    destruct (String.eqb_spec (fname b) (fname w)) as [E|E]; cbn [negb].
    - exfalso. apply Hnw. left. destruct (Hb b (or_introl eq_refl)) as (Nb & Eb & _). apply name_inj; [exact Nb | exact Nw | congruence | exact E].
    - f_equal. apply IH; [intros b' Hb'; apply Hb; right; exact Hb' | intros H; apply Hnw; right; exact H].
  Qed.

  Lemma can_agg_args p bs path u wh prev nm : calculated (FAgg p bs path u wh prev nm) ->
    (if can_agg es (FAgg p bs path u wh prev nm) then firstn 1 (map fname bs) else map fname bs) = map fname bs.
  Proof.
    intros C. rewrite (can_agg_spec _ _ _ _ _ _ _ C). destruct (negb (p_time p) && Nat.eqb (List.length bs) 1 && Nat.eqb (p_nout p) 1) eqn:E; [|reflexivity].
    apply andb_true_iff in E as [E _]. apply andb_true_iff in E as [_ E]. apply Nat.eqb_eq in E. destruct bs as [|b [|b' bs]]; try discriminate. reflexivity.
  Qed.

  Lemma not_single f : calculated f -> (exists p bs path u wh prev nm, f = FAgg p bs path u wh prev nm) -> can_agg es f = false -> ~ single_column f.
  Proof.
    intros C (p & bs & path & u & wh & prev & nm & ->) H (H1 & H2 & H3). rewrite (can_agg_spec _ _ _ _ _ _ _ C), H1, H2, H3 in H. discriminate.
  Qed.

  (** the rows a condition keeps *)
  Definition wkeep (wh : option feat) (c : row) : bool :=
    match wh with Some w => match hd VNull (sem w c) with VBool b => b | _ => false end | None => true end.

  Lemma where_sees ce L wh base base' brs : lvl_ok ce L -> sees ce L base brs ->
    (forall w, wh = Some w -> needed fs w /\ fentity w = ce /\ fnout w = 1) ->
    match wh, rows base with Some w, _ :: _ => bool_filter (fname w) base | _, _ => Ok base end = Ok base' ->
    sees ce L base' (filter (wkeep wh) brs) /\ cols base' = cols base.
  Proof.
    intros HL Hs Hwh H. destruct wh as [w|].
    - destruct (rows base) as [|x0 xs] eqn:Ex.
      + injection H as <-. split; [|reflexivity]. destruct Hs as [Hi Hs]. rewrite Ex in Hs. inversion Hs; subst. split; [exact Hi|]. rewrite Ex. constructor.
      + unfold bool_filter in H. apply bind_Ok in H as (u & Hu & H). destruct (forallb _ _); [|discriminate]. injection H as <-. split; [|reflexivity].
        apply sees_filter; [exact Hs|]. intros x r _ Hx. cbn [wkeep]. destruct (Hwh w eq_refl) as (Nw & Ew & Ow).
        rewrite (base_cell es T tw incl given fs Hes Hcn Hov Hwt ce L (cols base) x r w HL Hx Nw Ew Ow); [reflexivity | eapply check_col_Ok; exact Hu].
    - assert (base' = base) as -> by (destruct (rows base); congruence). split; [|reflexivity].
      assert (filter (wkeep None) brs = brs) as ->; [|exact Hs]. clear. induction brs as [|x l IH]; cbn [filter wkeep]; [reflexivity | f_equal; exact IH].
  Qed.

  (** grouping, and the rows [use_previous] keeps of each group *)
  Lemma prev_groups ce e L prev gb (h : row -> val) base base' brs : lvl_ok ce L -> es_get es ce = Ok e -> sees ce L base brs ->
    (forall x c, In c brs -> sees_row ce L (cols base) x c -> In gb (cols base) -> cell gb x = h c) ->
    (forall d n, prev = Some d -> dget String.eqb "o"%string (td_times d) = Some n -> (0 < n)%Z) ->
    prev_filter T prev (e_time e) gb base = Ok base' -> In gb (cols base') ->
    cols base' = cols base /\
    forall k, k <> VNull -> sees ce L (filter_df (fun r => val_eqb (cell gb r) k) base') (previous T prev (e_time e) (filter (fun c => val_eqb (h c) k) brs)).
  Proof.
    intros HL He Hs Hgb Hobs H Hin.
    assert (forall d, prev = Some d -> td_no_obs d = match dget String.eqb "o"%string (td_times d) with None => true | Some _ => false end) as Hno.
    { intros d _. unfold td_no_obs. clear. induction (td_times d) as [|[u v] l IH]; [reflexivity|]. cbn [existsb fst dget]. rewrite (String.eqb_sym u).
      destruct (String.eqb "o"%string u); cbn [orb negb]; [reflexivity | exact IH]. }
    assert (forall (p : row -> bool) (q : row -> bool), In gb (cols base) -> (forall x r, In x (rows base) -> sees_row ce L (cols base) x r -> p x = q r) ->
      forall k, sees ce L (filter_df (fun r => val_eqb (cell gb r) k) (filter_df p base)) (filter q (filter (fun c => val_eqb (h c) k) brs))) as Hflt.
    { intros p q Hgc Hpq k. assert (sees ce L (filter_df (fun r => val_eqb (cell gb r) k) base) (filter (fun c => val_eqb (h c) k) brs)) as Hk.
      { destruct Hs as [Hi Hs]. split; [exact Hi|]. cbn [filter_df rows cols].
        assert (Forall2 (fun x c => sees_row ce L (cols base) x c /\ cell gb x = h c) (rows base) brs) as Hs'.
        { eapply Forall2_impl; [|exact Hs]. intros x c _ Hc Hx. split; [exact Hx | apply Hgb; assumption]. }
        eapply Forall2_impl; [|apply (Forall2_filter _ (fun r => val_eqb (cell gb r) k) (fun c => val_eqb (h c) k) _ _); [|exact Hs']].
        - intros x c _ _ [Hx _]. exact Hx.
        - intros x c _ [_ ->]. reflexivity. }
      unfold filter_df at 1 2. cbn [rows cols]. rewrite filter_swap. change (sees ce L (filter_df p (filter_df (fun r => val_eqb (cell gb r) k) base)) (filter q (filter (fun c => val_eqb (h c) k) brs))).
      apply sees_filter; [exact Hk|]. intros x r Hx. apply Hpq. cbn [filter_df rows] in Hx. apply filter_In in Hx. apply Hx. }
    assert (forall (d : df), filter_df (fun _ => true) d = d) as Hft.
    { intros [c0 r0]. unfold filter_df. cbn. f_equal. clear. induction r0 as [|x l IH]; cbn; [reflexivity | f_equal; exact IH]. }
    assert (forall (l : list row), filter (fun _ => true) l = l) as Hft' by (induction l as [|x l IH]; cbn; [reflexivity | f_equal; exact IH]).
    assert (In gb (cols base) -> forall k, sees ce L (filter_df (fun r => val_eqb (cell gb r) k) base) (filter (fun c => val_eqb (h c) k) brs)) as Hall.
    { intros Hgc k. specialize (Hflt (fun _ => true) (fun _ => true) Hgc (fun _ _ _ _ => eq_refl) k). rewrite Hft, Hft' in Hflt. exact Hflt. }
    unfold prev_filter in H. destruct prev as [d|].
    2:{ injection H as <-. split; [reflexivity|]. intros k Hk. cbn [previous]. apply Hall. exact Hin. }
    rewrite (Hno d eq_refl) in H. cbn [previous]. unfold td_obs in H. destruct (dget String.eqb "o"%string (td_times d)) as [n|] eqn:Eo; cbn [bind] in H.
    - apply bind_Ok in H as (u & Hu & H). injection H as <-. split; [reflexivity|]. intros k Hk. cbn [cols] in Hin.
      destruct (Hall Hin k) as [Hi Ha]. split; [exact Hi|]. unfold filter_df. cbn [rows cols]. pose proof (Hobs d n eq_refl Eo) as Hn.
      assert (forall l : list row, last_n n l = skipn (List.length l - Z.to_nat n) l) as Hln. { intros l. unfold last_n. destruct (Z.leb_spec n 0); [lia | reflexivity]. }
      rewrite (filter_flat_keys (cell gb) (rows base) (last_n n)); [| |apply group_keys_NoDup].
      2:{ intros l x Hx. rewrite Hln in Hx. rewrite <- (firstn_skipn (List.length l - Z.to_nat n) l). apply in_app_iff. right; exact Hx. }
      unfold last_obs. cbn [filter_df rows cols] in Ha. rewrite <- (Forall2_length' _ _ _ Ha).
      destruct (mem_val k (group_keys (cell gb) (rows base))) eqn:Em.
      + rewrite Hln. apply Forall2_skipn. exact Ha.
      + assert (filter (fun r => val_eqb (cell gb r) k) (rows base) = []) as E0.
        { destruct (filter _ (rows base)) as [|x l] eqn:Ef; [reflexivity|]. exfalso. assert (In x (filter (fun r => val_eqb (cell gb r) k) (rows base))) as Hx by (rewrite Ef; left; reflexivity).
          apply filter_In in Hx as [Hx Ek]. destruct (val_eqb_spec (cell gb x) k) as [Ek'|]; [|discriminate].
          assert (In k (group_keys (cell gb) (rows base))) as Hkk by (apply group_keys_In; eauto). apply mem_val_In in Hkk. congruence. }
        rewrite E0 in Ha |- *. inversion Ha; subst. rewrite skipn_nil. constructor.
    - destruct (e_time e) as [ti|] eqn:Et.
      + apply bind_Ok in H as (u & Hu & H). injection H as <-. split; [reflexivity|]. intros k Hk. apply check_col_Ok in Hu.
        apply Hflt; [exact Hin|]. intros x r _ Hx. rewrite (sr_raw es T tw incl given fs Hes Hcn Hov ce L e (cols base) x r ti HL He Hx Hu); [reflexivity|].
        destruct (ent_good es Hes ce e He) as (Hwf & _). destruct Hwf as (_ & _ & Hti & _). apply Hti. exact Et.
      + injection H as <-. split; [reflexivity|]. intros k Hk. apply Hall. exact Hin.
  Qed.

  Lemma agg_sem p bs path u wh prev nm r ce e : calculated (FAgg p bs path u wh prev nm) -> given (FAgg p bs path u wh prev nm) = None -> es_get es ce = Ok e ->
    (forall b, In b bs -> fentity b = ce) ->
    sem (FAgg p bs path u wh prev nm) r =
    match previous T prev (e_time e) (filter (wkeep wh) (filter (fun c => val_eqb (owner path c) (cell (index_of es (fentity (FAgg p bs path u wh prev nm))) r)) (R ce))) with
    | [] => repeat (p_default p) (p_nout p)
    | rs => map (or_default (p_default p)) (p_agg p (time_arg T p) (map (fun b => map (fun c => hd VNull (sem b c)) rs) bs))
    end.
  Proof.
    intros C Eg He Hb. destruct (agg_base _ _ _ _ _ _ _ C) as (ce' & Hne & _).
    destruct bs as [|b bs]; [congruence|]. pose proof (Hb b (or_introl eq_refl)) as Eb. cbn [sem_with]. rewrite Eg, Eb. unfold time_of. rewrite He.
    destruct wh as [w|]; [reflexivity|].
    assert (forall l, filter (wkeep None) l = l) as E. { clear. induction l as [|x l IH]; cbn [filter wkeep]; [reflexivity | f_equal; exact IH]. }
    rewrite E. reflexivity.
  Qed.

  Lemma agg_sees eid e L rs g path wh prev ce ec : lvl_ok eid L -> es_get es eid = Ok e -> es_get es ce = Ok ec -> List.incl rs (R eid) -> NoDup g ->
    (forall f, In f g -> calculated f /\ fentity f = eid /\ exists p bs u nm, f = FAgg p bs path u wh prev nm /\ forall b, In b bs -> fentity b = ce) ->
    (forall f, In f g -> given f = None) ->
    forall (look : list edge -> res df) d d' q, sees eid L d rs ->
    (forall base, look (map (fun r => (false, r)) path) = Ok base -> exists L', lvl_ok ce L' /\ sees ce L' base (filter q (R ce)) /\
       forall x c, In c (filter q (R ce)) -> sees_row ce L' (cols base) x c -> In (relationship_variable_id path) (cols base) ->
         cell (relationship_variable_id path) x = owner path c) ->
    (forall r c, In r rs -> In c (R ce) -> owner path c = cell (e_index e) r -> q c = true) ->
    calc_agg es T look (e_index e) g d = Ok d' ->
    sees eid L d' rs /\ List.incl (cols d) (cols d') /\ forall f, In f g -> done d' rs f.
  Proof.
    intros HL He Hce Hrs Hng Hg Hgv look d d' q Hs Hlook Hq H.
    set (gb := relationship_variable_id path) in *.
    set (fs0 := filter (fun f => existsb (fun n => negb (mem_str n (cols d))) (fnames f)) g) in *.
    (* features already there *)
    assert (forall f, In f g -> ~ In f fs0 -> List.incl (fnames f) (cols d)) as Hold.
    { intros f Hf Hn c Hc. destruct (mem_str c (cols d)) eqn:Em; [apply mem_str_In; exact Em|]. exfalso. apply Hn. apply filter_In. split; [exact Hf|].
      apply existsb_exists. exists c. split; [exact Hc | rewrite Em; reflexivity]. }
    assert (NoDup fs0) as Hn0 by (apply NoDup_filter; exact Hng).
    assert (forall f, In f fs0 -> In f g) as H0g by (intros f Hf; apply filter_In in Hf; apply Hf).
    assert (forall f, In f fs0 -> calculated f /\ fentity f = eid) as Hg0 by (intros f Hf; destruct (Hg f (H0g f Hf)) as (C & E & _); auto).
    assert (forall f, In f g -> {In f fs0} + {~ In f fs0}) as Hdec.
    { intros f Hf. destruct (existsb (fun n => negb (mem_str n (cols d))) (fnames f)) eqn:E; [left; apply filter_In; auto | right; intros H1; apply filter_In in H1 as [_ H1]; congruence]. }
    (* the shape of the calculation *)
    assert (g <> []) as Hgne by (destruct g; [discriminate | discriminate]).
    assert (exists base, look (map (fun r => (false, r)) path) = Ok base /\ ((fs0 = [] /\ d' = d) \/
      (existsb (fun n => mem_str n (cols d)) (flat_map fnames fs0) = false /\ exists base1,
        match wh, rows base with Some w, _ :: _ => bool_filter (fname w) base | _, _ => Ok base end = Ok base1 /\
        let fills := flat_map (fun f => map (fun n => (n, fdefault f)) (fnames f)) fs0 in
        ((rows base1 = [] /\ d' = fillna fills (fold_left (fun d n => assign_scalar d n VNull) (flat_map fnames fs0) d)) \/
         exists base2, prev_filter T prev (e_time ec) gb base1 = Ok base2 /\ In gb (cols base2) /\
           let keys := group_keys (cell gb) (rows base2) in
           let fs' := match keys with [] => filter (can_agg es) fs0 | _ => fs0 end in
           exists vals, mapM (fun k => do vs <- mapM (fun f => agg_values es T f (filter_df (fun r => val_eqb (cell gb r) k) base2)) fs';
              Ok (k, combine (flat_map fnames fs') (List.concat vs))) keys = Ok vals /\
           d' = fillna fills (mkDf (cols d ++ flat_map fnames fs')
                   (left_merge (rows d) (cell (e_index e)) vals (map (fun n => (n, n)) (flat_map fnames fs')))))))) as (base & Hbase & Hcase).
    { unfold calc_agg in H. destruct g as [|f0 g0]; [discriminate|]. destruct (Hg f0 (or_introl eq_refl)) as (C0 & _ & p0 & bs0 & u0 & nm0 & -> & Hb0).
      apply bind_Ok in H as (base & Hbase & H). exists base. split; [exact Hbase|]. fold fs0 in H.
      destruct fs0 as [|f1 fs1] eqn:Efs; [left; split; congruence|]. right. rewrite <- Efs in H |- *.
      apply bind_Ok in H as (u1 & Hu1 & H). split; [destruct (existsb _ (flat_map fnames fs0)); [discriminate | reflexivity]|].
      apply bind_Ok in H as (base1 & Hb1 & H). exists base1. split; [exact Hb1|]. cbv zeta in H |- *.
      destruct (rows base1) as [|x1 xs1] eqn:Ex; [left; split; congruence|]. right.
      destruct (agg_base _ _ _ _ _ _ _ C0) as (ce' & Hbne & _).
      destruct bs0 as [|b0 bs0]; [congruence|]. rewrite (Hb0 b0 (or_introl eq_refl)), Hce in H. cbn [bind] in H.
      apply bind_Ok in H as (base2 & Hb2 & H). exists base2. split; [exact Hb2|].
      apply bind_Ok in H as (u2 & Hu2 & H). split; [eapply check_col_Ok; exact Hu2|]. apply bind_Ok in H as (u3 & _ & H). apply bind_Ok in H as (vals & Hv & H).
      exists vals. split; [exact Hv|]. injection H as <-. reflexivity. }
    clear H. destruct (Hlook base Hbase) as (L' & HL' & Hsb & Hgbv). clear Hlook.
    destruct Hcase as [[E0 ->]|(Hclash & base1 & Hb1 & Hcase)].
    { split; [exact Hs|]. split; [apply incl_refl|]. intros f Hf. left. apply Hold; [exact Hf | rewrite E0; intros []]. }
    cbv zeta in Hcase.
    assert (forall n, In n (flat_map fnames fs0) -> ~ In n (cols d)) as Hfresh.
    { intros n Hn Hc. assert (existsb (fun n => mem_str n (cols d)) (flat_map fnames fs0) = true) as Ht; [|congruence]. apply existsb_exists. exists n. split; [exact Hn | apply mem_str_In; exact Hc]. }
    assert (NoDup (flat_map fnames fs0)) as Hnames by (apply (flat_names_NoDup eid); assumption).
    set (fills := flat_map (fun f => map (fun n => (n, fdefault f)) (fnames f)) fs0) in *.
    assert (map fst fills = flat_map fnames fs0) as Hfst.
    { unfold fills. clear. induction fs0 as [|f l IH]; [reflexivity|]. cbn [flat_map]. rewrite map_app, IH, map_map. cbn [fst]. rewrite map_id. reflexivity. }
    assert (NoDup (map fst fills)) as Hnf by (rewrite Hfst; exact Hnames).
    assert (forall f n, In f fs0 -> In n (fnames f) -> dget String.eqb n fills = Some (fdefault f)) as Hget.
    { intros f n Hf Hn. apply (dget_NoDup_In _ String.eqb_spec); [exact Hnf|]. unfold fills. apply in_flat_map. exists f. split; [exact Hf|]. apply in_map_iff. eauto. }
    assert (forall n, In n (cols d) -> dget String.eqb n fills = None) as Hget'.
    { intros n Hn. apply (dget_None _ String.eqb_spec). rewrite Hfst. intros H1. exact (Hfresh n H1 Hn). }
    (* the rows the condition keeps *)
    assert (forall w, wh = Some w -> needed fs w /\ fentity w = ce /\ fnout w = 1) as Hwhn.
    { intros w ->. destruct g as [|f0 g0]; [congruence|].
      destruct (Hg f0 (or_introl eq_refl)) as (C0 & _ & p0 & bs0 & u0 & nm0 & -> & Hb0).
      destruct (agg_base _ _ _ _ _ _ _ C0) as (ce' & Hbne & _ & _ & Hb & Hww). destruct bs0 as [|b0 bs0]; [congruence|].
      assert (ce' = ce) as ->. { destruct (Hb b0 (or_introl eq_refl)) as (_ & <- & _). apply Hb0. left; reflexivity. }
      apply Hww. reflexivity. }

    destruct (where_sees ce L' wh base base1 _ HL' Hsb Hwhn Hb1) as [Hs1 Ec1].
    assert (forall x c, In c (filter (wkeep wh) (filter q (R ce))) -> sees_row ce L' (cols base1) x c -> In gb (cols base1) -> cell gb x = owner path c) as Hgb1.
    { intros x c Hc Hx Hgc. rewrite Ec1 in *. apply Hgbv; try assumption. apply filter_In in Hc. apply Hc. }
    (* the meaning of the features *)
    assert (forall r, In r rs -> cell (e_index e) r <> VNull) as Hnn.
    { intros r Hr. rewrite <- (index_of_eq es eid e He). apply (R_nonnull es T tw incl Hes Hip Hw). apply Hrs; exact Hr. }
    assert (forall f r, In f g -> In r rs -> exists p bs u nm, f = FAgg p bs path u wh prev nm /\ (forall b, In b bs -> needed fs b /\ fentity b = ce /\ fnout b = 1) /\
      sem f r = match previous T prev (e_time ec) (filter (fun c => val_eqb (owner path c) (cell (e_index e) r)) (filter (wkeep wh) (filter q (R ce)))) with
        | [] => repeat (p_default p) (p_nout p)
        | rs => map (or_default (p_default p)) (p_agg p (time_arg T p) (map (fun b => map (fun c => hd VNull (sem b c)) rs) bs)) end) as Hsem.
    { intros f r Hf Hr. destruct (Hg f Hf) as (C & E & p & bs & u & nm & -> & Hb). exists p, bs, u, nm. split; [reflexivity|]. split.
      - intros b Hbin. destruct (agg_base _ _ _ _ _ _ _ C) as (ce' & _ & _ & _ & Hbb & _). destruct (Hbb b Hbin) as (H1 & _ & H2). auto.
      - rewrite (agg_sem _ _ _ _ _ _ _ r ce ec C (Hgv _ Hf) Hce Hb). rewrite E, (index_of_eq es eid e He).
        rewrite (filter_swap (fun c => val_eqb (owner path c) (cell (e_index e) r)) (wkeep wh)).
        assert (filter (fun c => val_eqb (owner path c) (cell (e_index e) r)) (filter q (R ce)) = filter (fun c => val_eqb (owner path c) (cell (e_index e) r)) (R ce)) as ->; [|reflexivity].
        rewrite filter_filter. apply filter_ext_in. intros c Hc. destruct (val_eqb_spec (owner path c) (cell (e_index e) r)) as [Eo|]; [|apply andb_false_r].
        rewrite (Hq r c Hr Hc Eo). reflexivity. }
    (* both outcomes *)
    assert (forall fs' (val_at : row -> string -> val) dm, List.incl fs' fs0 -> NoDup fs' ->
      d' = fillna fills dm -> (forall c, In c (cols dm) <-> In c (cols d) \/ In c (flat_map fnames fs')) ->
      Forall2 (fun x x' => (forall c, ~ In c (flat_map fnames fs') -> cell c x' = cell c x) /\ (forall c, In c (flat_map fnames fs') -> cell c x' = val_at x c)) (rows d) (rows dm) ->
      (forall f j n x r, In f fs' -> nth_error (fnames f) j = Some n -> In r rs -> cell (e_index e) x = cell (e_index e) r -> or_default (fdefault f) (val_at x n) = nth j (sem f r) VNull) ->
      (forall f r, In f fs0 -> ~ In f fs' -> In r rs -> can_agg es f = false /\ sem f r = repeat (fdefault f) (fnout f)) ->
      (forall f, In f fs0 -> ~ In f fs' -> can_agg es f = false) ->
      sees eid L d' rs /\ List.incl (cols d) (cols d') /\ forall f, In f g -> done d' rs f) as Hend.
    { intros fs' val_at dm Hi' Hn' Ed' Hcols Hrows Hvals Hleft Hleft'.
      assert (cols d' = cols dm) as Ecd by (rewrite Ed'; reflexivity).
      assert (forall c, In c (flat_map fnames fs') -> In c (flat_map fnames fs0)) as Hsub.
      { intros c Hc. apply in_flat_map in Hc as (f & Hf & Hc). apply in_flat_map. exists f. auto. }
      split; [|split].
      - split; [rewrite Ecd; apply Hcols; left; apply Hs|]. rewrite Ecd. rewrite Ed'. unfold fillna. cbn [rows]. apply Forall2_map_l.
        pose proof (sees_index es T tw incl given fs Hes Hcn Hov eid e L d rs HL He Hs) as Hix. destruct Hs as [_ Hs].
        pose proof (Forall2_and _ _ _ _ Hs Hix) as Hs2. clear -Hs2 Hrows Hvals Hcols Hnf Hget Hget' Hsub Hi' Hg0 Hfresh.
        cut (forall xs rs1 ys, (forall r, In r rs1 -> In r rs) ->
          Forall2 (fun x x' => (forall c, ~ In c (flat_map fnames fs') -> cell c x' = cell c x) /\ (forall c, In c (flat_map fnames fs') -> cell c x' = val_at x c)) xs ys ->
          Forall2 (fun a b => sees_row eid L (cols d) a b /\ cell (e_index e) a = cell (e_index e) b) xs rs1 ->
          Forall2 (fun a b => sees_row eid L (cols dm) (fold_left (fun r kv => if mem_str (fst kv) (cols dm) && is_null (cell (fst kv) r) then dset String.eqb (fst kv) (snd kv) r else r) fills a) b) ys rs1);
          [intros Hcut; eapply Hcut; [auto | exact Hrows | exact Hs2]|].
        induction xs as [|x xs IH]; intros rs1 ys Hin H1 H2; inversion H1 as [|a b l l' [Ho Hv] Hl]; subst; inversion H2 as [|a2 r l2 l2' [Hx Hxi] Hl2]; subst; [constructor|].
        constructor; [|eapply IH; [intros r' Hr'; apply Hin; right; exact Hr' | exact Hl | exact Hl2]].
        apply (sees_row_step es T tw incl given fs eid L (cols d) (cols dm) (flat_map fnames fs') x _ r Hx Hcols).
        + intros c Hc. rewrite (fillna_cell fills (cols dm) b c Hnf). rewrite (Ho c Hc).
          destruct (in_dec string_dec c (cols d)) as [Hcd|Hcd]; [rewrite (Hget' c Hcd); reflexivity|].
          destruct (mem_str c (cols dm)) eqn:Em; [apply mem_str_In, Hcols in Em as [Em|Em]; contradiction|]. cbn [andb]. destruct (dget _ _ _); reflexivity.
        + intros c Hc. rewrite (fillna_cell fills (cols dm) b c Hnf). rewrite (Hv c Hc). pose proof (proj2 (mem_str_In c (cols dm)) (proj2 (Hcols c) (or_intror Hc))) as ->. cbn [andb].
          apply in_flat_map in Hc as (f & Hf & Hc). rewrite (Hget f c (Hi' f Hf) Hc). apply In_nth_error in Hc as (j & Hj).
          change (means eid L c r (or_default (fdefault f) (val_at x c))). rewrite (Hvals f j c x r Hf Hj (Hin r (or_introl eq_refl)) Hxi).
          destruct (Hg0 f (Hi' f Hf)) as [C E]. apply mn_feat; assumption.
      - intros c Hc. rewrite Ecd. apply Hcols. auto.
      - intros f Hf. destruct (Hdec f Hf) as [Hf0|Hf0].
        + assert ({In f fs'} + {~ In f fs'}) as [Hf'|Hf'].
          { destruct (fnames f) as [|n ns] eqn:En.
            - exfalso. apply filter_In in Hf0 as [_ Hf0]. rewrite En in Hf0. discriminate.
            - destruct (in_dec string_dec n (flat_map fnames fs')) as [Hd|Hd].
              + left. apply in_flat_map in Hd as (f' & Hf' & Hd). assert (f' = f) as <-; [|exact Hf'].
                apply In_nth_error in Hd as (j & Hj). destruct (Hg0 f Hf0) as [C E]. destruct (Hg0 f' (Hi' f' Hf')) as [C' E'].
                apply (cn_columns es fs Hcn f' f j 0 n C' C); [congruence | exact Hj | rewrite En; reflexivity].
              + right. intros Hf'. apply Hd. apply in_flat_map. exists f. split; [exact Hf' | rewrite En; left; reflexivity]. }
          * left. intros c Hc. rewrite Ecd. apply Hcols. right. apply in_flat_map. eauto.
          * right. split; [|split].
            -- apply not_single; [apply (Hg0 f Hf0) | | apply Hleft'; assumption]. destruct (Hg f Hf) as (_ & _ & p & bs & u & nm & -> & _). eauto 10.
            -- intros n Hn Hc. rewrite Ecd in Hc. apply Hcols in Hc as [Hc|Hc].
               ++ apply (Hfresh n); [apply in_flat_map; eauto | exact Hc].
               ++ apply in_flat_map in Hc as (f' & Hff' & Hc). apply Hf'. assert (f' = f) as <-; [|exact Hff'].
                  apply In_nth_error in Hn as (i & Hn). apply In_nth_error in Hc as (j & Hj). destruct (Hg0 f Hf0) as [C E]. destruct (Hg0 f' (Hi' f' Hff')) as [C' E'].
                  apply (cn_columns es fs Hcn f' f j i n C' C); [congruence | exact Hj | exact Hn].
            -- intros r Hr. apply Hleft; assumption.
        + left. intros c Hc. rewrite Ecd. apply Hcols. left. apply (Hold f Hf Hf0 c Hc). }
    set (brs1 := filter (wkeep wh) (filter q (R ce))) in *.
    assert (forall ti, previous T prev ti [] = []) as Hprev0.
    { intros ti. unfold previous. destruct prev as [dl|]; [|reflexivity]. destruct (dget _ _ _); [unfold last_obs; apply skipn_nil|]. destruct ti; reflexivity. }
    assert (forall f, In f g -> forall p bs u nm, f = FAgg p bs path u wh prev nm -> fdefault f = p_default p /\ fnout f = p_nout p) as Hdf by (intros f _ p bs u nm ->; auto).
    assert (forall f j n r, In f g -> nth_error (fnames f) j = Some n -> In r rs ->
      previous T prev (e_time ec) (filter (fun c => val_eqb (owner path c) (cell (e_index e) r)) brs1) = [] ->
      sem f r = repeat (fdefault f) (fnout f) /\ fdefault f = nth j (sem f r) VNull) as Hempty.
    { intros f j n r Hf Hj Hr Hp. destruct (Hsem f r Hf Hr) as (p & bs & u & nm & -> & _ & E). rewrite Hp in E.
      assert (sem (FAgg p bs path u wh prev nm) r = repeat (fdefault (FAgg p bs path u wh prev nm)) (fnout (FAgg p bs path u wh prev nm))) as E1 by exact E.
      split; [exact E1|]. rewrite E1. symmetry. apply nth_repeat'. apply nth_error_len in Hj. rewrite fnaming_len in Hj. exact Hj. }
    destruct Hcase as [[Ex Ed']|(base2 & Hb2 & Hgb2 & vals & Hvals & Ed')].
    - destruct (assign_scalars_cols (flat_map fnames fs0) VNull d) as [Er Ecs].
      apply (Hend fs0 (fun _ _ => VNull) _ (incl_refl _) Hn0 Ed' Ecs).
      + rewrite Er. apply Forall2_map_r. apply Forall2_refl'. intros x _. split; intros c Hc; rewrite cell_dsets.
        * destruct (mem_str c (flat_map fnames fs0)) eqn:Em; [apply mem_str_In in Em; contradiction | reflexivity].
        * rewrite (proj2 (mem_str_In c _) Hc). reflexivity.
      + intros f j n x r Hf Hj Hr _. unfold or_default. cbn [is_null]. apply (Hempty f j n r (H0g f Hf) Hj Hr).
        destruct Hs1 as [_ Hs1]. rewrite Ex in Hs1. inversion Hs1 as [E0|]. cbn [filter]. apply Hprev0.
      + intros f r Hf Hnf'. contradiction.
      + intros f Hf Hnf'. contradiction.
    - set (keys := group_keys (cell gb) (rows base2)) in *.
      set (fs' := match keys with [] => filter (can_agg es) fs0 | _ => fs0 end) in *.
      assert (forall d0 n, prev = Some d0 -> dget String.eqb "o"%string (td_times d0) = Some n -> (0 < n)%Z) as Hobs.
      { intros d0 n -> Hd0. destruct g as [|f0 g0]; [congruence|]. destruct (Hg f0 (or_introl eq_refl)) as (C0 & _ & p0 & bs0 & u0 & nm0 & -> & _).
        exact (pf_observations rels fs Hpf _ d0 n C0 eq_refl Hd0). }
      destruct (prev_groups ce ec L' prev gb (owner path) base1 base2 brs1 HL' Hce Hs1 Hgb1 Hobs Hb2 Hgb2) as [Ec2 Hk].
      assert (List.incl fs' fs0) as Hi'. { unfold fs'. destruct keys; [intros f Hf; apply filter_In in Hf; apply Hf | apply incl_refl]. }
      assert (NoDup fs') as Hn'. { unfold fs'. destruct keys; [apply NoDup_filter; exact Hn0 | exact Hn0]. }
      assert (forall f, In f fs0 -> ~ In f fs' -> keys = [] /\ can_agg es f = false) as Hout.
      { intros f Hf Hnf'. unfold fs' in Hnf'. destruct keys; [|contradiction]. split; [reflexivity|]. destruct (can_agg es f) eqn:Ea; [|reflexivity]. exfalso. apply Hnf'. apply filter_In. auto. }
      assert (NoDup (flat_map fnames fs')) as Hnames'. { apply (flat_names_NoDup eid); [intros f Hf; apply Hg0, Hi', Hf | exact Hn']. }
      assert (forall k, k <> VNull -> ~ In k keys -> previous T prev (e_time ec) (filter (fun c => val_eqb (owner path c) k) brs1) = []) as Hnokey.
      { intros k Hkn Hkk. specialize (Hk k Hkn). apply sees_length in Hk. cbn [filter_df rows] in Hk.
        assert (filter (fun r => val_eqb (cell gb r) k) (rows base2) = []) as E0.
        { destruct (filter _ (rows base2)) as [|x l] eqn:Ef; [reflexivity|]. exfalso. assert (In x (filter (fun r => val_eqb (cell gb r) k) (rows base2))) as Hx by (rewrite Ef; left; reflexivity).
          apply filter_In in Hx as [Hx Ek]. destruct (val_eqb_spec (cell gb x) k) as [Ek'|]; [|discriminate]. apply Hkk. apply group_keys_In. eauto. }
        rewrite E0 in Hk. cbn [List.length] in Hk. destruct (previous _ _ _ _); [reflexivity | discriminate]. }
      apply mapM_Ok_Forall2 in Hvals.
      assert (map fst vals = keys) as Ekeys.
      { clear -Hvals. induction Hvals as [|k v ks vs H _ IH]; [reflexivity|]. cbn [map]. rewrite IH. apply bind_Ok in H as (w & _ & H). injection H as <-. reflexivity. }
      assert (NoDup (map fst vals)) as Hnv by (rewrite Ekeys; apply group_keys_NoDup).
      rewrite (left_merge_unique _ _ _ _ Hnv) in Ed'.
      assert (map fst (map (fun n : string => (n, n)) (flat_map fnames fs')) = flat_map fnames fs') as Enew by (rewrite map_map; cbn [fst]; apply map_id).
      apply (Hend fs' (fun x c => match find (fun kr => val_eqb (fst kr) (cell (e_index e) x)) vals with None => VNull | Some kr => cell c (snd kr) end) _ Hi' Hn' Ed').
      + cbn [cols]. intros c. apply in_app_iff.
      + cbn [rows]. apply Forall2_map_r. apply Forall2_refl'. intros x _. split; intros c Hc.
        * apply merge_row_other. rewrite Enew. exact Hc.
        * rewrite (merge_row_new _ _ _ x c c); [reflexivity | rewrite Enew; exact Hnames' | apply in_map_iff; eauto].
      + intros f j n x r Hf Hj Hr Ek. pose proof (H0g f (Hi' f Hf)) as Hfg. rewrite Ek.
        destruct (find (fun kr => val_eqb (fst kr) (cell (e_index e) r)) vals) as [[k v]|] eqn:Efind.
        * apply find_some_key in Efind as [Hkv Ekk]. cbn [fst snd] in *. subst k.
          destruct (Forall2_In_r _ _ _ _ Hvals Hkv) as (k & Hkin & Hcomp). apply bind_Ok in Hcomp as (vs & Hvs & Hcomp). injection Hcomp as -> <-.
          apply mapM_Ok_Forall2 in Hvs. apply In_nth_error in Hf as (i & Hi).
          set (grp := filter_df (fun r0 => val_eqb (cell gb r0) (cell (e_index e) r)) base2) in *.
          destruct (combine_concat fs' fnames vs) with (i := i) (f := f) (j := j) (n := n) as (v & b & Hv & Hb & Hin); [|exact Hi|exact Hj|].
          { eapply Forall2_impl; [|exact Hvs]. intros f1 v1 _ _ H1. unfold agg_values in H1. destruct f1; try discriminate. apply bind_Ok in H1 as (args & _ & H1).
            destruct (Nat.eqb_spec (List.length (p_agg p (calc_time T p) args)) (List.length (fnames (FAgg p bs path0 uniq wh0 prev0 nm)))) as [El|]; [|discriminate]. injection H1 as <-. exact El. }
          rewrite (cell_In_unique _ n b); [|apply NoDup_combine_fst; exact Hnames' | exact Hin].
          pose proof (Forall2_nth_error _ _ _ _ _ _ Hvs Hi Hv) as Hval. cbv beta in Hval.
          destruct (Hsem f r Hfg Hr) as (p & bs & u & nm & -> & Hbs & Esem).
          unfold agg_values in Hval. rewrite (can_agg_args _ _ _ _ _ _ _ (proj1 (Hg _ Hfg))) in Hval. apply bind_Ok in Hval as (args & Hargs & Hval).
          destruct (Nat.eqb _ _); [|discriminate]. injection Hval as <-.
          pose proof (Hk (cell (e_index e) r) (Hnn r Hr)) as Hgrp. fold grp in Hgrp.
          pose proof (base_columns es T tw incl given fs Hes Hcn Hov Hwt ce L' grp _ bs args HL' Hgrp Hbs Hargs) as Eargs. subst args.
          assert (rows grp <> []) as Hne. { apply group_keys_In in Hkin as (_ & x0 & Hx0 & Ex0). intros E0. assert (In x0 (rows grp)) as Hx1; [|rewrite E0 in Hx1; destruct Hx1].
            cbn [grp filter_df rows]. apply filter_In. split; [exact Hx0|]. rewrite Ex0. destruct (val_eqb_spec (cell (e_index e) r) (cell (e_index e) r)); congruence. }
          pose proof (sees_length _ _ _ _ _ _ _ _ _ _ Hgrp) as Hlen.
          rewrite Esem. destruct (previous _ _ _ _) as [|r0 rs0]; [destruct (rows grp); [congruence | discriminate]|].
          change (calc_time T p) with (time_arg T p) in Hb. cbn [fdefault].
          rewrite (nth_map_null _ _ _ VNull) by (eapply nth_error_len; exact Hb). rewrite (nth_error_nth' _ _ _ VNull Hb). reflexivity.
        * unfold or_default. cbn [is_null]. apply (Hempty f j n r Hfg Hj Hr). apply Hnokey; [apply Hnn; exact Hr|]. rewrite <- Ekeys. apply (find_key_None fst). exact Efind.
      + intros f r Hf Hnf' Hr. destruct (Hout f Hf Hnf') as [E0 Ea]. split; [exact Ea|].
        apply filter_In in Hf as Hf1. destruct Hf1 as [Hfg Hf1]. apply existsb_exists in Hf1 as (n & Hn & _). apply In_nth_error in Hn as (j & Hj).
        apply (Hempty f j n r Hfg Hj Hr). apply Hnokey; [apply Hnn; exact Hr|]. rewrite E0. intros [].
      + intros f Hf Hnf'. apply (Hout f Hf Hnf').
  Qed.
End Value4.
