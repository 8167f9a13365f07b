(** Lemmas about add_last_time_indexes. *)
From Verif Require Import Base BaseFacts M_Schema S_Schema L_Schema M_Table M_Query M_LastTime S_LastTime.

(** ** the sort order *)
Lemma ascii_compare_trans a b c : Ascii.compare a b = Lt -> Ascii.compare b c = Lt -> Ascii.compare a c = Lt.
Proof. unfold Ascii.compare. rewrite !N.compare_lt_iff. lia. Qed.
Lemma ascii_compare_eq a b : Ascii.compare a b = Eq -> a = b.
Proof. apply Ascii.compare_eq_iff. Qed.

Definition str_leb (x y : string) : bool := match String.compare x y with Gt => false | _ => true end.

Lemma str_leb_total x y : str_leb x y = true \/ str_leb y x = true.
Proof.
  unfold str_leb. rewrite (String.compare_antisym y x). destruct (String.compare x y); simpl; auto.
Qed.

Lemma ascii_compare_refl a : Ascii.compare a a = Eq.
Proof. unfold Ascii.compare. apply N.compare_refl. Qed.

Lemma str_leb_trans x y z : str_leb x y = true -> str_leb y z = true -> str_leb x z = true.
Proof.
  unfold str_leb. revert y z; induction x as [|a x IH]; intros [|b y] [|c z]; simpl; try congruence; auto.
  destruct (Ascii.compare a b) eqn:E1; [apply ascii_compare_eq in E1 as ->| |congruence].
  - destruct (Ascii.compare b c) eqn:E2; auto. apply IH.
  - intros _. destruct (Ascii.compare b c) eqn:E2; [apply ascii_compare_eq in E2 as ->; rewrite E1; auto| |congruence].
    rewrite (ascii_compare_trans _ _ _ E1 E2). auto.
Qed.

Lemma str_leb_antisym x y : str_leb x y = true -> str_leb y x = true -> x = y.
Proof.
  unfold str_leb. rewrite (String.compare_antisym y x).
  destruct (String.compare x y) eqn:E; simpl; try congruence. intros _ _. apply String.compare_eq_iff in E. congruence.
Qed.

Lemma val_leb_refl a : val_leb a a = true.
Proof.
  destruct a; simpl; auto; [apply Z.leb_refl | destruct b; reflexivity | destruct (str_leb_total s s); assumption].
Qed.

Lemma val_leb_total a b : val_leb a b = true \/ val_leb b a = true.
Proof.
  destruct a, b; simpl; auto; try (rewrite ?Z.leb_le; lia).
  - destruct b0, b; auto.
  - apply str_leb_total.
Qed.

Lemma val_leb_trans a b c : val_leb a b = true -> val_leb b c = true -> val_leb a c = true.
Proof.
  destruct a, b, c; simpl; try congruence; try (rewrite ?Z.leb_le; lia); auto.
  - destruct b, b0, b1; auto.
  - apply str_leb_trans.
Qed.

Lemma val_leb_antisym a b : val_leb a b = true -> val_leb b a = true -> a = b.
Proof.
  destruct a, b; simpl; try congruence; rewrite ?Z.leb_le.
  - intros; f_equal; lia.
  - destruct b0, b; simpl; congruence.
  - intros H1 H2; f_equal; apply str_leb_antisym; assumption.
Qed.

Lemma lt_leb_snd a b : lt_leb a b = true -> val_leb (snd a) (snd b) = true.
Proof.
  unfold lt_leb. destruct (val_eqb_spec (snd a) (snd b)) as [->|Hn]; auto using val_leb_refl.
Qed.

Lemma lt_leb_total a b : lt_leb a b = true \/ lt_leb b a = true.
Proof.
  unfold lt_leb. destruct (val_eqb_spec (snd a) (snd b)) as [->|Hn].
  - rewrite val_eqb_refl. apply val_leb_total.
  - destruct (val_eqb_spec (snd b) (snd a)); [congruence|]. apply val_leb_total.
Qed.

Lemma lt_leb_trans a b c : lt_leb a b = true -> lt_leb b c = true -> lt_leb a c = true.
Proof.
  intros H1 H2. pose proof (lt_leb_snd _ _ H1) as S1. pose proof (lt_leb_snd _ _ H2) as S2.
  unfold lt_leb in *. destruct (val_eqb_spec (snd a) (snd c)) as [E|Hn].
  - rewrite E in *. assert (snd b = snd c) as Hbc by (apply val_leb_antisym; assumption).
    rewrite Hbc in *. rewrite val_eqb_refl in *. eapply val_leb_trans; eassumption.
  - eapply val_leb_trans; eassumption.
Qed.

(** ** latest entry per label *)
Lemma last_for_app i l1 l2 :
  last_for i (l1 ++ l2) = fold_left (fun acc p => if val_eqb (fst p) i then snd p else acc) l2 (last_for i l1).
Proof. unfold last_for. apply fold_left_app. Qed.

Lemma last_for_sorted i l :
  StronglySorted (fun x y => lt_leb x y = true) l ->
  (last_for i l = VNull /\ forall v, ~ In (i, v) l) \/
  (In (i, last_for i l) l /\ forall v, In (i, v) l -> val_leb v (last_for i l) = true).
Proof.
  induction l as [|[j w] l IH] using rev_ind; intros Hs.
  - left; split; [reflexivity | intros v []].
  - assert (StronglySorted (fun x y => lt_leb x y = true) l /\ Forall (fun x => lt_leb x (j, w) = true) l) as [Hs' Hf].
    { clear IH. induction l as [|a l IHl]; simpl in Hs; [split; constructor|].
      inversion Hs as [|? ? Hs1 Hf1]; subst. destruct (IHl Hs1) as [H1 H2].
      apply Forall_app in Hf1 as [Hfa Hfb]. inversion Hfb; subst.
      split; constructor; assumption. }
    rewrite last_for_app. simpl. destruct (val_eqb_spec j i) as [->|Hn].
    + right. split; [apply in_or_app; right; left; reflexivity|].
      intros v Hv. apply in_app_or in Hv as [Hv|[He|[]]].
      * rewrite Forall_forall in Hf. apply Hf in Hv. apply lt_leb_snd in Hv. exact Hv.
      * injection He as ->. apply val_leb_refl.
    + destruct (IH Hs') as [[H1 H2]|[H1 H2]].
      * left; split; [exact H1|]. intros v Hv. apply in_app_or in Hv as [Hv|[He|[]]]; [eapply H2; exact Hv | congruence].
      * right; split; [apply in_or_app; left; exact H1|].
        intros v Hv. apply in_app_or in Hv as [Hv|[He|[]]]; [apply H2; exact Hv | congruence].
Qed.

Lemma last_for_isort i l :
  let v0 := last_for i (isort lt_leb l) in
  (v0 = VNull /\ forall v, ~ In (i, v) l) \/
  (In (i, v0) l /\ forall v, In (i, v) l -> val_leb v v0 = true).
Proof.
  cbv zeta.
  destruct (last_for_sorted i (isort lt_leb l)) as [[H1 H2]|[H1 H2]].
  - apply isort_sorted; [apply lt_leb_total | apply lt_leb_trans].
  - left; split; [exact H1|]. intros v Hv. apply (H2 v). eapply Permutation_in; [symmetry; apply isort_perm | exact Hv].
  - right; split; [eapply Permutation_in; [apply isort_perm | exact H1]|].
    intros v Hv. apply H2. eapply Permutation_in; [symmetry; apply isort_perm | exact Hv].
Qed.

Lemma subset_str_spec a b : subset_str a b = true <-> incl a b.
Proof.
  unfold subset_str. rewrite forallb_forall. split; intros H x Hx.
  - apply mem_str_In; apply H; exact Hx.
  - apply mem_str_In; apply H; exact Hx.
Qed.

Lemma enqueue_missing_In chs explored q x :
  In x (enqueue_missing chs explored q) <-> In x q \/ (In x chs /\ ~ In x explored).
Proof.
  unfold enqueue_missing. revert q; induction chs as [|c chs IH]; intros q; simpl; [tauto|].
  rewrite IH. destruct (mem_str c explored) eqn:E1; simpl.
  - apply mem_str_In in E1. split; [tauto|]. intros [H|[[->|H] Hn]]; tauto.
  - apply mem_str_nIn in E1. destruct (mem_str c q) eqn:E2.
    + apply mem_str_In in E2. split; [tauto|]. intros [H|[[->|H] Hn]]; tauto.
    + rewrite in_app_iff; simpl. split; [|tauto]. intros [[H|[->|[]]]|H]; tauto.
Qed.

Lemma NoDup_snoc {A} (l : list A) x : NoDup l -> ~ In x l -> NoDup (l ++ [x]).
Proof.
  intros H Hn. apply (Permutation_NoDup (l := x :: l)); [apply Permutation_cons_append | constructor; assumption].
Qed.

Lemma enqueue_missing_NoDup chs explored q : NoDup q -> NoDup (enqueue_missing chs explored q).
Proof.
  unfold enqueue_missing. revert q; induction chs as [|c chs IH]; intros q Hq; simpl; [exact Hq|].
  apply IH. destruct (mem_str c explored || mem_str c q) eqn:E; [exact Hq|].
  apply orb_false_elim in E as [_ E]. apply mem_str_nIn in E. apply NoDup_snoc; assumption.
Qed.

Lemma enqueue_missing_id chs explored q :
  (forall c, In c chs -> In c explored \/ In c q) -> enqueue_missing chs explored q = q.
Proof.
  unfold enqueue_missing. induction chs as [|c chs IH]; intros H; simpl; [reflexivity|].
  assert (mem_str c explored || mem_str c q = true) as ->.
  { destruct (H c) as [Hc|Hc]; [left; reflexivity| |]; apply mem_str_In in Hc; rewrite Hc; [reflexivity | apply orb_true_r]. }
  apply IH. intros; apply H; right; assumption.
Qed.

(** ** what the loop maintains *)
Section Lti.
  Variable es : entityset.
  Let rels := es_rels es.
  Let ids := map e_id (es_ents es).
  Hypothesis Hwf : wf_es es.
  Hypothesis Hacyclic : forall a, ~ reaches_cycle r_pe r_ce rels a.
  Hypothesis Hsingle : forall r1 r2, In r1 rels -> In r2 rels -> r_pe r1 = r_pe r2 -> r_ce r1 = r_ce r2 -> r1 = r2.
  Hypothesis Htimes : forall e ti r, In e (es_ents es) -> e_time e = Some ti -> In r (rows (e_df e)) ->
    cell ti r = VNull \/ exists t, cell ti r = VNum t /\ (sentinel < t)%Z.
  Hypothesis Hnomix : forall rel c r1 r2 t, In rel rels -> In c (es_ents es) -> e_id c = r_ce rel ->
    In r1 (rows (e_df c)) -> In r2 (rows (e_df c)) -> cell (r_cv rel) r1 = cell (r_cv rel) r2 ->
    event es (r_ce rel) (cell (e_index c) r1) t -> exists t', event es (r_ce rel) (cell (e_index c) r2) t'.

  Lemma event_sentinel e i t : event es e i t -> (sentinel < t)%Z.
  Proof.
    induction 1 as [e ti r t He Hti Hr Hc|rel c r t Hrel Hc Hid Hr Hev IH]; [|exact IH].
    destruct (Htimes e ti r He Hti Hr) as [H|(t' & H & Hlt)]; congruence.
  Qed.

  Lemma ent_unique e1 e2 : In e1 (es_ents es) -> In e2 (es_ents es) -> e_id e1 = e_id e2 -> e1 = e2.
  Proof.
    destruct Hwf as [Hnd _]. revert Hnd. generalize (es_ents es). intros l.
    induction l as [|a l IH]; simpl; [tauto|]. intros Hnd H1 H2 He. inversion Hnd as [|? ? Hni Hnd']; subst.
    destruct H1 as [->|H1], H2 as [->|H2]; auto.
    - exfalso; apply Hni; rewrite He; apply in_map; exact H2.
    - exfalso; apply Hni; rewrite <- He; apply in_map; exact H1.
  Qed.

  Lemma es_get_ok e : In e (es_ents es) -> es_get es (e_id e) = Ok e.
  Proof.
    intros H. unfold es_get.
    destruct (find (fun e0 => String.eqb (e_id e0) (e_id e)) (es_ents es)) as [e'|] eqn:E.
    - apply find_some in E as [E1 E2]. apply String.eqb_eq in E2. f_equal. apply ent_unique; auto.
    - exfalso. apply (find_none _ _ E) in H. rewrite String.eqb_refl in H. discriminate.
  Qed.

  Lemma ids_ent x : In x ids -> exists e, In e (es_ents es) /\ e_id e = x.
  Proof. unfold ids. rewrite in_map_iff. intros (e & H1 & H2). eauto. Qed.

  (** a series for entity [e] that is between its own times and its last times *)
  Definition J (e : entity) (s : series) : Prop :=
    map fst s = map (cell (e_index e)) (rows (e_df e)) /\
    forall i v, In (i, v) s ->
      (v = VNull \/ exists t, v = VNum t /\ event es (e_id e) i t) /\
      (forall ti r t, e_time e = Some ti -> In r (rows (e_df e)) -> cell (e_index e) r = i -> cell ti r = VNum t ->
         exists t', v = VNum t' /\ (t <= t')%Z).

  Definition correct (e : entity) (s : series) : Prop :=
    map fst s = map (cell (e_index e)) (rows (e_df e)) /\
    forall i v, In (i, v) s -> is_last_time es (e_id e) i v.

  Lemma correct_J e s : In e (es_ents es) -> correct e s -> J e s.
  Proof.
    intros He [H1 H2]. split; [exact H1|]. intros i v Hiv. apply H2 in Hiv as [[-> Hn]|(t & -> & Ht & Hm)].
    - split; [left; reflexivity|]. intros ti r t Hti Hr Hi Hc. exfalso. apply (Hn t). rewrite <- Hi.
      eapply event_own; eassumption.
    - split; [right; eauto|]. intros ti r t' Hti Hr Hi Hc. exists t; split; [reflexivity|]. apply Hm. rewrite <- Hi.
      eapply event_own; eassumption.
  Qed.

  Lemma row_by_index e r1 r2 : In e (es_ents es) -> In r1 (rows (e_df e)) -> In r2 (rows (e_df e)) ->
    cell (e_index e) r1 = cell (e_index e) r2 -> r1 = r2.
  Proof.
    intros He. destruct Hwf as (_ & _ & Hwe & _). destruct (Hwe e He) as (_ & _ & _ & _ & Hnd).
    revert Hnd. generalize (rows (e_df e)). intros l. induction l as [|a l IH]; simpl; [tauto|].
    intros Hnd H1 H2 Heq. inversion Hnd as [|? ? Hni Hnd']; subst.
    destruct H1 as [->|H1], H2 as [->|H2]; auto.
    - exfalso; apply Hni; rewrite Heq; apply in_map; exact H2.
    - exfalso; apply Hni; rewrite <- Heq; apply in_map; exact H1.
  Qed.

  Lemma own_J e : In e (es_ents es) -> J e (own_lti e).
  Proof.
    intros He. split.
    - unfold own_lti. rewrite map_map. reflexivity.
    - intros i v Hiv. unfold own_lti in Hiv. apply in_map_iff in Hiv as (r & Hr & Hin). injection Hr as <- <-.
      destruct (e_time e) as [ti|] eqn:Eti.
      + split.
        * destruct (Htimes e ti r He Eti Hin) as [H|(t & H & _)]; [left; exact H|].
          right. exists t. split; [exact H|]. eapply event_own; eassumption.
        * intros ti' r' t Hti Hr' Hi Hc. injection Hti as <-.
          assert (r' = r) as -> by (apply (row_by_index e); assumption). exists t. split; [exact Hc | lia].
      + split; [left; reflexivity|]. intros; discriminate.
  Qed.

  Lemma lti_children_In p c : In c (lti_children rels p) <-> exists r, In r rels /\ r_pe r = p /\ r_ce r = c.
  Proof.
    unfold lti_children. rewrite in_map_iff. split.
    - intros (r & H1 & H2). apply filter_In in H2 as [H2 H3]. apply String.eqb_eq in H3. eauto.
    - intros (r & H1 & H2 & H3). exists r; split; [exact H3|]. apply filter_In; split; [exact H1|].
      apply String.eqb_eq; exact H2.
  Qed.

  Lemma child_var_single r : In r rels -> child_var rels (r_pe r) (r_ce r) = Some (r_cv r).
  Proof.
    intros Hr. unfold child_var.
    assert (forall l acc, incl l rels ->
      fold_left (fun acc r0 => if String.eqb (r_pe r0) (r_pe r) && String.eqb (r_ce r0) (r_ce r)
                               then Some (r_cv r0) else acc) l acc
      = if existsb (rel_eqb r) l then Some (r_cv r) else acc) as H.
    { induction l as [|a l IH]; intros acc Hl; simpl; [reflexivity|].
      assert (In a rels) as Ha by (apply Hl; left; reflexivity).
      rewrite IH by (intros x Hx; apply Hl; right; exact Hx).
      destruct (String.eqb_spec (r_pe a) (r_pe r)) as [E1|E1]; simpl.
      - destruct (String.eqb_spec (r_ce a) (r_ce r)) as [E2|E2]; simpl.
        + assert (a = r) as -> by (apply Hsingle; assumption).
          destruct (rel_eqb_spec r r); [|congruence]. simpl. destruct (existsb _ _); reflexivity.
        + destruct (rel_eqb_spec r a); [congruence|]. reflexivity.
      - destruct (rel_eqb_spec r a); [congruence|]. reflexivity. }
    rewrite (H rels None (incl_refl _)).
    assert (existsb (rel_eqb r) rels = true) as ->; [|reflexivity].
    apply existsb_exists. exists r. split; [exact Hr|]. destruct (rel_eqb_spec r r); congruence.
  Qed.

  Lemma series_lookup e s r : In e (es_ents es) -> map fst s = map (cell (e_index e)) (rows (e_df e)) ->
    In r (rows (e_df e)) -> In (cell (e_index e) r, lti_at s (cell (e_index e) r)) s.
  Proof.
    intros He Hs Hr. unfold lti_at.
    destruct (dget val_eqb (cell (e_index e) r) s) as [v|] eqn:E.
    - apply (dget_In val_eqb val_eqb_spec) in E. exact E.
    - exfalso. apply (dget_None val_eqb val_eqb_spec) in E. apply E. rewrite Hs. apply in_map; exact Hr.
  Qed.

  (** events coming through the children in [done] *)
  Definition covered (p : entity) (s : series) (done : list string) : Prop :=
    forall rel c r t i v, In rel rels -> r_pe rel = e_id p -> In (r_ce rel) done ->
      In c (es_ents es) -> e_id c = r_ce rel -> In r (rows (e_df c)) ->
      event es (r_ce rel) (cell (e_index c) r) t -> cell (r_cv rel) r = i -> In (i, v) s ->
      exists t', v = VNum t' /\ (t <= t')%Z.

  Lemma max_time_spec a b :
    (a = VNull \/ exists t, a = VNum t /\ (sentinel < t)%Z) ->
    (b = VNull \/ exists t, b = VNum t /\ (sentinel < t)%Z) ->
    match a, b with
    | VNum x, VNum y => max_time a b = VNum (Z.max x y)
    | VNum x, _ => max_time a b = VNum x
    | _, VNum y => max_time a b = VNum y
    | _, _ => max_time a b = VNull
    end.
  Proof.
    intros [->|(x & -> & Hx)] [->|(y & -> & Hy)]; unfold max_time; cbn [fill].
    - rewrite Z.max_id, Z.eqb_refl. reflexivity.
    - rewrite Z.max_r by lia. destruct (Z.eqb_spec y sentinel); [lia | reflexivity].
    - rewrite Z.max_l by lia. destruct (Z.eqb_spec x sentinel); [lia | reflexivity].
    - destruct (Z.eqb_spec (Z.max x y) sentinel); [lia | reflexivity].
  Qed.

  Lemma merge_child_ok lt p s done rel c cs :
    In p (es_ents es) -> J p s -> covered p s done ->
    In rel rels -> r_pe rel = e_id p -> In c (es_ents es) -> e_id c = r_ce rel ->
    dget String.eqb (r_ce rel) lt = Some cs -> correct c cs ->
    exists s', merge_child es lt (e_id p) s (r_ce rel) = Ok s' /\ J p s' /\ covered p s' (r_ce rel :: done).
  Proof.
    intros Hp HJ Hcov Hrel Hpe Hc Hce Hlt Hcc.
    unfold merge_child. rewrite Hlt.
    assert (es_get es (r_ce rel) = Ok c) as Eg by (rewrite <- Hce; apply es_get_ok; exact Hc).
    rewrite Eg. cbn [bind].
    change (es_rels es) with rels. rewrite <- Hpe, (child_var_single rel Hrel).
    assert (In (r_cv rel) (cols (e_df c))) as Hcol.
    { destruct Hwf as (_ & _ & _ & Hr). destruct (Hr rel Hrel) as [_ (c' & Hc' & Hid & Hcv)].
      assert (c' = c) as -> by (apply ent_unique; congruence). exact Hcv. }
    unfold check_col. apply mem_str_In in Hcol. rewrite Hcol. cbn [bind].
    set (l := map (fun r => (cell (r_cv rel) r, lti_at cs (cell (e_index c) r))) (rows (e_df c))).
    eexists; split; [reflexivity|].
    destruct HJ as [HJ1 HJ2]. destruct Hcc as [Hcs1 Hcs2].
    (* the entries for a label *)
    assert (forall i, let v0 := last_for i (isort lt_leb l) in
       (v0 = VNull \/ exists t, v0 = VNum t /\ event es (e_id p) i t) /\
       (forall r t, In r (rows (e_df c)) -> cell (r_cv rel) r = i -> event es (r_ce rel) (cell (e_index c) r) t ->
          exists t', v0 = VNum t' /\ (t <= t')%Z)) as Hlast.
    { intros i v0. destruct (last_for_isort i l) as [[H1 H2]|[H1 H2]]; fold v0 in H1, H2.
      - split; [left; exact H1|]. intros r t Hr Hi Hev. exfalso.
        apply (H2 (lti_at cs (cell (e_index c) r))). unfold l. apply in_map_iff. exists r. split; [congruence | exact Hr].
      - unfold l in H1. apply in_map_iff in H1 as (r0 & Hr0 & Hin0). injection Hr0 as Hi0 Hv0.
        pose proof (Hcs2 _ _ (series_lookup c cs r0 Hc Hcs1 Hin0)) as HL0.
        rewrite Hce in HL0.
        split.
        + destruct HL0 as [[HL0 _]|(t0 & HL0 & Hev0 & _)]; [left; congruence|].
          right. exists t0. split; [congruence|]. rewrite <- Hpe, <- Hi0. eapply event_child; eassumption.
        + intros r t Hr Hi Hev.
          assert (exists t', event es (r_ce rel) (cell (e_index c) r0) t') as (t1 & Ht1).
          { eapply (Hnomix rel c r r0); try eassumption. congruence. }
          destruct HL0 as [[_ HL0]|(t0 & HL0 & Hev0 & _)]; [exfalso; apply (HL0 t1); exact Ht1|].
          exists t0. split; [congruence|].
          pose proof (Hcs2 _ _ (series_lookup c cs r Hc Hcs1 Hr)) as HL. rewrite Hce in HL.
          destruct HL as [[_ HL]|(t2 & HL & Hev2 & Hm2)]; [exfalso; apply (HL t); exact Hev|].
          assert (val_leb (lti_at cs (cell (e_index c) r)) v0 = true) as Hle.
          { apply H2. unfold l. apply in_map_iff. exists r. split; [congruence | exact Hr]. }
          rewrite HL in Hle. rewrite <- Hv0, HL0 in Hle. simpl in Hle. apply Z.leb_le in Hle.
          specialize (Hm2 t Hev). lia. }
    split.
    - split.
      + rewrite map_map. simpl. exact HJ1.
      + intros i v Hiv. apply in_map_iff in Hiv as ([j w] & Heq & Hin). cbn [fst snd] in Heq. injection Heq as -> <-.
        destruct (HJ2 _ _ Hin) as [Hw1 Hw2]. destruct (Hlast i) as [Hl1 _].
        assert (Hm := max_time_spec (last_for i (isort lt_leb l)) w).
        assert (forall v, (v = VNull \/ exists t, v = VNum t /\ event es (e_id p) i t) ->
                          v = VNull \/ exists t, v = VNum t /\ (sentinel < t)%Z) as Hsent.
        { intros v [->|(t & -> & Ht)]; [left; reflexivity | right; exists t; split; [reflexivity|]].
          eapply event_sentinel; exact Ht. }
        specialize (Hm (Hsent _ Hl1) (Hsent _ Hw1)).
        destruct Hl1 as [Hl1|(t1 & Hl1 & Hev1)]; rewrite Hl1 in *;
          destruct Hw1 as [->|(t2 & -> & Hev2)]; rewrite Hm.
        * split; [left; reflexivity|]. exact Hw2.
        * split; [right; eauto|]. exact Hw2.
        * split; [right; eauto|]. intros ti r t A B C D. destruct (Hw2 ti r t A B C D) as (? & ? & _). discriminate.
        * split.
          { right. exists (Z.max t1 t2). split; [reflexivity|]. destruct (Z.max_spec t1 t2) as [[_ ->]|[_ ->]]; assumption. }
          { intros ti r t A B C D. destruct (Hw2 ti r t A B C D) as (t' & E & Hle). injection E as <-.
            exists (Z.max t1 t2). split; [reflexivity | lia]. }
    - intros rel' c' r t i v Hrel' Hpe' Hdone Hc' Hce' Hr Hev Hi Hiv.
      apply in_map_iff in Hiv as ([j w] & Heq & Hin). cbn [fst snd] in Heq. injection Heq as -> <-.
      destruct (HJ2 _ _ Hin) as [Hw1 Hw2]. destruct (Hlast i) as [Hl1 Hl2].
      assert (forall v, (v = VNull \/ exists t, v = VNum t /\ event es (e_id p) i t) ->
                          v = VNull \/ exists t, v = VNum t /\ (sentinel < t)%Z) as Hsent.
      { intros v [->|(t3 & -> & Ht)]; [left; reflexivity | right; exists t3; split; [reflexivity|]].
        eapply event_sentinel; exact Ht. }
      assert (Hm := max_time_spec (last_for i (isort lt_leb l)) w (Hsent _ Hl1) (Hsent _ Hw1)).
      destruct Hdone as [Hdone|Hdone].
      + assert (rel' = rel) as -> by (apply Hsingle; congruence).
        assert (c' = c) as -> by (apply ent_unique; congruence).
        destruct (Hl2 r t Hr Hi Hev) as (t1 & E1 & Hle). rewrite E1 in *.
        destruct Hw1 as [->|(t2 & -> & _)]; rewrite Hm; eexists; (split; [reflexivity | lia]).
      + destruct (Hcov rel' c' r t i w Hrel' Hpe' Hdone Hc' Hce' Hr Hev Hi Hin) as (t2 & -> & Hle).
        destruct Hl1 as [Hl1|(t1 & Hl1 & _)]; rewrite Hl1 in *; rewrite Hm; eexists; (split; [reflexivity | lia]).
  Qed.

  Lemma fold_children_ok lt p chs : forall s done,
    In p (es_ents es) -> J p s -> covered p s done ->
    incl chs (lti_children rels (e_id p)) ->
    (forall c, In c chs -> exists ce cs, In ce (es_ents es) /\ e_id ce = c /\ dget String.eqb c lt = Some cs /\ correct ce cs) ->
    exists s', foldM (merge_child es lt (e_id p)) chs s = Ok s' /\ J p s' /\ covered p s' (rev chs ++ done).
  Proof.
    induction chs as [|c chs IH]; intros s done Hp HJ Hcov Hincl Hch; cbn [foldM].
    - exists s. split; [reflexivity|]. split; [exact HJ | exact Hcov].
    - destruct (Hch c) as (ce & cs & Hce & Hid & Hlt & Hcc); [left; reflexivity|].
      assert (In c (lti_children rels (e_id p))) as Hc by (apply Hincl; left; reflexivity).
      apply lti_children_In in Hc as (rel & Hrel & Hpe & Hrce). subst c.
      rewrite <- Hrce in *.
      destruct (merge_child_ok lt p s done rel ce cs) as (s1 & E1 & HJ1 & Hcov1); try assumption; try congruence.
      rewrite E1. cbn [bind].
      destruct (IH s1 (r_ce rel :: done)) as (s2 & E2 & HJ2 & Hcov2); try assumption.
      { intros x Hx; apply Hincl; right; exact Hx. }
      { intros x Hx; apply Hch; right; exact Hx. }
      exists s2. split; [exact E2|]. split; [exact HJ2|]. simpl. rewrite <- app_assoc. exact Hcov2.
  Qed.

  Lemma J_covered_correct p s : In p (es_ents es) -> J p s -> covered p s (lti_children rels (e_id p)) -> correct p s.
  Proof.
    intros Hp [HJ1 HJ2] Hcov. split; [exact HJ1|]. intros i v Hiv. destruct (HJ2 _ _ Hiv) as [Hv1 Hv2].
    assert (forall t, event es (e_id p) i t -> exists t', v = VNum t' /\ (t <= t')%Z) as Hup.
    { intros t Hev. inversion Hev as [e ti r t0 He Hti Hr Hc E1 E2 E3|rel c r t0 Hrel Hc Hid Hr Hev' E1 E2 E3]; subst.
      - assert (e = p) as -> by (apply ent_unique; assumption). eapply Hv2; try eassumption. reflexivity.
      - eapply (Hcov rel c r t); try eassumption; try reflexivity. apply lti_children_In. eauto. }
    destruct Hv1 as [->|(t & -> & Hev)].
    - left. split; [reflexivity|]. intros t Ht. destruct (Hup t Ht) as (? & ? & _). discriminate.
    - right. exists t. split; [reflexivity|]. split; [exact Hev|].
      intros t' Ht'. destruct (Hup t' Ht') as (t2 & E & Hle). congruence.
  Qed.

  (** *** invariant and termination *)
  Variable to_explore : list string.
  Variable lt0 : list (string * series).

  Record Inv (lt : list (string * series)) (queue explored : list string) : Prop := {
    i_nd : NoDup queue;
    i_q : incl queue ids;
    i_x : incl explored ids;
    i_dis : forall x, In x queue -> ~ In x explored;
    i_to : forall x, In x to_explore -> In x explored \/ In x queue;
    i_J : forall e s, In e (es_ents es) -> dget String.eqb (e_id e) lt = Some s -> J e s;
    i_c : forall e, In e (es_ents es) -> In (e_id e) explored ->
            exists s, dget String.eqb (e_id e) lt = Some s /\ correct e s;
    i_cl : forall x, In x explored -> incl (lti_children rels x) explored;
    i_desc : forall x, In x queue -> exists y p, In y to_explore /\ backward_chain rels y p x;
    i_un : forall x, ~ In x queue -> ~ In x explored -> dget String.eqb x lt = dget String.eqb x lt0
  }.

  Definition ready (explored : list string) (x : string) : Prop := incl (lti_children rels x) explored.
  Definition missing (queue explored : list string) (x : string) : Prop :=
    exists c, In c (lti_children rels x) /\ ~ In c explored /\ ~ In c queue.
  Definition productive queue explored x : Prop := ready explored x \/ missing queue explored x.

  Lemma productive_dec queue explored x :
    productive queue explored x \/ exists c, In c (lti_children rels x) /\ ~ In c explored /\ In c queue.
  Proof.
    unfold productive, ready, missing.
    induction (lti_children rels x) as [|c l IH]; [left; left; intros y []|].
    destruct (in_dec string_dec c explored) as [H1|H1].
    - destruct IH as [[IH|(c' & A & B)]|(c' & A & B)].
      + left; left. intros y [<-|Hy]; auto.
      + left; right. exists c'. split; [right; exact A | exact B].
      + right. exists c'. split; [right; exact A | exact B].
    - destruct (in_dec string_dec c queue) as [H2|H2].
      + right. exists c. split; [left; reflexivity | auto].
      + left; right. exists c. split; [left; reflexivity | auto].
  Qed.

  Lemma exists_productive queue explored x :
    In x queue -> exists y, In y queue /\ productive queue explored y.
  Proof.
    assert (forall n x, In x queue -> (exists y, In y queue /\ productive queue explored y) \/
                              exists p b, backward_chain rels x p b /\ List.length p = n) as H.
    { induction n as [|n IH]; intros y Hy; [right; exists [], y; split; [constructor | reflexivity]|].
      destruct (productive_dec queue explored y) as [H|(c & H1 & H2 & H3)]; [left; eauto|].
      destruct (IH c H3) as [H|(p & b & H & Hlen)]; [left; exact H|].
      right. apply lti_children_In in H1 as (r & Hr & Hp & Hc). exists (r :: p), b.
      split; [|simpl; congruence]. apply chain_cons_inv. split; [congruence|]. split; [exact Hr|]. rewrite Hc; exact H. }
    intros Hx. destruct (H (S (List.length rels)) x Hx) as [Hp|(p & b & Hc & Hlen)]; [exact Hp|].
    exfalso. apply (Hacyclic x). eapply chain_long_cycle; [exact Hc | lia].
  Qed.

  Lemma no_self_child x : ~ In x (lti_children rels x).
  Proof.
    intros H. apply lti_children_In in H as (r & Hr & Hp & Hc). apply (Hacyclic x).
    exists x, [], [r]. split; [constructor|]. split; [discriminate|].
    apply chain_cons_inv. split; [congruence|]. split; [exact Hr|]. rewrite Hc. constructor.
  Qed.

  Lemma children_ids x : incl (lti_children rels x) ids.
  Proof.
    intros c Hc. apply lti_children_In in Hc as (r & Hr & _ & <-).
    destruct Hwf as (_ & _ & _ & H). destruct (H r Hr) as [_ (c & H1 & H2 & _)].
    unfold ids. rewrite <- H2. apply in_map; exact H1.
  Qed.

  (** lt1 of the model *)
  Definition own_set (e : entity) (lt : list (string * series)) : list (string * series) :=
    match dget String.eqb (e_id e) lt with
    | None => dset String.eqb (e_id e) (own_lti e) lt
    | Some _ => lt
    end.

  Lemma own_set_other e lt x : x <> e_id e -> dget String.eqb x (own_set e lt) = dget String.eqb x lt.
  Proof.
    intros Hn. unfold own_set. destruct (dget _ _ lt) eqn:E; [reflexivity|].
    apply (dget_dset_other String.eqb String.eqb_spec). exact Hn.
  Qed.

  Lemma own_set_self e lt :
    dget String.eqb (e_id e) (own_set e lt) =
    Some (match dget String.eqb (e_id e) lt with Some s => s | None => own_lti e end).
  Proof.
    unfold own_set. destruct (dget String.eqb (e_id e) lt) eqn:E; [exact E|].
    apply (dget_dset_same String.eqb String.eqb_spec).
  Qed.

  Lemma inv_step_wait lt eid queue explored e :
    Inv lt (eid :: queue) explored -> In e (es_ents es) -> e_id e = eid ->
    Inv (own_set e lt) (enqueue_missing (lti_children rels eid) explored queue ++ [eid]) explored.
  Proof.
    intros I He Hid. destruct I as [I1 I2 I3 I4 I5 I6 I7 I8 I9 I10].
    inversion I1 as [|? ? Hni Hnd]; subst.
    assert (forall x, In x (enqueue_missing (lti_children rels (e_id e)) explored queue ++ [e_id e]) <->
              In x queue \/ x = e_id e \/ (In x (lti_children rels (e_id e)) /\ ~ In x explored)) as Hin.
    { intros x. rewrite in_app_iff, enqueue_missing_In. simpl. intuition. }
    constructor.
    - apply NoDup_snoc; [apply enqueue_missing_NoDup; exact Hnd|]. rewrite enqueue_missing_In.
      intros [H|[H _]]; [contradiction|]. apply (no_self_child _ H).
    - intros x Hx. apply Hin in Hx as [Hx|[->|[Hx _]]].
      + apply I2; right; exact Hx.
      + apply I2; left; reflexivity.
      + apply (children_ids _ x Hx).
    - exact I3.
    - intros x Hx. apply Hin in Hx as [Hx|[->|[_ Hx]]]; [apply I4; right; exact Hx | apply I4; left; reflexivity | exact Hx].
    - intros x Hx. destruct (I5 x Hx) as [H|[<-|H]]; [left; exact H| |]; right; apply Hin; tauto.
    - intros e' s He' Hs. destruct (string_dec (e_id e') (e_id e)) as [E|Hn].
      + assert (e' = e) as -> by (apply ent_unique; assumption). rewrite own_set_self in Hs. injection Hs as <-.
        destruct (dget String.eqb (e_id e) lt) eqn:E'; [apply I6; assumption | apply own_J; exact He].
      + rewrite own_set_other in Hs by exact Hn. apply I6; assumption.
    - intros e' He' Hx. destruct (I7 e' He' Hx) as (s & H1 & H2). exists s. split; [|exact H2].
      rewrite own_set_other; [exact H1|]. intros E. apply (I4 (e_id e)); [left; reflexivity|]. rewrite <- E; exact Hx.
    - exact I8.
    - intros x Hx. apply Hin in Hx as [Hx|[->|[Hx _]]].
      + apply I9; right; exact Hx.
      + apply I9; left; reflexivity.
      + destruct (I9 (e_id e)) as (y & p & Hy & Hp); [left; reflexivity|].
        apply lti_children_In in Hx as (r & Hr & Hpe & <-).
        exists y, (p ++ [r]). split; [exact Hy|]. apply chain_app. exists (e_id e). split; [exact Hp|].
        apply chain_cons_inv. split; [congruence|]. split; [exact Hr | constructor].
    - intros x Hx1 Hx2. rewrite Hin in Hx1.
      rewrite own_set_other by tauto. apply I10; [|exact Hx2]. intros [<-|H]; tauto.
  Qed.

  Lemma inv_step_done lt eid queue explored e :
    Inv lt (eid :: queue) explored -> In e (es_ents es) -> e_id e = eid -> ready explored eid ->
    exists s, foldM (merge_child es (own_set e lt) eid) (lti_children rels eid)
                (match dget String.eqb eid (own_set e lt) with Some s => s | None => [] end) = Ok s /\
              Inv (dset String.eqb eid s (own_set e lt)) queue (eid :: explored).
  Proof.
    intros I He Hid Hready. destruct I as [I1 I2 I3 I4 I5 I6 I7 I8 I9 I10].
    inversion I1 as [|? ? Hni Hnd]; subst.
    rewrite own_set_self.
    set (s0 := match dget String.eqb (e_id e) lt with Some s => s | None => own_lti e end).
    assert (J e s0) as HJ0.
    { unfold s0. destruct (dget String.eqb (e_id e) lt) eqn:E; [apply I6; assumption | apply own_J; exact He]. }
    destruct (fold_children_ok (own_set e lt) e (lti_children rels (e_id e)) s0 []) as (s & Es & HJs & Hcov);
      [exact He | exact HJ0 | | apply incl_refl | |].
    { intros rel c r t i v _ _ []. }
    { intros c Hc. destruct (ids_ent c (children_ids _ c Hc)) as (ce & Hce & Hcid).
      subst c. destruct (I7 ce Hce (Hready _ Hc)) as (cs & H1 & H2). exists ce, cs. repeat split; try assumption; try apply H2.
      rewrite own_set_other; [exact H1|]. intros E. apply (I4 (e_id e)); [left; reflexivity|].
      rewrite <- E. apply Hready; exact Hc. }
    exists s. split; [exact Es|].
    assert (correct e s) as Hcs.
    { apply J_covered_correct; [exact He | exact HJs|]. intros rel c r t i v A B C. eapply Hcov; try eassumption.
      rewrite app_nil_r. apply in_rev in C. exact C. }
    assert (forall x, x <> e_id e -> dget String.eqb x (dset String.eqb (e_id e) s (own_set e lt)) = dget String.eqb x lt) as Hoth.
    { intros x Hx. rewrite (dget_dset_other String.eqb String.eqb_spec) by exact Hx. apply own_set_other; exact Hx. }
    constructor.
    - exact Hnd.
    - intros x Hx; apply I2; right; exact Hx.
    - intros x [<-|Hx]; [apply I2; left; reflexivity | apply I3; exact Hx].
    - intros x Hx [<-|Hx']; [contradiction|]. apply (I4 x); [right; exact Hx | exact Hx'].
    - intros x Hx. destruct (I5 x Hx) as [H|[<-|H]]; simpl; tauto.
    - intros e' s' He' Hs'. destruct (string_dec (e_id e') (e_id e)) as [E|Hn].
      + assert (e' = e) as -> by (apply ent_unique; assumption).
        rewrite (dget_dset_same String.eqb String.eqb_spec) in Hs'. injection Hs' as <-. exact HJs.
      + rewrite Hoth in Hs' by exact Hn. apply I6; assumption.
    - intros e' He' Hx. destruct (string_dec (e_id e') (e_id e)) as [E|Hn].
      + assert (e' = e) as -> by (apply ent_unique; assumption).
        rewrite (dget_dset_same String.eqb String.eqb_spec). eauto.
      + rewrite Hoth by exact Hn. destruct Hx as [Hx|Hx]; [congruence|]. apply I7; assumption.
    - intros x [<-|Hx]; [intros c Hc; right; apply Hready; exact Hc | intros c Hc; right; apply (I8 x Hx); exact Hc].
    - intros x Hx. apply I9. right; exact Hx.
    - intros x Hx1 Hx2. simpl in Hx2. rewrite Hoth by (intros ->; tauto). apply I10; [|tauto].
      intros [<-|H]; tauto.
  Qed.

  Definition count (p : string -> bool) : nat := List.length (filter p ids).
  Definition N := List.length ids.
  Definition mU (explored : list string) := count (fun x => negb (mem_str x explored)).
  Definition mB (queue explored : list string) := count (fun x => negb (mem_str x explored) && negb (mem_str x queue)).

  Lemma count_le (p q : string -> bool) : (forall x, In x ids -> p x = true -> q x = true) -> count p <= count q.
  Proof.
    unfold count. generalize ids. intros l H. induction l as [|a l IH]; simpl; [lia|].
    assert (List.length (filter p l) <= List.length (filter q l)) by (apply IH; intros; apply H; [right|]; assumption).
    destruct (p a) eqn:E; [rewrite (H a (or_introl eq_refl) E); simpl; lia|]. destruct (q a); simpl; lia.
  Qed.

  Lemma count_lt (p q : string -> bool) a :
    In a ids -> p a = false -> q a = true -> (forall x, In x ids -> p x = true -> q x = true) -> count p < count q.
  Proof.
    unfold count. generalize ids. intros l Ha Hpa Hqa H. induction l as [|b l IH]; [destruct Ha|].
    assert (forall x, In x l -> p x = true -> q x = true) as H' by (intros; apply H; [right|]; assumption).
    assert (List.length (filter p l) <= List.length (filter q l)) as Hle.
    { clear -H'. induction l as [|c l IH]; simpl; [lia|].
      assert (List.length (filter p l) <= List.length (filter q l)) by (apply IH; intros; apply H'; [right|]; assumption).
      destruct (p c) eqn:E; [rewrite (H' c (or_introl eq_refl) E); simpl; lia|]. destruct (q c); simpl; lia. }
    simpl. destruct Ha as [->|Ha].
    - rewrite Hpa, Hqa. simpl. lia.
    - specialize (IH Ha H'). destruct (p b) eqn:E; [rewrite (H b (or_introl eq_refl) E); simpl; lia|].
      destruct (q b); simpl; lia.
  Qed.

  Lemma count_N p : count p <= N.
  Proof. unfold count, N. generalize ids; intros l. induction l as [|a l IH]; simpl; [lia|]. destruct (p a); simpl; lia. Qed.

  Definition finished (lt : list (string * series)) (lt' : list (string * series)) : Prop :=
    exists explored, Inv lt' [] explored /\ incl to_explore explored.

  Lemma inv_end lt queue explored : Inv lt queue explored -> incl to_explore explored -> queue = [].
  Proof.
    intros I Hto. destruct queue as [|x q]; [reflexivity|]. exfalso.
    destruct (i_desc _ _ _ I x) as (y & p & Hy & Hp); [left; reflexivity|].
    apply (i_dis _ _ _ I x); [left; reflexivity|].
    apply Hto in Hy. clear -I Hy Hp. induction Hp as [a|r p b Hr Hp IH]; [exact Hy|].
    apply IH; [exact I|]. apply (i_cl _ _ _ I _ Hy). apply lti_children_In. eauto.
  Qed.

  Lemma queue_bound lt queue explored : Inv lt queue explored -> List.length queue <= N.
  Proof. intros I. apply (NoDup_incl_length (i_nd _ _ _ I) (i_q _ _ _ I)). Qed.

  Lemma loop_ok fuel : forall lt queue explored,
    Inv lt queue explored ->
    (incl to_explore explored \/
     exists k x, nth_error queue k = Some x /\ productive queue explored x /\
       mU explored * ((N+1)*(N+1)) + mB queue explored * (N+1) + k < fuel) ->
    exists lt' explored', lti_loop fuel es to_explore lt queue explored = Ok lt' /\
      Inv lt' [] explored' /\ incl to_explore explored'.
  Proof.
    induction fuel as [|fuel IH]; intros lt queue explored I Hm.
    - destruct Hm as [Hm|(k & x & _ & _ & Hlt)]; [|lia].
      pose proof (inv_end _ _ _ I Hm) as ->. exists lt, explored.
      apply subset_str_spec in Hm. cbn [lti_loop]. rewrite Hm.
      split; [reflexivity|]. split; [exact I | apply subset_str_spec; exact Hm].
    - cbn [lti_loop]. destruct (subset_str to_explore explored) eqn:Esub.
      { apply subset_str_spec in Esub. pose proof (inv_end _ _ _ I Esub) as ->. exists lt, explored. auto. }
      destruct Hm as [Hm|(k & x & Hk & Hprod & Hlt)]; [apply subset_str_spec in Hm; congruence|].
      destruct queue as [|eid queue]; [destruct k; discriminate|].
      destruct (ids_ent eid) as (e & He & Hid); [apply (i_q _ _ _ I); left; reflexivity|].
      rewrite <- Hid, (es_get_ok e He), Hid. cbn [bind].
      change (match dget String.eqb eid lt with Some _ => lt | None => dset String.eqb eid (own_lti e) lt end)
        with (match dget String.eqb eid lt with None => dset String.eqb eid (own_lti e) lt | Some _ => lt end).
      replace (match dget String.eqb eid lt with None => dset String.eqb eid (own_lti e) lt | Some _ => lt end)
        with (own_set e lt) by (unfold own_set; rewrite Hid; reflexivity).
      change (es_rels es) with rels.
      assert (In eid ids) as Hide by (apply (i_q _ _ _ I); left; reflexivity).
      assert (~ In eid explored) as Hnx by (apply (i_dis _ _ _ I); left; reflexivity).
      destruct (subset_str (lti_children rels eid) explored) eqn:Eready.
      + apply subset_str_spec in Eready.
        destruct (inv_step_done lt eid queue explored e I He Hid Eready) as (s & Es & I').
        rewrite Es. cbn [bind].
        destruct (IH _ _ _ I') as (lt' & explored' & A & B & C); [|eauto].
        destruct (subset_str to_explore (eid :: explored)) eqn:E2; [left; apply subset_str_spec; exact E2|].
        right.
        assert (exists y, In y queue) as (y & Hy).
        { destruct queue as [|y q]; [|exists y; left; reflexivity]. exfalso.
          assert (subset_str to_explore (eid :: explored) = true); [|congruence].
          apply subset_str_spec. intros z Hz. destruct (i_to _ _ _ I' z Hz) as [H|[]]. exact H. }
        destruct (exists_productive queue (eid :: explored) y Hy) as (z & Hz & Hpz).
        apply In_nth_error in Hz as (k' & Hk'). exists k', z. split; [exact Hk'|]. split; [exact Hpz|].
        assert (k' < List.length queue) by (apply nth_error_Some; congruence).
        pose proof (queue_bound _ _ _ I') as Hqb.
        assert (mU (eid :: explored) < mU explored) as HU.
        { unfold mU. apply (count_lt _ _ eid); [exact Hide| | |].
          - rewrite mem_str_cons, String.eqb_refl. reflexivity.
          - apply negb_true_iff. apply mem_str_nIn. exact Hnx.
          - intros w _. rewrite mem_str_cons. destruct (mem_str w explored); [rewrite orb_true_r; auto | reflexivity]. }
        assert (mB queue (eid :: explored) <= N) as HB by apply count_N.
        nia.
      + destruct (IH _ _ _ (inv_step_wait lt eid queue explored e I He Hid)) as (lt' & explored' & A & B & C); [|eauto].
        right.
        destruct (productive_dec (eid :: queue) explored eid) as [[Hr|Hmiss]|Hno].
        * exfalso. apply subset_str_spec in Hr. congruence.
        * (* a child is newly queued *)
          set (q' := enqueue_missing (lti_children rels eid) explored queue ++ [eid]).
          pose proof (inv_step_wait lt eid queue explored e I He Hid) as I'. fold q' in I'.
          assert (In eid q') as Hin by (unfold q'; apply in_or_app; right; left; reflexivity).
          destruct (exists_productive q' explored eid Hin) as (z & Hz & Hpz).
          apply In_nth_error in Hz as (k' & Hk'). exists k', z. split; [exact Hk'|]. split; [exact Hpz|].
          assert (k' < List.length q') by (apply nth_error_Some; congruence).
          pose proof (queue_bound _ _ _ I') as Hqb.
          assert (mB q' explored < mB (eid :: queue) explored) as HB.
          { destruct Hmiss as (c & H1 & H2 & H3). unfold mB. apply (count_lt _ _ c).
            - apply (children_ids _ c H1).
            - assert (mem_str c q' = true) as ->; [|apply andb_false_r].
              apply mem_str_In. unfold q'. apply in_or_app. left. apply enqueue_missing_In. right. auto.
            - apply mem_str_nIn in H2, H3. rewrite H2, H3. reflexivity.
            - intros w _ Hw. apply andb_true_iff in Hw as [Hw1 Hw2]. rewrite Hw1, andb_true_l.
              apply negb_true_iff in Hw2. apply mem_str_nIn in Hw2. apply negb_true_iff. apply mem_str_nIn.
              intros Hw3. apply Hw2. unfold q'. apply in_or_app.
              destruct Hw3 as [<-|Hw3]; [right; left; reflexivity | left; apply enqueue_missing_In; left; exact Hw3]. }
          nia.
        * (* unproductive head: rotate *)
          assert (~ productive (eid :: queue) explored eid -> True) as _ by auto.
          destruct (in_dec string_dec eid explored) as [Habs|_]; [contradiction|].
          assert (enqueue_missing (lti_children rels eid) explored queue = queue \/
                  missing (eid :: queue) explored eid) as Hrot.
          { destruct (Forall_Exists_dec (fun c => In c explored \/ In c queue)
              (fun c => match in_dec string_dec c explored with
                        | left H => left (or_introl H)
                        | right Hn => match in_dec string_dec c queue with
                                      | left H => left (or_intror H)
                                      | right Hn' => right (fun o => match o with or_introl a => Hn a | or_intror b => Hn' b end)
                                      end
                        end) (lti_children rels eid)) as [HF|HE].
            - left. apply enqueue_missing_id. rewrite Forall_forall in HF. exact HF.
            - right. apply Exists_exists in HE as (c & H1 & H2). exists c. split; [exact H1|]. split; [tauto|].
              intros [<-|H3]; [apply (no_self_child _ H1) | tauto]. }
          destruct Hrot as [Hrot|Hmiss].
          { rewrite Hrot.
            destruct k as [|k].
            - injection Hk as <-. exfalso. destruct Hprod as [Hr|Hmiss].
              + apply subset_str_spec in Hr. congruence.
              + destruct Hmiss as (c & H1 & H2 & H3). apply H3. right.
                rewrite <- Hrot. apply enqueue_missing_In. right. auto.
            - exists k, x. simpl in Hk. split.
              { rewrite nth_error_app1; [exact Hk|]. apply nth_error_Some. congruence. }
              split.
              { destruct Hprod as [Hr|(c & H1 & H2 & H3)]; [left; exact Hr | right; exists c; split; [exact H1|]].
                split; [exact H2|]. rewrite in_app_iff. simpl in *. tauto. }
              { assert (mB (queue ++ [eid]) explored <= mB (eid :: queue) explored) as HB.
                { unfold mB. apply count_le. intros w _ Hw. apply andb_true_iff in Hw as [Hw1 Hw2]. rewrite Hw1, andb_true_l.
                  apply negb_true_iff in Hw2. apply mem_str_nIn in Hw2. apply negb_true_iff. apply mem_str_nIn.
                  intros [<-|Hw3]; apply Hw2; apply in_or_app; [right; left; reflexivity | left; exact Hw3]. }
                nia. } }
          { (* same as the missing case *)
            set (q' := enqueue_missing (lti_children rels eid) explored queue ++ [eid]).
            pose proof (inv_step_wait lt eid queue explored e I He Hid) as I'. fold q' in I'.
            assert (In eid q') as Hin by (unfold q'; apply in_or_app; right; left; reflexivity).
            destruct (exists_productive q' explored eid Hin) as (z & Hz & Hpz).
            apply In_nth_error in Hz as (k' & Hk'). exists k', z. split; [exact Hk'|]. split; [exact Hpz|].
            assert (k' < List.length q') by (apply nth_error_Some; congruence).
            pose proof (queue_bound _ _ _ I') as Hqb.
            assert (mB q' explored < mB (eid :: queue) explored) as HB.
            { destruct Hmiss as (c & H1 & H2 & H3). unfold mB. apply (count_lt _ _ c).
              - apply (children_ids _ c H1).
              - assert (mem_str c q' = true) as ->; [|apply andb_false_r].
                apply mem_str_In. unfold q'. apply in_or_app. left. apply enqueue_missing_In. right. auto.
              - apply mem_str_nIn in H2, H3. rewrite H2, H3. reflexivity.
              - intros w _ Hw. apply andb_true_iff in Hw as [Hw1 Hw2]. rewrite Hw1, andb_true_l.
                apply negb_true_iff in Hw2. apply mem_str_nIn in Hw2. apply negb_true_iff. apply mem_str_nIn.
                intros Hw3. apply Hw2. unfold q'. apply in_or_app.
                destruct Hw3 as [<-|Hw3]; [right; left; reflexivity | left; apply enqueue_missing_In; left; exact Hw3]. }
            nia. }
  Qed.
End Lti.

(** ** the whole function *)
Lemma kept_lti_get es reset x s :
  NoDup (map e_id (es_ents es)) ->
  dget String.eqb x (kept_lti es reset) = Some s ->
  exists e, In e (es_ents es) /\ e_id e = x /\ e_lti e = Some s /\ ~ In x reset.
Proof.
  intros _ H. apply (dget_In String.eqb String.eqb_spec) in H. unfold kept_lti in H.
  apply in_flat_map in H as (e & He & Hin). destruct (mem_str (e_id e) reset) eqn:E; [destruct Hin|].
  apply mem_str_nIn in E. destruct (e_lti e) as [s'|] eqn:El; [|destruct Hin].
  destruct Hin as [[= <- <-]|[]]. exists e. auto.
Qed.

Lemma kept_lti_in es reset e :
  NoDup (map e_id (es_ents es)) -> In e (es_ents es) -> ~ In (e_id e) reset ->
  dget String.eqb (e_id e) (kept_lti es reset) = e_lti e.
Proof.
  unfold kept_lti. generalize (es_ents es). intros l. induction l as [|a l IH]; simpl; [tauto|].
  intros Hnd Hin Hn. inversion Hnd as [|? ? Hni Hnd']; subst.
  destruct Hin as [->|Hin].
  - apply mem_str_nIn in Hn. rewrite Hn. destruct (e_lti e) as [s|]; simpl.
    + rewrite String.eqb_refl. reflexivity.
    + destruct (dget String.eqb (e_id e) _) as [s|] eqn:E; [|reflexivity]. exfalso.
      apply (dget_In String.eqb String.eqb_spec) in E. apply in_flat_map in E as (e' & He' & Hin').
      destruct (mem_str (e_id e') reset); [destruct Hin'|]. destruct (e_lti e'); [|destruct Hin'].
      destruct Hin' as [[= E' _]|[]]. apply Hni. rewrite <- E'. apply in_map; exact He'.
  - assert (e_id a <> e_id e) as Hne by (intros E; apply Hni; rewrite E; apply in_map; exact Hin).
    destruct (mem_str (e_id a) reset); simpl; [apply IH; assumption|].
    destruct (e_lti a); simpl; [|apply IH; assumption].
    destruct (String.eqb_spec (e_id e) (e_id a)); [congruence|]. apply IH; assumption.
Qed.

Lemma kept_lti_None es reset x : (forall e, In e (es_ents es) -> e_id e = x -> In x reset) -> dget String.eqb x (kept_lti es reset) = None.
Proof.
  intros H. destruct (dget _ _ _) as [s|] eqn:E; [|reflexivity]. exfalso.
  apply (dget_In String.eqb String.eqb_spec) in E. unfold kept_lti in E. apply in_flat_map in E as (e & He & Hin).
  destruct (mem_str (e_id e) reset) eqn:Em; [destruct Hin|]. destruct (e_lti e); [|destruct Hin].
  destruct Hin as [[= E1 _]|[]]. apply mem_str_nIn in Em. apply Em. rewrite E1. eapply H; eassumption.
Qed.

Definition lti_bound (es : entityset) : nat :=
  let n := S (List.length (es_ents es)) in n * n * n.

Section Whole.
  Variable es : entityset.
  Hypothesis Hwf : wf_es es.
  Hypothesis Hac : acyclic es.
  Hypothesis Hsl : single_links es.
  Hypothesis Htm : times_after_1800 es.
  Hypothesis Hnm : no_mixed_children es.

  Lemma loop_from_queue fuel queue :
    NoDup queue -> incl queue (map e_id (es_ents es)) -> lti_bound es <= fuel ->
    (forall e s, In e (es_ents es) -> ~ In (e_id e) queue -> e_lti e = Some s -> correct es e s) ->
    exists lt, lti_loop fuel es queue (kept_lti es queue) queue [] = Ok lt /\
      (forall e, In e (es_ents es) -> In (e_id e) queue -> exists s, dget String.eqb (e_id e) lt = Some s /\ correct es e s) /\
      (forall e, In e (es_ents es) -> ~ In (e_id e) queue ->
         dget String.eqb (e_id e) lt = e_lti e \/ exists s, dget String.eqb (e_id e) lt = Some s /\ correct es e s).
  Proof.
    intros Hnd Hincl Hfuel Hold.
    assert (Inv es queue (kept_lti es queue) (kept_lti es queue) queue []) as HI.
    { constructor.
      - exact Hnd.
      - exact Hincl.
      - intros x [].
      - intros x _ [].
      - intros x Hx; right; exact Hx.
      - intros e s He Hs. apply (kept_lti_get es queue (e_id e) s (proj1 Hwf)) in Hs as (e' & He' & Hid & Hl & Hn).
        assert (e' = e) as -> by (apply (ent_unique es Hwf); assumption).
        apply correct_J; [exact He|]. apply Hold; assumption.
      - intros e _ [].
      - intros x [].
      - intros x Hx. exists x, []. split; [exact Hx | constructor].
      - intros x _ _. reflexivity. }
    destruct (loop_ok es Hwf Hac Hsl Htm Hnm queue (kept_lti es queue) fuel (kept_lti es queue) queue []) as (lt & expl & E & I' & Hto).
    { exact HI. }
    { destruct queue as [|x q]; [left; intros x []|]. right.
      destruct (exists_productive es Hac (x :: q) [] x) as (y & Hy & Hp); [left; reflexivity|].
      apply In_nth_error in Hy as (k & Hk). exists k, y. split; [exact Hk|]. split; [exact Hp|].
      assert (k < List.length (x :: q)) by (apply nth_error_Some; congruence).
      pose proof (NoDup_incl_length Hnd Hincl) as Hl.
      pose proof (count_N es (fun x => negb (mem_str x []))) as H1.
      pose proof (count_N es (fun y => negb (mem_str y []) && negb (mem_str y (x :: q)))) as H2.
      unfold mU, mB. unfold N in *. rewrite map_length in *. unfold lti_bound in Hfuel.
      set (n := List.length (es_ents es)) in *.
      set (u := count es (fun x => negb (mem_str x []))) in *.
      set (b := count es (fun y => negb (mem_str y []) && negb (mem_str y (x :: q)))) in *.
      assert (u * ((n+1)*(n+1)) <= n * ((n+1)*(n+1))) by (apply Nat.mul_le_mono_r; exact H1).
      assert (b * (n+1) <= n * (n+1)) by (apply Nat.mul_le_mono_r; exact H2). nia. }
    exists lt. split; [exact E|]. split.
    - intros e He Hq. apply (i_c _ _ _ _ _ _ I' e He). apply Hto; exact Hq.
    - intros e He Hq. destruct (in_dec string_dec (e_id e) expl) as [Hx|Hx].
      + right. apply (i_c _ _ _ _ _ _ I' e He Hx).
      + left. rewrite (i_un _ _ _ _ _ _ I' (e_id e)); [|intros [] | exact Hx].
        apply kept_lti_in; [exact (proj1 Hwf) | exact He | exact Hq].
  Qed.

  Lemma same_but_lti_set lt : same_but_lti es (es_with_lti es lt).
  Proof.
    split; [reflexivity|]. cbn [es_with_lti es_ents]. induction (es_ents es) as [|e l IH]; simpl; constructor; [cbn; repeat split; reflexivity | exact IH].
  Qed.

  Lemma in_es_with_lti lt e' : In e' (es_ents (es_with_lti es lt)) ->
    exists e, In e (es_ents es) /\ e' = set_lti lt e.
  Proof. cbn [es_with_lti es_ents]. intros H. apply in_map_iff in H as (e & <- & H). eauto. Qed.

  Lemma alti_full fuel order :
    lti_bound es <= fuel ->
    exists es', add_last_time_indexes fuel order es [] = Ok es' /\ same_but_lti es es' /\
      forall e', In e' (es_ents es') -> has_last_times es e'.
  Proof.
    intros Hf. unfold add_last_time_indexes. cbn [bind].
    destruct (loop_from_queue fuel (map e_id (es_ents es))) as (lt & E & H1 & _);
      [exact (proj1 Hwf) | apply incl_refl | exact Hf | |].
    { intros e s He Hn. exfalso. apply Hn. apply in_map; exact He. }
    rewrite E. cbn [bind]. eexists; split; [reflexivity|]. split; [apply same_but_lti_set|].
    intros e' He'. apply in_es_with_lti in He' as (e & He & ->).
    destruct (H1 e He (in_map e_id _ _ He)) as (s & Hs & Hc1 & Hc2). exists s. cbn. auto.
  Qed.

  (** ancestors *)
  Lemma lti_parents_ok n : forall queue parents,
    NoDup parents ->
    (forall x, In x parents -> In x (map e_id (es_ents es))) -> (forall x, In x queue -> In x (map e_id (es_ents es))) ->
    List.length queue + List.length (filter (fun r => negb (mem_str (r_ce r) parents)) (es_rels es)) <= n ->
    exists ps, lti_parents n (es_rels es) queue parents = Ok ps /\ NoDup ps /\
      incl ps (map e_id (es_ents es)) /\ incl parents ps /\ incl queue ps /\
      (forall x, In x ps -> In x parents \/ self_or_ancestor es queue x) /\
      (forall r, In r (es_rels es) -> In (r_ce r) ps -> ~ In (r_ce r) parents -> In (r_pe r) ps).
  Proof.
    induction n as [|n IH]; intros queue parents Hnd Hp Hq Hn.
    - destruct queue; [|simpl in Hn; lia]. cbn. exists parents. repeat split; auto; try (intros x []); try contradiction.
      apply incl_refl.
    - destruct queue as [|e q].
      { cbn. exists parents. repeat split; auto; try (intros x []); try contradiction. apply incl_refl. }
      cbn [lti_parents]. destruct (mem_str e parents) eqn:Em.
      + apply mem_str_In in Em. destruct (IH q parents) as (ps & E & A & B & C & D & F & G); auto.
        { intros x Hx; apply Hq; right; exact Hx. }
        { simpl in Hn. lia. }
        exists ps. split; [exact E|]. split; [exact A|]. split; [exact B|]. split; [exact C|].
        split; [intros x [<-|Hx]; [apply C; exact Em | apply D; exact Hx]|]. split; [|exact G].
        intros x Hx. destruct (F x Hx) as [H|(u & p & Hu & H)]; [left; exact H | right; exists u, p; split; [right|]; assumption].
      + apply mem_str_nIn in Em.
        destruct (IH (q ++ map r_pe (get_forward_relationships (es_rels es) e)) (e :: parents)) as (ps & E & A & B & C & D & F & G).
        * constructor; assumption.
        * intros x [<-|Hx]; [apply Hq; left; reflexivity | apply Hp; exact Hx].
        * intros x Hx. apply in_app_or in Hx as [Hx|Hx]; [apply Hq; right; exact Hx|].
          apply in_map_iff in Hx as (r & <- & Hr). apply filter_In in Hr as [Hr _].
          destruct Hwf as (_ & _ & _ & Hrel). destruct (Hrel r Hr) as [(pe & H1 & H2 & _) _]. rewrite <- H2. apply in_map; exact H1.
        * rewrite app_length, map_length. unfold get_forward_relationships.
          assert (List.length (filter (fun r => String.eqb (r_ce r) e) (es_rels es)) +
                  List.length (filter (fun r => negb (mem_str (r_ce r) (e :: parents))) (es_rels es)) <=
                  List.length (filter (fun r => negb (mem_str (r_ce r) parents)) (es_rels es))) as Hlen.
          { clear -Em. induction (es_rels es) as [|r l IHl]; [reflexivity|]. cbn [filter]. rewrite mem_str_cons.
            destruct (String.eqb_spec (r_ce r) e) as [He|Hne].
            - apply mem_str_nIn in Em. rewrite <- He in Em. rewrite Em. cbn [orb negb List.length]. lia.
            - cbn [orb]. destruct (mem_str (r_ce r) parents); cbn [negb List.length]; lia. }
          simpl in Hn. lia.
        * exists ps. split; [exact E|]. split; [exact A|]. split; [exact B|].
          split; [intros x Hx; apply C; right; exact Hx|].
          split; [intros x [<-|Hx]; [apply C; left; reflexivity | apply D; apply in_or_app; left; exact Hx]|].
          split.
          { intros x Hx. destruct (F x Hx) as [[<-|H]|(u & p & Hu & H)].
            - right. exists e, []. split; [left; reflexivity | constructor].
            - left; exact H.
            - right. apply in_app_or in Hu as [Hu|Hu]; [exists u, p; split; [right|]; assumption|].
              apply in_map_iff in Hu as (r & <- & Hr). apply filter_In in Hr as [Hr Hre]. apply String.eqb_eq in Hre.
              exists e, (r :: p). split; [left; reflexivity|]. apply chain_cons_inv. auto. }
          { intros r Hr Hin Hn'. destruct (string_dec (r_ce r) e) as [He|Hne].
            - apply D. apply in_or_app; right. apply in_map. apply filter_In. split; [exact Hr|]. apply String.eqb_eq; exact He.
            - apply (G r Hr Hin). intros [H|H]; [congruence | contradiction]. }
  Qed.

  Lemma alti_updated fuel order updated :
    updated <> [] -> incl updated (map e_id (es_ents es)) ->
    (forall l, Permutation (order l) l) ->
    lti_bound es <= fuel -> List.length updated + List.length (es_rels es) <= fuel ->
    (forall e, In e (es_ents es) -> ~ self_or_ancestor es updated (e_id e) -> e_lti e = None \/ has_last_times es e) ->
    exists es', add_last_time_indexes fuel order es updated = Ok es' /\ same_but_lti es es' /\
      forall e', In e' (es_ents es') ->
        has_last_times es e' \/
        (~ self_or_ancestor es updated (e_id e') /\ In e' (es_ents es) /\ e_lti e' = None).
  Proof.
    intros Hne Hu Hord Hf1 Hf2 Hold.
    destruct (lti_parents_ok fuel updated []) as (ps & E & A & B & _ & D & F & G).
    { constructor. } { intros x []. } { exact Hu. }
    { assert (List.length (filter (fun r => negb (mem_str (r_ce r) [])) (es_rels es)) <= List.length (es_rels es)) as Hl.
      { clear. induction (es_rels es) as [|r l IH]; simpl in *; lia. } lia. }
    assert (forall x, In x ps <-> self_or_ancestor es updated x) as Hps.
    { intros x; split; [intros Hx; destruct (F x Hx) as [[]|H]; exact H|].
      intros (u & p & Hin & Hc). apply D in Hin. induction Hc as [a|r p b Hr Hc IH]; [exact Hin|].
      apply IH. apply (G r Hr Hin). intros []. }
    unfold add_last_time_indexes. destruct updated as [|u0 us]; [congruence|]. rewrite E. cbn [bind].
    assert (forall x, In x (order ps) <-> self_or_ancestor es (u0 :: us) x) as Hops.
    { intros x. rewrite <- Hps. split; apply Permutation_in; [|symmetry]; apply Hord. }
    destruct (loop_from_queue fuel (order ps)) as (lt & El & H1 & H2).
    { eapply Permutation_NoDup; [symmetry; apply Hord | exact A]. }
    { intros x Hx. apply B. eapply Permutation_in; [apply Hord | exact Hx]. }
    { exact Hf1. }
    { intros e s He Hn Hs. destruct (Hold e He) as [H|(s' & H & Hc)]; [rewrite <- Hops; exact Hn | congruence|].
      assert (s' = s) as -> by congruence. exact Hc. }
    rewrite El. cbn [bind]. eexists; split; [reflexivity|]. split; [apply same_but_lti_set|].
    intros e' He'. apply in_es_with_lti in He' as (e & He & ->). cbn [set_lti e_id].
    destruct (in_dec string_dec (e_id e) (order ps)) as [Hi|Hi].
    - left. destruct (H1 e He Hi) as (s & Hs & Hc1 & Hc2). exists s. cbn. auto.
    - assert (Hn : ~ self_or_ancestor es (u0 :: us) (e_id e)) by (rewrite <- Hops; exact Hi).
      destruct (H2 e He Hi) as [Hs|(s & Hs & Hc1 & Hc2)]; [|left; exists s; cbn; auto].
      destruct (Hold e He Hn) as [H|(s & H & Hc)].
      + right. split; [exact Hn|]. unfold set_lti. rewrite Hs. destruct e; cbn in *. subst. auto.
      + left. exists s. cbn. rewrite Hs. auto.
  Qed.
End Whole.

(** recomputing ignores the recorded values *)
Lemma es_get_with_lti es x eid :
  es_get (es_with_lti es x) eid = match es_get es eid with Ok e => Ok (set_lti x e) | Err k => Err k end.
Proof.
  unfold es_get, es_with_lti. cbn [es_ents]. induction (es_ents es) as [|e l IH]; simpl; [reflexivity|].
  destruct (String.eqb (e_id e) eid); [reflexivity | exact IH].
Qed.

Lemma merge_child_with_lti es x lt p s c : merge_child (es_with_lti es x) lt p s c = merge_child es lt p s c.
Proof.
  unfold merge_child. destruct (dget _ c lt); [|reflexivity]. rewrite es_get_with_lti.
  destruct (es_get es c); reflexivity.
Qed.

Lemma foldM_ext {A S} (f g : S -> A -> res S) l s : (forall s a, f s a = g s a) -> foldM f l s = foldM g l s.
Proof. intros H. revert s; induction l as [|a l IH]; intros s; simpl; [reflexivity|]. rewrite H. destruct (g s a); simpl; auto. Qed.

Lemma lti_loop_with_lti es x fuel to : forall lt q ex,
  lti_loop fuel (es_with_lti es x) to lt q ex = lti_loop fuel es to lt q ex.
Proof.
  induction fuel as [|fuel IH]; intros lt q ex; cbn [lti_loop]; [reflexivity|].
  destruct (subset_str to ex); [reflexivity|]. destruct q as [|eid q]; [reflexivity|].
  rewrite es_get_with_lti. destruct (es_get es eid) as [e|k]; [|reflexivity]. cbn [bind].
  change (es_rels (es_with_lti es x)) with (es_rels es).
  change (own_lti (set_lti x e)) with (own_lti e).
  destruct (subset_str (lti_children (es_rels es) eid) ex).
  - rewrite (foldM_ext _ (merge_child es (match dget String.eqb eid lt with Some _ => lt | None => dset String.eqb eid (own_lti e) lt end) eid))
      by (intros; apply merge_child_with_lti).
    destruct (foldM _ _ _); cbn [bind]; [apply IH | reflexivity].
  - apply IH.
Qed.

Lemma kept_all es : kept_lti es (map e_id (es_ents es)) = [].
Proof.
  unfold kept_lti. assert (forall l, incl l (es_ents es) ->
    flat_map (fun e => if mem_str (e_id e) (map e_id (es_ents es)) then [] else match e_lti e with Some s => [(e_id e, s)] | None => [] end) l = []) as H.
  { induction l as [|e l IH]; intros Hi; simpl; [reflexivity|].
    assert (mem_str (e_id e) (map e_id (es_ents es)) = true) as -> by (apply mem_str_In, in_map, Hi; left; reflexivity).
    apply IH. intros y Hy; apply Hi; right; exact Hy. }
  apply H, incl_refl.
Qed.

Lemma alti_idempotent fuel order es es' :
  add_last_time_indexes fuel order es [] = Ok es' -> add_last_time_indexes fuel order es' [] = Ok es'.
Proof.
  unfold add_last_time_indexes. cbn [bind]. intros H. apply bind_Ok in H as (lt & E & H). injection H as <-.
  rewrite kept_all in *.
  assert (map e_id (es_ents (es_with_lti es lt)) = map e_id (es_ents es)) as -> by (cbn; rewrite map_map; reflexivity).
  rewrite lti_loop_with_lti. rewrite E. cbn [bind]. f_equal. unfold es_with_lti. cbn [es_ents es_rels]. rewrite map_map.
  reflexivity.
Qed.
