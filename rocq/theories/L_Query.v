From Verif Require Import Base BaseFacts M_Schema M_Table M_Query S_Query.

Lemma streqb_spec a b : reflect (a = b) (String.eqb a b).
Proof. apply String.eqb_spec. Qed.

Lemma check_col_ok d c : In c (cols d) -> check_col d c = Ok tt.
Proof. intros H. unfold check_col. apply mem_str_In in H. rewrite H. reflexivity. Qed.

Lemma check_cols_ok d cs : incl cs (cols d) -> exists us, mapM (check_col d) cs = Ok us.
Proof.
  induction cs as [|c cs IH]; intros H; simpl; [eauto|].
  rewrite check_col_ok by (apply H; left; reflexivity). simpl.
  destruct IH as (us & Hus); [intros x Hx; apply H; right; exact Hx|]. rewrite Hus; simpl; eauto.
Qed.

(** boolean forms of the specification *)
Definition keepb (e : entity) (T : Z) (lo : option Z) (incl : bool) (r : row) : bool :=
  match e_time e with
  | None => true
  | Some ti =>
    (if incl then v_le (cell ti r) T else v_lt (cell ti r) T) &&
    match lo with
    | None => true
    | Some l =>
      (if incl then v_gt (cell ti r) l else v_ge (cell ti r) l) ||
      match e_lti e with
      | Some lti => if incl then v_gt (lti_at lti (cell (e_index e) r)) l else v_ge (lti_at lti (cell (e_index e) r)) l
      | None => false
      end
    end
  end.

Definition maskb (secs : list (string * list string)) (T : Z) (r : row) : row :=
  map (fun cv => if existsb (fun sc => v_ge (cell (fst sc) r) T && mem_str (fst cv) (snd sc)) secs
                 then (fst cv, VNull) else cv) r.


Lemma v_le_spec v T : v_le v T = true <-> exists t, v = VNum t /\ (t <= T)%Z.
Proof. destruct v; simpl; split; try (intros; discriminate); try (intros (t & H & _); discriminate).
  - intros H. apply Z.leb_le in H. eauto. - intros (t & [= ->] & H). apply Z.leb_le; exact H. Qed.
Lemma v_lt_spec v T : v_lt v T = true <-> exists t, v = VNum t /\ (t < T)%Z.
Proof. destruct v; simpl; split; try (intros; discriminate); try (intros (t & H & _); discriminate).
  - intros H. apply Z.ltb_lt in H. eauto. - intros (t & [= ->] & H). apply Z.ltb_lt; exact H. Qed.
Lemma v_ge_spec v T : v_ge v T = true <-> exists t, v = VNum t /\ (T <= t)%Z.
Proof. destruct v; simpl; split; try (intros; discriminate); try (intros (t & H & _); discriminate).
  - intros H. apply Z.leb_le in H. eauto. - intros (t & [= ->] & H). apply Z.leb_le; exact H. Qed.
Lemma v_gt_spec v T : v_gt v T = true <-> exists t, v = VNum t /\ (T < t)%Z.
Proof. destruct v; simpl; split; try (intros; discriminate); try (intros (t & H & _); discriminate).
  - intros H. apply Z.ltb_lt in H. eauto. - intros (t & [= ->] & H). apply Z.ltb_lt; exact H. Qed.

Lemma upper_spec (incl : bool) v T :
  (if incl then v_le v T else v_lt v T) = true <-> at_or_before incl T v.
Proof. unfold at_or_before. destruct incl; [apply v_le_spec | apply v_lt_spec]. Qed.
Lemma lower_spec (incl : bool) v l :
  (if incl then v_gt v l else v_ge v l) = true <-> after_start incl l v.
Proof. unfold after_start. destruct incl; [apply v_gt_spec | apply v_ge_spec]. Qed.

Lemma not_after_null (incl : bool) l : ~ after_start incl l VNull.
Proof. intros (t & H & _); discriminate. Qed.

Lemma keepb_spec e T lo incl r : keepb e T lo incl r = true <-> row_visible e T lo incl r.
Proof.
  unfold keepb, row_visible. destruct (e_time e) as [ti|].
  - rewrite andb_true_iff, upper_spec. split.
    + intros [H1 H2] ti' [= <-]. split; [exact H1|]. intros l ->.
      rewrite orb_true_iff, lower_spec in H2. destruct H2 as [H2|H2]; [left; exact H2|right].
      destruct (e_lti e) as [lti|] eqn:El; [|discriminate]. rewrite lower_spec in H2.
      unfold lti_at in H2. destruct (dget val_eqb _ lti) as [v|] eqn:Ed.
      * exists v. split; [exists lti; auto | exact H2].
      * exfalso; eapply not_after_null; exact H2.
    + intros H. specialize (H ti eq_refl) as [H1 H2]. split; [exact H1|].
      destruct lo as [l|]; [|reflexivity]. rewrite orb_true_iff, lower_spec.
      destruct (H2 l eq_refl) as [H|(v & (lti & El & Hd) & H)]; [left; exact H|right].
      rewrite El, lower_spec. unfold lti_at. rewrite Hd. exact H.
  - split; [|reflexivity]. intros _ ti H; discriminate.
Qed.

Lemma cell_map (f : string * val -> string * val) r c :
  (forall cv, fst (f cv) = fst cv) ->
  cell c (map f r) = match dget String.eqb c r with Some v => snd (f (c, v)) | None => VNull end.
Proof.
  intros Hf. unfold cell. induction r as [|[c' v] r IH]; simpl; [reflexivity|].
  specialize (Hf (c', v)) as Hfst. destruct (f (c', v)) as [c2 v2] eqn:E. simpl in Hfst; subst c2.
  destruct (String.eqb_spec c c') as [->|Hn]; [rewrite E; reflexivity | exact IH].
Qed.

Lemma maskb_fst secs T r : map fst (maskb secs T r) = map fst r.
Proof. unfold maskb. rewrite map_map. apply map_ext. intros [c v]. destruct (existsb _ _); reflexivity. Qed.

Lemma cell_maskb secs T r c :
  cell c (maskb secs T r) =
  if existsb (fun sc => v_ge (cell (fst sc) r) T && mem_str c (snd sc)) secs then VNull else cell c r.
Proof.
  unfold maskb. rewrite cell_map by (intros [c' v']; destruct (existsb _ _); reflexivity).
  unfold cell at 1 3. destruct (dget String.eqb c r) as [v|]; simpl.
  - destruct (existsb _ _); reflexivity.
  - destruct (existsb _ _); reflexivity.
Qed.

Lemma mask_exists_spec e T r c :
  existsb (fun sc => v_ge (cell (fst sc) r) T && mem_str c (snd sc)) (e_sec e) = true <-> cell_hidden e T r c.
Proof.
  rewrite existsb_exists. unfold cell_hidden. split.
  - intros ([s cs] & Hin & H). simpl in H. apply andb_true_iff in H as [H1 H2].
    apply v_ge_spec in H1 as (t & Ht & Hle). apply mem_str_In in H2. exists s, cs, t; auto.
  - intros (s & cs & t & Hin & Hc & Ht & Hle). exists (s, cs). split; [exact Hin|]. simpl.
    apply andb_true_iff. split; [apply v_ge_spec; eauto | apply mem_str_In; exact Hc].
Qed.

Lemma handle_primary_eq e ti d T tw incl :
  e_time e = Some ti -> In ti (cols d) -> win_time tw ->
  handle_primary e ti d (Some T) tw incl = Ok (filter_df (keepb e T (win_lo tw T) incl) d).
Proof.
  intros Hti Hin Hw. unfold handle_primary. destruct d as [cs rs]. simpl in *.
  destruct rs as [|r0 rs]; [reflexivity|].
  rewrite check_col_ok by exact Hin. simpl bind.
  destruct tw as [[n|f]|]; [contradiction Hw| |].
  - f_equal. unfold filter_df. cbn [cols rows]. f_equal.
    generalize (r0 :: rs). intros l. induction l as [|r l IH]; [reflexivity|].
    cbn [filter]. unfold keepb at 1. rewrite Hti. cbn [win_lo].
    destruct (if incl then v_le (cell ti r) T else v_lt (cell ti r) T); cbn [andb filter].
    + rewrite IH. destruct (e_lti e); reflexivity.
    + exact IH.
  - f_equal. unfold filter_df. cbn [cols rows]. f_equal. apply filter_ext. intros r.
    unfold keepb. rewrite Hti. simpl. rewrite andb_true_r. reflexivity.
Qed.

Lemma maskb_snoc secs s cs T r :
  (forall s' cs', In (s', cs') secs -> ~ In s cs') ->
  (if v_ge (cell s (maskb secs T r)) T
   then map (fun cv => if mem_str (fst cv) cs then (fst cv, VNull) else cv) (maskb secs T r)
   else maskb secs T r) = maskb (secs ++ [(s, cs)]) T r.
Proof.
  intros Hno.
  assert (cell s (maskb secs T r) = cell s r) as ->.
  { rewrite cell_maskb. destruct (existsb _ _) eqn:E; [|reflexivity].
    apply existsb_exists in E as ([s' cs'] & Hin & H). apply andb_true_iff in H as [_ H].
    apply mem_str_In in H. exfalso; eapply Hno; eauto. }
  unfold maskb. destruct (v_ge (cell s r) T) eqn:E.
  - rewrite map_map. apply map_ext. intros [c v]. rewrite existsb_app. simpl. rewrite E. simpl.
    destruct (existsb _ secs); simpl; destruct (mem_str c cs); reflexivity.
  - apply map_ext. intros [c v]. rewrite existsb_app. simpl. rewrite E. simpl. rewrite !orb_false_r. reflexivity.
Qed.

Lemma handle_secondary_fold secs2 secs1 d T rs :
  (forall s cs, In (s, cs) secs2 -> In s (cols d) /\ incl cs (cols d)) ->
  (forall s cs s' cs', In (s, cs) secs2 -> In (s', cs') (secs1 ++ secs2) -> In s cs' -> (s, cs) = (s', cs')) ->
  NoDup (secs1 ++ secs2) ->
  rows d = map (maskb secs1 T) rs ->
  foldM (handle_secondary (Some T)) secs2 d = Ok (mkDf (cols d) (map (maskb (secs1 ++ secs2) T) rs)).
Proof.
  revert secs1 d. induction secs2 as [|[s cs] secs2 IH]; intros secs1 d Hc Hind Hnd Hrows; cbn [foldM].
  - rewrite app_nil_r, <- Hrows. destruct d; reflexivity.
  - assert (Hno : forall s' cs', In (s', cs') secs1 -> ~ In s cs').
    { intros s' cs' Hin Hs. assert ((s, cs) = (s', cs')) as E.
      { apply (Hind s cs s' cs'); [left; reflexivity | apply in_app_iff; left; exact Hin | exact Hs]. }
      apply NoDup_remove_2 in Hnd. apply Hnd. apply in_app_iff. left. rewrite E. exact Hin. }
    destruct (Hc s cs (or_introl eq_refl)) as [Hs Hcs].
    assert (handle_secondary (Some T) d (s, cs) = Ok (mkDf (cols d) (map (maskb (secs1 ++ [(s, cs)]) T) rs))) as ->.
    { unfold handle_secondary. destruct d as [dc drs]. cbn [rows cols] in *.
      destruct drs as [|r0 drs].
      - symmetry in Hrows. apply map_eq_nil in Hrows. subst rs. reflexivity.
      - rewrite (check_col_ok (mkDf dc (r0 :: drs)) s Hs). destruct (check_cols_ok (mkDf dc (r0 :: drs)) cs Hcs) as (us & Hus).
        cbn [bind]. rewrite Hus. cbn [bind]. do 2 f_equal. rewrite Hrows, map_map.
        apply map_ext. intros r. apply maskb_snoc. exact Hno. }
    cbn [bind]. rewrite (IH (secs1 ++ [(s, cs)])).
    + rewrite <- app_assoc. reflexivity.
    + cbn [cols]. intros s' cs' Hin. apply Hc. right; exact Hin.
    + intros s1 cs1 s2 cs2 H1 H2. rewrite <- app_assoc in H2. apply Hind; [right; exact H1 | exact H2].
    + rewrite <- app_assoc. exact Hnd.
    + reflexivity.
Qed.

Lemma maskb_nil T r : maskb [] T r = r.
Proof. unfold maskb. simpl. rewrite <- (map_id r) at 2. apply map_ext. intros [c v]; reflexivity. Qed.

Lemma handle_time_eq e d T tw incl :
  (forall ti, e_time e = Some ti -> In ti (cols d)) ->
  (forall s cs, In (s, cs) (e_sec e) -> In s (cols d) /\ List.incl cs (cols d)) ->
  independent_secondaries e -> NoDup (e_sec e) -> win_time tw ->
  handle_time e d (Some T) tw incl =
  Ok (mkDf (cols d) (map (maskb (e_sec e) T) (filter (keepb e T (win_lo tw T) incl) (rows d)))).
Proof.
  intros Hti Hsec Hind Hnd Hw. unfold handle_time.
  assert (match e_time e with Some ti => handle_primary e ti d (Some T) tw incl | None => Ok d end
          = Ok (filter_df (keepb e T (win_lo tw T) incl) d)) as ->.
  { destruct (e_time e) as [ti|] eqn:E.
    - apply handle_primary_eq; auto.
    - f_equal. unfold filter_df. destruct d as [c rs]; simpl; f_equal. clear Hti Hsec.
      induction rs as [|r rs IH]; simpl; [reflexivity|]. unfold keepb at 1. rewrite E. f_equal. exact IH. }
  simpl bind. rewrite (handle_secondary_fold (e_sec e) [] _ T (filter (keepb e T (win_lo tw T) incl) (rows d))).
  - reflexivity.
  - exact Hsec.
  - exact Hind.
  - exact Hnd.
  - simpl. symmetry. erewrite map_ext; [apply map_id|]. intros r; apply maskb_nil.
Qed.

Lemma foldM_handle_secondary_None secs d : foldM (handle_secondary None) secs d = Ok d.
Proof. induction secs as [|[s cs] secs IH]; simpl; [reflexivity | exact IH]. Qed.

Lemma handle_time_None e d tw incl : handle_time e d None tw incl = Ok d.
Proof.
  unfold handle_time. destruct (e_time e) as [ti|]; simpl bind; [unfold handle_primary; simpl|]; apply foldM_handle_secondary_None.
Qed.

(** value filter *)
Definition valsb (vals : option (list val)) (v : val) : bool :=
  match vals with None => true | Some l => mem_val v l && negb (is_null v) end.

Lemma valsb_series l v :
  mem_val v (filter (fun v => negb (is_null v)) (dedup_by val_eqb [] l)) = mem_val v l && negb (is_null v).
Proof.
  apply eq_true_iff_eq. rewrite andb_true_iff, !mem_val_In, filter_In, (dedup_In val_eqb val_eqb_spec). simpl. tauto.
Qed.


Lemma filter_all_false {A} (f : A -> bool) l : (forall x, In x l -> f x = false) -> filter f l = [].
Proof. induction l as [|a l IH]; simpl; intros H; [reflexivity|]. rewrite H by (left; reflexivity). apply IH. intros; apply H; right; assumption. Qed.

Lemma filter_all_true {A} (f : A -> bool) l : (forall x, In x l -> f x = true) -> filter f l = l.
Proof. induction l as [|a l IH]; simpl; intros H; [reflexivity|]. rewrite H by (left; reflexivity). f_equal. apply IH. intros; apply H; right; assumption. Qed.

Lemma query_prefix_eq es eid e vals var T tw incl :
  es_get es eid = Ok e -> In (qvar e var) (cols (e_df e)) -> win_time tw ->
  query_by_values es eid vals var None T tw incl =
  handle_time e (filter_df (fun r => valsb vals (cell (qvar e var) r)) (e_df e)) T tw incl.
Proof.
  intros He Hvar Hw. unfold query_by_values. rewrite He. cbn [bind]. fold (qvar e var).
  assert (match tw with Some w => if has_no_observations w then Ok tt else Err AssertionError | None => Ok tt end = Ok tt) as ->.
  { destruct tw as [[n|f]|]; [contradiction Hw | reflexivity | reflexivity]. }
  cbn [bind].
  assert (match vals_to_series vals with
    | None => Ok (e_df e)
    | Some [] => Ok (mkDf (cols (e_df e)) [])
    | Some (_ :: _) as vs => do _ <- check_col (e_df e) (qvar e var);
                             Ok (filter_df (fun r => mem_val (cell (qvar e var) r) (match vs with Some l => l | None => [] end)) (e_df e))
    end = Ok (filter_df (fun r => valsb vals (cell (qvar e var) r)) (e_df e))) as Heq.
  { destruct vals as [l|].
    - cbn [vals_to_series]. pose proof (valsb_series l) as Hs.
      destruct (filter _ _) as [|v0 vs] eqn:E.
      + f_equal. unfold filter_df. f_equal. symmetry. apply filter_all_false. intros r _.
        cbn [valsb]. rewrite <- Hs. reflexivity.
      + rewrite check_col_ok by exact Hvar. cbn [bind]. f_equal. unfold filter_df. f_equal.
        apply filter_ext. intros r. cbn [valsb]. apply Hs.
    - cbn [vals_to_series]. f_equal. unfold filter_df. destruct (e_df e) as [c rs]; simpl. f_equal.
      symmetry. apply filter_all_true. reflexivity. }
  destruct (vals_to_series vals) as [[|v0 vs]|].
  - rewrite Heq. cbn [bind]. destruct (handle_time _ _ _ _ _); reflexivity.
  - cbn [bind] in *. rewrite Heq. cbn [bind]. destruct (handle_time _ _ _ _ _); reflexivity.
  - rewrite Heq. cbn [bind]. destruct (handle_time _ _ _ _ _); reflexivity.
Qed.

Lemma query_cols_eq es eid vals var cs T tw incl :
  query_by_values es eid vals var (Some cs) T tw incl =
  do d <- query_by_values es eid vals var None T tw incl; select_cols d cs.
Proof.
  unfold query_by_values. destruct (es_get es eid) as [e|x]; cbn [bind]; [|reflexivity].
  destruct (match tw with Some w => _ | None => _ end); cbn [bind]; [|reflexivity].
  destruct (match vals_to_series vals with None => _ | Some _ => _ end); cbn [bind]; [|reflexivity].
  destruct (handle_time _ _ _ _ _); reflexivity.
Qed.

Lemma select_cols_ok d cs :
  incl cs (cols d) ->
  select_cols d cs = Ok (mkDf cs (map (fun r => map (fun c => (c, cell c r)) cs) (rows d))).
Proof. intros H. unfold select_cols. destruct (check_cols_ok d cs H) as (us & ->). reflexivity. Qed.

Lemma filter_filter {A} (f g : A -> bool) l : filter f (filter g l) = filter (fun x => g x && f x) l.
Proof. induction l as [|a l IH]; simpl; [reflexivity|]. destruct (g a); simpl; [destruct (f a); congruence | exact IH]. Qed.

Lemma cell_proj c cs r : In c cs -> cell c (map (fun c => (c, cell c r)) cs) = cell c r.
Proof.
  intros H. unfold cell at 1. induction cs as [|c' cs IH]; [destruct H|].
  simpl. destruct (String.eqb_spec c c') as [->|Hn]; [reflexivity|]. destruct H; [congruence | auto].
Qed.

Lemma wf_secs e : wf_entity e ->
  (forall s cs, In (s, cs) (e_sec e) -> In s (cols (e_df e)) /\ incl cs (cols (e_df e))).
Proof. intros (_ & _ & _ & H & _) s cs Hin. destruct (H s cs Hin) as (H1 & _ & H3); auto. Qed.

(** the full characterisation *)
Lemma query_exact es eid e vals var columns T tw incl :
  es_get es eid = Ok e -> wf_entity e -> independent_secondaries e -> NoDup (map fst (e_sec e)) -> win_time tw ->
  In (qvar e var) (cols (e_df e)) ->
  (forall cs, columns = Some cs -> List.incl cs (cols (e_df e))) ->
  exists keep show d,
    query_by_values es eid vals var columns (Some T) tw incl = Ok d /\
    cols d = match columns with Some cs => cs | None => cols (e_df e) end /\
    rows d = map show (filter keep (rows (e_df e))) /\
    (forall r, In r (rows (e_df e)) ->
      (keep r = true <->
         (forall l, vals = Some l -> In (cell (qvar e var) r) l /\ cell (qvar e var) r <> VNull) /\
         row_visible e T (win_lo tw T) incl r)) /\
    (forall r, In r (rows (e_df e)) -> map fst (show r) = cols d /\
      forall c, In c (cols d) ->
        (cell_hidden e T r c -> cell c (show r) = VNull) /\
        (~ cell_hidden e T r c -> cell c (show r) = cell c r)).
Proof.
  intros He Hwf Hind Hnd Hw Hvar Hcols.
  assert (NoDup (e_sec e)) as Hnd' by (eapply NoDup_map_inv; exact Hnd).
  pose proof (query_prefix_eq es eid e vals var (Some T) tw incl He Hvar Hw) as Hq.
  rewrite handle_time_eq in Hq; [| intros ti Hti; exact (proj1 (proj2 (proj2 Hwf)) ti Hti) | apply (wf_secs e Hwf) | exact Hind | exact Hnd' | exact Hw].
  cbn [filter_df rows cols] in Hq. rewrite filter_filter in Hq.
  assert (forall r c, (cell_hidden e T r c -> cell c (maskb (e_sec e) T r) = VNull) /\
                      (~ cell_hidden e T r c -> cell c (maskb (e_sec e) T r) = cell c r)) as Hmask.
  { intros r c. rewrite cell_maskb. pose proof (mask_exists_spec e T r c) as Hm.
    destruct (existsb _ _); split; intros H; try reflexivity; exfalso.
    - apply H, Hm; reflexivity.
    - apply Hm in H; discriminate. }
  assert (forall r, (valsb vals (cell (qvar e var) r) && keepb e T (win_lo tw T) incl r = true) <->
       (forall l, vals = Some l -> In (cell (qvar e var) r) l /\ cell (qvar e var) r <> VNull) /\
         row_visible e T (win_lo tw T) incl r) as Hkeep.
  { intros r. rewrite andb_true_iff, keepb_spec. destruct vals as [l|]; cbn [valsb].
    - rewrite andb_true_iff, mem_val_In. split.
      + intros [[H1 H2] H3]. split; [|exact H3]. intros l' [= <-]. split; [exact H1|]. intros E. rewrite E in H2. discriminate.
      + intros [H1 H2]. destruct (H1 l eq_refl) as [H3 H4]. split; [|exact H2]. split; [exact H3|].
        destruct (cell (qvar e var) r); [congruence|reflexivity..].
    - split; [intros [_ H]; split; [intros l [=] | exact H] | intros [_ H]; auto]. }
  destruct columns as [cs|].
  - exists (fun r => valsb vals (cell (qvar e var) r) && keepb e T (win_lo tw T) incl r),
      (fun r => map (fun c => (c, cell c (maskb (e_sec e) T r))) cs).
    eexists. rewrite query_cols_eq, Hq. cbn [bind]. rewrite select_cols_ok by (apply Hcols; reflexivity).
    split; [reflexivity|]. cbn [cols rows]. split; [reflexivity|]. split; [rewrite map_map; reflexivity|].
    split; [intros r _; apply Hkeep|]. intros r _. split; [rewrite map_map; simpl; apply map_id|].
    intros c Hc. rewrite (cell_proj c cs (maskb (e_sec e) T r) Hc). apply Hmask.
  - exists (fun r => valsb vals (cell (qvar e var) r) && keepb e T (win_lo tw T) incl r), (maskb (e_sec e) T).
    eexists. split; [exact Hq|]. cbn [cols rows]. split; [reflexivity|]. split; [reflexivity|].
    split; [intros r _; apply Hkeep|]. intros r Hr. split; [rewrite maskb_fst; exact (proj2 (proj1 Hwf) r Hr)|].
    intros c _. apply Hmask.
Qed.

(** corollaries used by the property theorems *)
Lemma window_rows es eid e ti T (w : option Z) incl :
  es_get es eid = Ok e -> wf_entity e -> e_time e = Some ti -> e_lti e = None -> e_sec e = [] ->
  exists keep,
    query_by_values es eid None None None (Some T) (option_map (fun w => WTime (fun t => t - w)%Z) w) incl
      = Ok (mkDf (cols (e_df e)) (filter keep (rows (e_df e)))) /\
    forall r, In r (rows (e_df e)) ->
      (keep r = true <->
       exists t, cell ti r = VNum t /\
         match incl, w with
         | true,  Some w => (T - w < t <= T)%Z
         | false, Some w => (T - w <= t < T)%Z
         | true,  None => (t <= T)%Z
         | false, None => (t < T)%Z
         end).
Proof.
  intros He Hwf Hti Hlti Hsec.
  exists (keepb e T (option_map (fun w => (T - w)%Z) w) incl). split.
  - rewrite (query_prefix_eq es eid e); [|exact He| exact (proj1 (proj2 Hwf)) | destruct w; exact I].
    rewrite handle_time_eq.
    + cbn [filter_df rows cols valsb]. rewrite Hsec. f_equal. f_equal.
      rewrite (filter_all_true (fun _ => true)) by reflexivity.
      erewrite map_ext; [rewrite map_id|intros r; apply maskb_nil]. destruct w; reflexivity.
    + intros t Ht. exact (proj1 (proj2 (proj2 Hwf)) t Ht).
    + rewrite Hsec. intros s cs [].
    + unfold independent_secondaries. rewrite Hsec. intros s cs s' cs' [].
    + rewrite Hsec; constructor.
    + destruct w; exact I.
  - intros r _. rewrite keepb_spec. unfold row_visible, recorded_last_time. rewrite Hti, Hlti. split.
    + intros H. destruct (H ti eq_refl) as [(t & Ht & Hup) Hlo]. exists t. split; [exact Ht|].
      destruct w as [w|]; [|destruct incl; exact Hup].
      destruct (Hlo (T - w)%Z eq_refl) as [(t' & Ht' & Hl)|(v & (lti & Hx & _) & _)]; [|discriminate].
      rewrite Ht in Ht'. injection Ht' as <-. destruct incl; lia.
    + intros (t & Ht & Hb) ti' [= <-]. rewrite Ht. split.
      * exists t. split; [reflexivity|]. destruct incl, w; lia.
      * intros l Hl. destruct w as [w|]; [|discriminate]. injection Hl as <-. left. exists t. split; [reflexivity|].
        destruct incl; lia.
Qed.

Lemma no_time_index_rows es eid e T tw incl :
  es_get es eid = Ok e -> wf_entity e -> e_time e = None -> e_sec e = [] -> win_time tw ->
  query_by_values es eid None None None (Some T) tw incl = Ok (e_df e).
Proof.
  intros He Hwf Hti Hsec Hw.
  rewrite (query_prefix_eq es eid e); [|exact He| exact (proj1 (proj2 Hwf)) | exact Hw].
  unfold handle_time. rewrite Hti, Hsec. simpl. unfold filter_df, valsb.
  rewrite (filter_all_true (fun _ => true)) by reflexivity. destruct (e_df e); reflexivity.
Qed.

Lemma query_no_time es eid e vals var tw incl :
  es_get es eid = Ok e -> In (qvar e var) (cols (e_df e)) -> win_time tw ->
  exists keep,
    query_by_values es eid vals var None None tw incl = Ok (mkDf (cols (e_df e)) (filter keep (rows (e_df e)))) /\
    forall r, In r (rows (e_df e)) ->
      (keep r = true <-> forall l, vals = Some l -> In (cell (qvar e var) r) l /\ cell (qvar e var) r <> VNull).
Proof.
  intros He Hv Hw. exists (fun r => valsb vals (cell (qvar e var) r)). split.
  - rewrite (query_prefix_eq es eid e) by assumption. apply handle_time_None.
  - intros r _. destruct vals as [l|]; cbn [valsb].
    + rewrite andb_true_iff, mem_val_In. split.
      * intros [H1 H2] l' [= <-]. split; [exact H1|]. intros E; rewrite E in H2; discriminate.
      * intros H. destruct (H l eq_refl) as [H1 H2]. split; [exact H1|]. destruct (cell _ r); [congruence|reflexivity..].
    + split; [intros _ l [=] | reflexivity].
Qed.
