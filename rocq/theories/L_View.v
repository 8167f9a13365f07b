(** A query at a cutoff depends only on the data known at the cutoff. *)
From Verif Require Import Base BaseFacts M_Schema M_Table M_Query S_Query L_Query S_View.

Definition upb (e : entity) (T : Z) (incl : bool) (r : row) : bool :=
  match e_time e with
  | None => true
  | Some ti => if incl then v_le (cell ti r) T else v_lt (cell ti r) T
  end.

Lemma upb_spec e T incl r : upb e T incl r = true <-> stamped e T incl r.
Proof.
  unfold upb, stamped. destruct (e_time e) as [ti|].
  - rewrite upper_spec. split; [intros H ti' [= <-]; exact H | intros H; apply H; reflexivity].
  - split; [intros _ ti [=] | reflexivity].
Qed.

(** what is known of a table at [T] *)
Definition view (e : entity) (T : Z) (incl : bool) (l : list row) : list row :=
  map (maskb (e_sec e) T) (filter (upb e T incl) l).

Lemma same_row_mask e T r1 r2 : NoDup (map fst r1) -> same_row e T r1 r2 -> maskb (e_sec e) T r1 = maskb (e_sec e) T r2.
Proof.
  intros Hnd [Hf Hc].
  assert (forall r, NoDup (map fst r) -> maskb (e_sec e) T r = map (fun c => (c, cell c (maskb (e_sec e) T r))) (map fst r)) as Hform.
  { intros r Hr. rewrite map_map.
    assert (forall r', incl r' r -> NoDup (map fst r') ->
      map (fun cv => if existsb (fun sc => v_ge (cell (fst sc) r) T && mem_str (fst cv) (snd sc)) (e_sec e) then (fst cv, VNull) else cv) r'
      = map (fun x => (fst x, cell (fst x) (maskb (e_sec e) T r))) r') as H.
    { intros r' Hi Hn. apply map_ext_in. intros [c v] Hin. cbn [fst]. rewrite cell_maskb.
      destruct (existsb _ _); [reflexivity|]. f_equal. unfold cell.
      rewrite (dget_NoDup_In String.eqb String.eqb_spec c v r Hr); [reflexivity | apply Hi; exact Hin]. }
    apply H; [apply incl_refl | exact Hr]. }
  rewrite (Hform r1 Hnd), (Hform r2) by (rewrite <- Hf; exact Hnd).
  rewrite <- Hf. apply map_ext_in. intros c Hin. f_equal. rewrite !cell_maskb.
  destruct (Hc c Hin) as [H1 H2].
  pose proof (mask_exists_spec e T r1 c) as M1. pose proof (mask_exists_spec e T r2 c) as M2.
  destruct (existsb _ (e_sec e)) eqn:E1 in |- *; rewrite E1 in M1; destruct (existsb _ (e_sec e)) eqn:E2 in |- *; rewrite E2 in M2; auto.
  - exfalso. assert (cell_hidden e T r2 c) as H by (apply H1, M1; reflexivity). apply M2 in H. discriminate.
  - exfalso. assert (cell_hidden e T r1 c) as H by (apply H1, M2; reflexivity). apply M1 in H. discriminate.
  - apply H2. intros H. apply M1 in H. discriminate.
Qed.

Lemma same_rows_view e T incl l1 l2 :
  (forall r, In r l1 -> NoDup (map fst r)) -> same_rows e T incl l1 l2 -> view e T incl l1 = view e T incl l2.
Proof.
  intros Hnd H. unfold view. induction H as [|r l1 l2 Hn H IH|r l1 l2 Hn H IH|r1 r2 l1 l2 H1 H2 Hs H IH]; simpl.
  - reflexivity.
  - destruct (upb e T incl r) eqn:E; [apply upb_spec in E; contradiction|]. apply IH. intros; apply Hnd; right; assumption.
  - destruct (upb e T incl r) eqn:E; [apply upb_spec in E; contradiction|]. apply IH. exact Hnd.
  - apply upb_spec in H1, H2. rewrite H1, H2. simpl. f_equal.
    + apply same_row_mask; [apply Hnd; left; reflexivity | exact Hs].
    + apply IH. intros; apply Hnd; right; assumption.
Qed.

Lemma cell_mask_never e T r c : never_hidden e c -> cell c (maskb (e_sec e) T r) = cell c r.
Proof.
  intros H. rewrite cell_maskb. destruct (existsb _ _) eqn:E; [|reflexivity].
  apply existsb_exists in E as ([s cs] & Hin & Hx). apply andb_true_iff in Hx as [_ Hx]. cbn [fst snd] in Hx.
  apply mem_str_In in Hx. exfalso. eapply H; eassumption.
Qed.

Lemma filter_map_comm {A B} (f : A -> B) (p : B -> bool) l : filter p (map f l) = map f (filter (fun x => p (f x)) l).
Proof. induction l as [|a l IH]; simpl; [reflexivity|]. destruct (p (f a)); simpl; congruence. Qed.

(** the result as a function of the view *)
Lemma query_of_view es eid e vals var T tw incl :
  es_get es eid = Ok e -> wf_entity e -> independent_secondaries e -> NoDup (map fst (e_sec e)) -> win_time tw ->
  In (qvar e var) (cols (e_df e)) ->
  never_hidden e (e_index e) -> never_hidden e (qvar e var) -> (forall ti, e_time e = Some ti -> never_hidden e ti) ->
  query_by_values es eid vals var None (Some T) tw incl =
  Ok (mkDf (cols (e_df e))
       (filter (fun r => valsb vals (cell (qvar e var) r) && keepb e T (win_lo tw T) incl r)
          (view e T incl (rows (e_df e))))).
Proof.
  intros He Hwf Hind Hnd Hw Hvar Hni Hnv Hnt.
  assert (NoDup (e_sec e)) as Hnd' by (eapply NoDup_map_inv; exact Hnd).
  rewrite (query_prefix_eq es eid e) by assumption.
  rewrite handle_time_eq; [| intros ti Hti; exact (proj1 (proj2 (proj2 Hwf)) ti Hti) | apply (wf_secs e Hwf) | exact Hind | exact Hnd' | exact Hw].
  cbn [filter_df cols rows]. f_equal. f_equal. rewrite filter_filter. unfold view.
  rewrite filter_map_comm. f_equal. rewrite filter_filter. apply filter_ext. intros r.
  rewrite (cell_mask_never e T r _ Hnv).
  assert (keepb e T (win_lo tw T) incl (maskb (e_sec e) T r) = keepb e T (win_lo tw T) incl r) as ->.
  { unfold keepb. rewrite (cell_mask_never e T r _ Hni). destruct (e_time e) as [ti|]; [|reflexivity].
    rewrite (cell_mask_never e T r ti (Hnt ti eq_refl)). reflexivity. }
  destruct (valsb _ _); [|rewrite andb_false_r; reflexivity]. cbn [andb].
  assert (keepb e T (win_lo tw T) incl r = true -> upb e T incl r = true) as Hk.
  { unfold keepb, upb. destruct (e_time e) as [ti|]; [|reflexivity]. intros H. apply andb_true_iff in H as [H _]. exact H. }
  destruct (keepb e T (win_lo tw T) incl r); [rewrite Hk; reflexivity | rewrite andb_false_r; reflexivity].
Qed.

Lemma es_get_id es eid e : es_get es eid = Ok e -> e_id e = eid /\ In e (es_ents es).
Proof.
  unfold es_get. destruct (find _ _) as [e'|] eqn:E; [|discriminate]. intros [= <-].
  apply find_some in E as [H1 H2]. apply String.eqb_eq in H2. auto.
Qed.

Lemma query_same_known es1 es2 eid e1 e2 vals var columns T tw incl :
  es_get es1 eid = Ok e1 -> es_get es2 eid = Ok e2 -> wf_entity e1 -> wf_entity e2 ->
  independent_secondaries e1 -> NoDup (map fst (e_sec e1)) -> win_time tw ->
  In (qvar e1 var) (cols (e_df e1)) ->
  never_hidden e1 (e_index e1) -> never_hidden e1 (qvar e1 var) -> (forall ti, e_time e1 = Some ti -> never_hidden e1 ti) ->
  (tw = None \/ e_lti e1 = e_lti e2) ->
  same_known T incl e1 e2 ->
  query_by_values es1 eid vals var columns (Some T) tw incl = query_by_values es2 eid vals var columns (Some T) tw incl.
Proof.
  intros He1 He2 Hwf1 Hwf2 Hind Hnd Hw Hvar Hni Hnv Hnt Hlti (Hid & Hix & Hti & Hsec & Hcols & Hrows).
  assert (qvar e2 var = qvar e1 var) as Eq by (unfold qvar; destruct var; congruence).
  assert (query_by_values es1 eid vals var None (Some T) tw incl = query_by_values es2 eid vals var None (Some T) tw incl) as Hq.
  { rewrite (query_of_view es1 eid e1) by assumption.
    rewrite (query_of_view es2 eid e2); try assumption.
    - rewrite Eq, <- Hcols. f_equal. f_equal.
      assert (view e2 T incl (rows (e_df e2)) = view e1 T incl (rows (e_df e1))) as ->.
      { transitivity (view e1 T incl (rows (e_df e2))).
        - unfold view, upb. rewrite <- Hsec, <- Hti. reflexivity.
        - symmetry. apply same_rows_view; [|exact Hrows]. intros r Hr. destruct Hwf1 as [[Hc Hr'] _]. rewrite (Hr' r Hr). exact Hc. }
      apply filter_ext. intros r. f_equal. unfold keepb. rewrite <- Hti, <- Hix.
      destruct (e_time e1) as [ti|]; [|reflexivity]. f_equal.
      destruct Hlti as [-> | ->]; reflexivity.
    - unfold independent_secondaries. rewrite <- Hsec. exact Hind.
    - rewrite <- Hsec; exact Hnd.
    - rewrite Eq, <- Hcols; exact Hvar.
    - unfold never_hidden. rewrite <- Hsec, <- Hix. exact Hni.
    - unfold never_hidden. rewrite <- Hsec, Eq. exact Hnv.
    - unfold never_hidden. rewrite <- Hsec, <- Hti. exact Hnt. }
  destruct columns as [cs|]; [|exact Hq]. rewrite !query_cols_eq, Hq. reflexivity.
Qed.
