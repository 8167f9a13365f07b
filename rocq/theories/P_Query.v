(** C02, C04, C05: what a query at a cutoff time returns. *)
From Verif Require Import Base BaseFacts M_Schema M_Table M_Query S_Query L_Query.
Local Open Scope string_scope.

(** C05 (and the general form of C02 and C04).  For every entity set, value list, variable, column
    list, cutoff and window, [query_by_values] succeeds and returns, in stored order and each once,
    exactly the stored rows whose variable is one of the non-null requested values and which are
    visible at the cutoff, restricted to the requested columns; hidden cells are null and every other
    cell is the stored one. *)
Theorem C05_query_by_values_exact es eid e vals var columns T tw incl :
  es_get es eid = Ok e -> wf_entity e -> independent_secondaries e -> NoDup (map fst (e_sec e)) ->
  win_time tw -> In (qvar e var) (cols (e_df e)) ->
  (forall cs, columns = Some cs -> List.incl cs (cols (e_df e))) ->
  exists keep show d,
    query_by_values es eid vals var columns (Some T) tw incl = Ok d /\
    cols d = match columns with Some cs => cs | None => cols (e_df e) end /\
    rows d = map show (filter keep (rows (e_df e))) /\
    (forall r, In r (rows (e_df e)) ->
      (keep r = true <->
         (forall l, vals = Some l -> In (cell (qvar e var) r) l /\ cell (qvar e var) r <> VNull) /\
         row_visible e T (win_lo tw T) incl r)) /\
    (forall r, In r (rows (e_df e)) -> map fst (show r) = cols d /\
      forall c, In c (cols d) ->
        (cell_hidden e T r c -> cell c (show r) = VNull) /\
        (~ cell_hidden e T r c -> cell c (show r) = cell c r)).
Proof. exact (query_exact es eid e vals var columns T tw incl). Qed.

(** Without a cutoff time only the value filter applies. *)
Theorem C05_query_without_time es eid e vals var tw incl :
  es_get es eid = Ok e -> In (qvar e var) (cols (e_df e)) -> win_time tw ->
  exists keep,
    query_by_values es eid vals var None None tw incl = Ok (mkDf (cols (e_df e)) (filter keep (rows (e_df e)))) /\
    forall r, In r (rows (e_df e)) ->
      (keep r = true <-> forall l, vals = Some l -> In (cell (qvar e var) r) l /\ cell (qvar e var) r <> VNull).
Proof. exact (query_no_time es eid e vals var tw incl). Qed.

(** A training window given in observations is rejected. *)
Theorem C05_observation_window_rejected es eid e vals var cs T n incl :
  es_get es eid = Ok e ->
  query_by_values es eid vals var cs T (Some (WObs n)) incl = Err AssertionError.
Proof. exact (fun H => eq_trans (f_equal (fun x => bind x _) H) eq_refl). Qed.

(** C02.  Exact boundaries of the cutoff and of the training window. *)
Theorem C02_window_boundaries es eid e ti T (w : option Z) incl :
  es_get es eid = Ok e -> wf_entity e -> e_time e = Some ti -> e_lti e = None -> e_sec e = [] ->
  exists keep,
    query_by_values es eid None None None (Some T) (option_map (fun w => WTime (fun t => t - w)%Z) w) incl
      = Ok (mkDf (cols (e_df e)) (filter keep (rows (e_df e)))) /\
    forall r, In r (rows (e_df e)) ->
      (keep r = true <->
       exists t, cell ti r = VNum t /\
         match incl, w with
         | true,  Some w => (T - w < t <= T)%Z
         | false, Some w => (T - w <= t < T)%Z
         | true,  None => (t <= T)%Z
         | false, None => (t < T)%Z
         end).
Proof. exact (window_rows es eid e ti T w incl). Qed.

Theorem C02_no_time_index es eid e T tw incl :
  es_get es eid = Ok e -> wf_entity e -> e_time e = None -> e_sec e = [] -> win_time tw ->
  query_by_values es eid None None None (Some T) tw incl = Ok (e_df e).
Proof. exact (no_time_index_rows es eid e T tw incl). Qed.

(** An entity with a time index and a secondary time index. *)
Definition ex_row (i t s x : val) : row := [("id", i); ("t", t); ("s", s); ("x", x)].
Definition ex_ent : entity :=
  mkEntity "e" "id" (Some "t") [("s", ["x"; "s"])] None
    (mkDf ["id"; "t"; "s"; "x"]
       [ex_row (VNum 1) (VNum 10) (VNum 20) (VNum 100);
        ex_row (VNum 2) (VNum 12) VNull (VNum 200);
        ex_row (VNum 3) (VNum 30) (VNum 40) (VNum 300)]).
Definition ex_es : entityset := mkES [ex_ent] [].

Example C05_hypotheses_met :
  es_get ex_es "e" = Ok ex_ent /\ wf_entity ex_ent /\ independent_secondaries ex_ent /\ NoDup (map fst (e_sec ex_ent)).
Proof.
  split; [reflexivity|]. split; [|split].
  - split; [split|].
    + repeat constructor; simpl; intuition discriminate.
    + simpl. intros r H. repeat (destruct H as [<-|H]; [reflexivity|]). destruct H.
    + split; [simpl; auto|]. split; [intros t [= <-]; simpl; auto|]. split.
      * intros s cs [[= <- <-]|[]]. split; [simpl; auto|]. split; [simpl; auto|]. intros c; simpl; tauto.
      * repeat constructor; simpl; intuition discriminate.
  - intros s cs s' cs' [H|[]] [H'|[]] _. congruence.
  - repeat constructor; simpl; tauto.
Qed.

Example C05_example :
  query_by_values ex_es "e" (Some [VNum 2; VNum 1; VNum 2; VNull]) None (Some ["id"; "x"]) (Some 15%Z) None true
  = Ok (mkDf ["id"; "x"] [[("id", VNum 1); ("x", VNull)]; [("id", VNum 2); ("x", VNum 200)]]).
Proof. reflexivity. Qed.

(** C04 at the boundary: with include_cutoff_time=True data stamped exactly at the cutoff is included
    by the primary time index, but a column known exactly at the cutoff is hidden. *)
Theorem C04_secondary_boundary_refuted :
  exists es e r (T : Z) d,
    es_get es "e" = Ok e /\ In r (rows (e_df e)) /\
    In ("s", ["x"; "s"]) (e_sec e) /\ cell "s" r = VNum T /\ at_or_before true T (cell "s" r) /\
    cell "x" r = VNum 100 /\
    query_by_values es "e" None None (Some ["x"]) (Some T) None true = Ok d /\
    rows d = [[("x", VNull)]; [("x", VNum 200)]].
Proof.
  exists ex_es, ex_ent, (ex_row (VNum 1) (VNum 10) (VNum 20) (VNum 100)), 20%Z, (mkDf ["x"] [[("x", VNull)]; [("x", VNum 200)]]).
  repeat split; try (simpl; auto; fail). exists 20%Z; split; [reflexivity | lia].
Qed.

(** C04: if a secondary time column is itself listed under another secondary time index, masking the
    first hides the time needed by the second, and future data becomes visible. *)
Definition leak_ent : entity :=
  mkEntity "e" "id" None [("s1", ["s2"; "s1"]); ("s2", ["x"; "s2"])] None
    (mkDf ["id"; "s1"; "s2"; "x"] [[("id", VNum 1); ("s1", VNum 50); ("s2", VNum 60); ("x", VNum 7)]]).
Theorem C04_chained_secondary_refuted :
  exists es e r c (T : Z) d,
    es_get es "e" = Ok e /\ rows (e_df e) = [r] /\ cell_hidden e T r c /\
    query_by_values es "e" None None None (Some T) None true = Ok d /\
    map (cell c) (rows d) = [cell c r] /\ cell c r <> VNull.
Proof.
  exists (mkES [leak_ent] []), leak_ent, [("id", VNum 1); ("s1", VNum 50); ("s2", VNum 60); ("x", VNum 7)], "x", 10%Z,
    (mkDf ["id"; "s1"; "s2"; "x"] [[("id", VNum 1); ("s1", VNull); ("s2", VNull); ("x", VNum 7)]]).
  repeat split; try (simpl; auto; fail); [|discriminate].
  exists "s2", ["x"; "s2"], 60%Z. repeat split; simpl; auto. lia.
Qed.

Print Assumptions C05_query_by_values_exact.
Print Assumptions C05_query_without_time.
Print Assumptions C05_observation_window_rejected.
Print Assumptions C02_window_boundaries.
Print Assumptions C02_no_time_index.
Print Assumptions C04_secondary_boundary_refuted.
Print Assumptions C04_chained_secondary_refuted.
