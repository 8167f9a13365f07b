(** Models computational_backends/calculate_feature_matrix.py (the driver around the calculator) for pandas
    entity sets.  Progress bars, callbacks, warnings and dtype casts are not modelled.  The calculator
    ([FeatureSetCalculator(...).run], M_Calc.v) and the calculation of approximated features are
    parameters here, so the theorems about the driver hold for any of them. *)
From Verif Require Import Base M_Schema M_Table M_Query M_Calc.

(** One row of the cutoff-time frame after [_validate_cutoff_time]: instance_id, time (None = NaT),
    _original_time (the unbinned time, L245) and the other columns. *)
Record cutoff : Type := mkCutoff { c_id : val; c_time : option Z; c_orig : option Z; c_pass : row }.

(** cutoff_time as the driver passes it on: one time for a list of instances, or a frame (L162-207) *)
Inductive cutoffs : Type :=
| CSingle (t : Z) (ids : list val)
| CFrame (cs : list cutoff).

(** A row of the feature matrix: its (instance, time) label, and its cells by column name. *)
Definition mrow : Type := ((val * option Z) * row).

Definition otime_eqb (a b : option Z) : bool :=
  match a, b with Some x, Some y => Z.eqb x y | None, None => true | _, _ => false end.
Definition label_eqb (a b : val * option Z) : bool := val_eqb (fst a) (fst b) && otime_eqb (snd a) (snd b).

(** ** pandas groupby on the time column: keys ascending, null keys dropped, rows in frame order *)
Definition opt_list (o : option Z) : list Z := match o with Some z => [z] | None => [] end.
Definition time_keys (time : cutoff -> option Z) (cs : list cutoff) : list Z :=
  isort Z.leb (dedup_by Z.eqb [] (flat_map (fun c => opt_list (time c)) cs)).
Definition groupby_time (time : cutoff -> option Z) (cs : list cutoff) : list (Z * list cutoff) :=
  map (fun t => (t, filter (fun c => otime_eqb (time c) (Some t)) cs)) (time_keys time cs).

(** ** L724-732 [_chunk_dataframe_groups] *)

(** [l.iloc[i:i+n] for i in range(0, len(l), n)] for n > 0; the fuel is the length of the list *)
Fixpoint slices_f {A} (fuel n : nat) (l : list A) : list (list A) :=
  match fuel, l with
  | S fuel', _ :: _ => firstn n l :: slices_f fuel' n (skipn n l)
  | _, _ => []
  end.
Definition slices {A} (n : nat) (l : list A) : list (list A) := slices_f (List.length l) n l.

(** range(0, len, 0) raises ValueError *)
Definition chunk_groups {A} (n : nat) (gs : list (Z * list A)) : res (list (Z * list A)) :=
  if Nat.eqb n 0 && negb (Nat.eqb (List.length gs) 0) then Err ValueError
  else Ok (flat_map (fun kg => map (fun s => (fst kg, s)) (slices n (snd kg))) gs).

(** L726-728, for a single cutoff time *)
Definition chunk_single (n : nat) (t : Z) (ids : list val) : res (list cutoffs) :=
  if Nat.eqb n 0 then Err ValueError else Ok (map (CSingle t) (slices n ids)).

(** L735-744 [_handle_chunk_size]: the argument is None, or the number num/den (den > 0); floating point
    rounding of chunk_size * total_size is not modelled *)
Definition handle_chunk_size (cs : option (Z * Z)) (total : nat) : res (option nat) :=
  match cs with
  | None => Ok None
  | Some (num, den) =>
    if (0 <? num)%Z then
      if (num <? den)%Z then Ok (Some (Z.to_nat (- ((- (num * Z.of_nat total)) / den))))   (* math.ceil *)
      else Ok (Some (Z.to_nat (num / den)))                                                  (* int *)
    else Err AssertionError
  end.

Section Driver.
  Context {P : Type}.
  Variables (calc : option P -> option window -> Z -> list val -> res matrix)  (* FeatureSetCalculator(...).run *)
            (approx : list cutoff -> res P)                       (* L374 approximate_features *)
            (sort_ids : list val -> list val)                     (* L422 sort_values *)
            (now : Z)                                             (* L341-343: datetime.now(), or a number above all times *)
            (tw : option window)                                  (* training_window *)
            (pass : list string).                                 (* pass_columns *)

  Definition named (m : matrix) (vs : list val) : row := combine (m_cols m) vs.

  (** L454-466 (and L365-367 without passed columns): label the rows with the cutoff time; set_index needs
      one time per row.  The passed columns are assigned by label; a column that exists is replaced. *)
  Definition label_rows (t : Z) (n : nat) (group : list cutoff) (m : matrix) : res (list mrow) :=
    if Nat.eqb (List.length (m_rows m)) n then
      Ok (map (fun iv =>
            ((fst iv, Some t),
             fold_left (fun r c =>
               dset String.eqb c
                 (match find (fun k => val_eqb (c_id k) (fst iv)) group with
                  | Some k => cell c (c_pass k)
                  | None => VNull
                  end) r) pass (named m (snd iv)))) (m_rows m))
    else Err ValueError.

  (** L442-451: with approximate the matrix is right-merged with the rows of the group on the instance id;
      matrix columns that are also passed columns are dropped.  Then the rows are sorted by time. *)
  Definition merge_rows (group : list cutoff) (m : matrix) : list mrow :=
    let keep := filter (fun c => negb (mem_str c pass)) (m_cols m) in
    let rows := flat_map (fun k =>
      let mk vs := ((c_id k, c_orig k),
                    map (fun c => (c, match vs with Some vs => cell c (named m vs) | None => VNull end)) keep
                    ++ map (fun c => (c, cell c (c_pass k))) pass) in
      match filter (fun iv => val_eqb (fst iv) (c_id k)) (m_rows m) with
      | [] => [mk None]
      | ms => map (fun iv => mk (Some (snd iv))) ms
      end) group in
    isort (fun a b => match snd (fst a), snd (fst b) with Some x, Some y => Z.leb x y | _, None => true | None, _ => false end) rows.

  (** L331-488 [calculate_chunk].  [appr]: approximate is not None; [no_aggs]: no_unapproximated_aggs. *)
  Definition calc_chunk (appr no_aggs : bool) (size : option nat) (cut : cutoffs) : res (list mrow) :=
    match cut with
    | CSingle t ids =>                                                             (* L356-368 *)
      do m <- calc None tw t ids;
      if Nat.eqb (List.length (m_rows m)) (List.length ids)
      then Ok (map (fun iv => ((fst iv, Some t), named m (snd iv))) (m_rows m))
      else Err ValueError
    | CFrame cs =>
      do parts <- mapM (fun kg =>
        do pre <- (if appr then do p <- approx (snd kg); Ok (Some p) else Ok None);
        let inner :=
          if no_aggs && appr then [(now, snd kg)]                                  (* L408-409 *)
          else groupby_time (if appr then c_orig else c_time) (snd kg) in          (* L412-415 *)
        do inner' <- match size with Some n => chunk_groups n inner | None => Ok inner end;
        do ms <- mapM (fun tg =>
          let ids := sort_ids (map c_id (snd tg)) in
          do m <- calc pre (if no_aggs && appr then None else tw) (fst tg) ids;
          if appr then Ok (merge_rows (snd tg) m)
          else label_rows (fst tg) (List.length ids) (snd tg) m) inner';
        Ok (List.concat ms)) (groupby_time c_time cs);
      if Nat.eqb (List.length parts) 0 then Err ValueError                         (* pd.concat([]) *)
      else Ok (List.concat parts)
    end.

  Definition cut_len (cut : cutoffs) : nat :=
    match cut with CSingle _ ids => List.length ids | CFrame cs => List.length cs end.

  (** L587-690 [parallel_calculate_chunks]: [workers] is the number of workers of the cluster, [arrive] the
      order in which [as_completed] hands back the results of the chunks. *)
  Definition par_chunks (appr no_aggs : bool) (workers : nat) (arrive : list cutoffs -> list cutoffs)
      (size : option nat) (cut : cutoffs) : res (list mrow) :=
    do n <- match size with
            | Some (S n) => Ok (S n)
            | _ => match handle_chunk_size (Some (1, Z.of_nat workers)%Z) (cut_len cut) with   (* L626-627 *)
                   | Ok (Some n) => Ok n
                   | Ok None => Err AssertionError
                   | Err e => Err e
                   end
            end;
    do chunks <- match cut with
                 | CSingle t ids => chunk_single n t ids
                 | CFrame cs => do gs <- chunk_groups n (groupby_time c_time cs); Ok (map (fun kg => CFrame (snd kg)) gs)
                 end;
    do parts <- mapM (calc_chunk appr no_aggs None) (arrive chunks);
    if Nat.eqb (List.length parts) 0 then Err ValueError else Ok (List.concat parts).

  (** L303-313: reindex to the order of the input.  A frame is reindexed by (instance, time): the labels of
      the matrix must be distinct (ValueError), labels that are absent give a row of nulls.  A single
      cutoff reindexes on the instance level, which requires distinct instances (NotImplementedError, a
      RuntimeError). *)
  Definition distinct_by {A} (eqb : A -> A -> bool) (l : list A) : bool :=
    Nat.eqb (List.length (dedup_by eqb [] l)) (List.length l).

  Definition reindex (cut : cutoffs) (rows : list mrow) : res (list mrow) :=
    match cut with
    | CFrame cs =>
      if distinct_by label_eqb (map fst rows) then
        Ok (map (fun c =>
              let k := (c_id c, c_time c) in
              (k, match snd k with
                  | Some _ => match dget label_eqb k rows with Some r => r | None => [] end
                  | None => []
                  end)) cs)
      else Err ValueError
    | CSingle t ids =>
      if distinct_by val_eqb ids
      then Ok (flat_map (fun i => filter (fun r => val_eqb (fst (fst r)) i) rows) ids)
      else Err RuntimeError
    end.

  (** how the chunks are computed: in this process, or by workers (L269-300) *)
  Inductive mode : Type :=
  | Sequential
  | Workers (n : nat) (arrive : list cutoffs -> list cutoffs).

  (** L237-328, from the binned cutoff times [cut] (equal to the given ones [cut0] without approximate) *)
  Definition cfm (m : mode) (appr no_aggs : bool) (chunk_size : option (Z * Z)) (cut0 cut : cutoffs) : res (list mrow) :=
    do size <- handle_chunk_size chunk_size (cut_len cut0);
    do rows <- match m with
               | Sequential => calc_chunk appr no_aggs size cut
               | Workers n arrive => par_chunks appr no_aggs n arrive size cut
               end;
    reindex cut0 rows.
End Driver.

(** ** computational_backends/utils.py *)

(** L118-132 [n_jobs_to_workers] *)
Definition n_jobs_to_workers (cpus n_jobs : Z) : res Z :=
  let workers := if (n_jobs <? 0)%Z then Z.max (cpus + 1 + n_jobs) 1 else Z.min n_jobs cpus in
  if (0 <? workers)%Z then Ok workers else Err AssertionError.

(** frame.rename(columns={a: b}) *)
Definition rename_col (a b : string) (d : df) : df :=
  let f c := if String.eqb c a then b else c in
  mkDf (map f (cols d)) (map (map (fun cv => (f (fst cv), snd cv))) (rows d)).

(** L220-247 [_validate_cutoff_time] for a frame.  [index] and [time_index] are those of the target entity. *)
Definition validate_cutoff (index : string) (time_index : option string) (d : df) : res df :=
  do d1 <- (if mem_str "instance_id" (cols d) then Ok d
            else if negb (mem_str index (cols d)) then Err AttributeError
            else Ok (rename_col index "instance_id" d));
  do d2 <- (if mem_str "time" (cols d1) then Ok d1
            else match time_index with
                 | Some ti => if negb (mem_str ti (cols d1)) then Err AttributeError
                              else Ok (rename_col ti "time" d1)
                 | None => Ok d1                                   (* rename({None: "time"}) changes nothing *)
                 end);
  if mem_str "instance_id" (cols d2) && mem_str index (cols d2) && negb (String.eqb "instance_id" index)
  then Err AttributeError
  else if match time_index with
          | Some ti => mem_str "time" (cols d2) && mem_str ti (cols d2) && negb (String.eqb "time" ti)
          | None => false
          end then Err AttributeError
  else
    do _ <- check_col d2 "instance_id"; do _ <- check_col d2 "time";
    if distinct_by (fun a b => val_eqb (fst a) (fst b) && val_eqb (snd a) (snd b))
         (map (fun r => (cell "instance_id" r, cell "time" r)) (rows d2))
    then Ok d2 else Err AssertionError.

(** L256-276 [_check_cutoff_time_type] on the kind of the time values *)
Inductive time_kind : Type := KNumeric | KDatetime | KOther.
Definition check_cutoff_type (es_kind : option time_kind) (kind : time_kind) : res unit :=
  match es_kind, kind with
  | Some KNumeric, KNumeric | Some KDatetime, KDatetime => Ok tt
  | Some KNumeric, _ | Some KDatetime, _ => Err TypeError
  | _, _ => Ok tt
  end.
