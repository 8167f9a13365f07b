(** Models entityset/entityset.py L974-1120: _handle_time, query_by_values, _vals_to_series. *)
From Verif Require Import Base M_Schema M_Table.

(** A training window after [_check_timedelta]: either a number of observations, or a time span,
    given by the function [fun t => t - training_window] (Timedelta.__rsub__). *)
Inductive window : Type :=
| WObs (n : Z)
| WTime (sub : Z -> Z).

(** timedelta.py L167 [has_no_observations] *)
Definition has_no_observations (w : window) : bool := match w with WObs _ => false | WTime _ => true end.

(** pandas comparisons of a time column with a scalar; NaT compares false.  Cells that are not
    times do not occur in a time index column; they compare false here. *)
Definition v_le (v : val) (t : Z) : bool := match v with VNum x => Z.leb x t | _ => false end.
Definition v_lt (v : val) (t : Z) : bool := match v with VNum x => Z.ltb x t | _ => false end.
Definition v_ge (v : val) (t : Z) : bool := match v with VNum x => Z.leb t x | _ => false end.
Definition v_gt (v : val) (t : Z) : bool := match v with VNum x => Z.ltb t x | _ => false end.

(** [dt.last_time_index.reindex(df.index)], L997: missing labels give NaT *)
Definition lti_at (lti : list (val * val)) (i : val) : val :=
  match dget val_eqb i lti with Some v => v | None => VNull end.

(** L985-1009, the part for an entity with time index [ti] *)
Definition handle_primary (e : entity) (ti : string) (d : df) (time_last : option Z)
    (tw : option window) (incl : bool) : res df :=
  match time_last, rows d with
  | None, _ => Ok d
  | Some _, [] => Ok d                                                  (* df_empty, L984-985 *)
  | Some t, _ =>
    do _ <- check_col d ti;
    let d := filter_df (fun r => if incl then v_le (cell ti r) t else v_lt (cell ti r) t) d in
    match tw with
    | None => Ok d
    | Some (WObs _) => Err TypeError      (* Timedelta.__rsub__ raises; excluded by query_by_values *)
    | Some (WTime sub) =>
      let lo := sub t in
      let in_w := fun v => if incl then v_gt v lo else v_ge v lo in
      Ok (filter_df (fun r =>
            in_w (cell ti r) ||
            match e_lti e with
            | Some lti => in_w (lti_at lti (cell (e_index e) r))        (* L996-1002 *)
            | None => false                                            (* L1003-1007: only a warning *)
            end) d)
    end
  end.

(** L1014-1022 for one secondary time index *)
Definition handle_secondary (time_last : option Z) (d : df) (sc : string * list string) : res df :=
  let '(s, columns) := sc in
  match time_last, rows d with
  | None, _ => Ok d
  | Some _, [] => Ok d
  | Some t, _ =>
    do _ <- check_col d s;
    do _ <- mapM (check_col d) columns;
    Ok (mkDf (cols d)
         (map (fun r =>
            if v_ge (cell s r) t                                       (* L1015: mask *)
            then map (fun cv => if mem_str (fst cv) columns then (fst cv, VNull) else cv) r
            else r) (rows d)))
  end.

(** L974-1024 [_handle_time] *)
Definition handle_time (e : entity) (d : df) (time_last : option Z) (tw : option window) (incl : bool) : res df :=
  do d <- match e_time e with
          | Some ti => handle_primary e ti d time_last tw incl
          | None => Ok d
          end;
  foldM (handle_secondary time_last) (e_sec e) d.

(** L1094-1120 [_vals_to_series] on a list of values: drop_duplicates().dropna() *)
Definition vals_to_series (vals : option (list val)) : option (list val) :=
  match vals with
  | None => None
  | Some l => Some (filter (fun v => negb (is_null v)) (dedup_by val_eqb [] l))
  end.

(** L1026-1091 [query_by_values]; [variable_id] = None means the index.  The categorical-dtype
    workaround (L1075-1080) does not change values and is not modelled. *)
Definition query_by_values (es : entityset) (eid : string) (vals : option (list val))
    (variable_id : option string) (columns : option (list string))
    (time_last : option Z) (tw : option window) (incl : bool) : res df :=
  do e <- es_get es eid;
  let var := match variable_id with Some v => v | None => e_index e end in
  let vals := vals_to_series vals in
  do _ <- match tw with
          | Some w => if has_no_observations w then Ok tt else Err AssertionError    (* L1055-1056 *)
          | None => Ok tt
          end;
  do d <- match vals with
          | None => Ok (e_df e)                                                       (* L1058-1059 *)
          | Some [] => Ok (mkDf (cols (e_df e)) [])                                   (* L1061-1062 *)
          | Some vs =>
            do _ <- check_col (e_df e) var;
            Ok (filter_df (fun r => mem_val (cell var r) vs) (e_df e))                (* L1070 *)
          end;
  do d <- handle_time e d time_last tw incl;
  match columns with
  | None => Ok d
  | Some cs => select_cols d cs                                                       (* L1088-1089 *)
  end.
