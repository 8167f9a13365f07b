(** What "visible at the cutoff" means. *)
From Verif Require Import Base M_Schema M_Table M_Query.

(** a cell holding a time at or before the cutoff (strictly before it when the cutoff time itself is
    excluded) *)
Definition at_or_before (include_cutoff : bool) (T : Z) (v : val) : Prop :=
  exists t, v = VNum t /\ if include_cutoff then (t <= T)%Z else (t < T)%Z.

(** a cell holding a time after the start [lo] of the training window (or at it, when the cutoff time
    is excluded, so that the window always has the length asked for) *)
Definition after_start (include_cutoff : bool) (lo : Z) (v : val) : Prop :=
  exists t, v = VNum t /\ if include_cutoff then (lo < t)%Z else (lo <= t)%Z.

(** the last time recorded for an index value *)
Definition recorded_last_time (e : entity) (i v : val) : Prop :=
  exists lti, e_lti e = Some lti /\ dget val_eqb i lti = Some v.

(** row [r] of [e] takes part at cutoff [T] with window start [lo] ([None]: no window) *)
Definition row_visible (e : entity) (T : Z) (lo : option Z) (include_cutoff : bool) (r : row) : Prop :=
  forall ti, e_time e = Some ti ->
    at_or_before include_cutoff T (cell ti r) /\
    forall l, lo = Some l ->
      after_start include_cutoff l (cell ti r) \/
      exists v, recorded_last_time e (cell (e_index e) r) v /\ after_start include_cutoff l v.

(** column [c] of row [r] is hidden at [T]: it is listed under a secondary time index whose value in
    this row is at or after [T] *)
Definition cell_hidden (e : entity) (T : Z) (r : row) (c : string) : Prop :=
  exists s cs t, In (s, cs) (e_sec e) /\ In c cs /\ cell s r = VNum t /\ (T <= t)%Z.

(** no secondary time column is listed under another secondary time index *)
Definition independent_secondaries (e : entity) : Prop :=
  forall s cs s' cs', In (s, cs) (e_sec e) -> In (s', cs') (e_sec e) -> In s cs' -> (s, cs) = (s', cs').

(** start of a training window at cutoff [T]; windows counted in observations are rejected *)
Definition win_lo (tw : option window) (T : Z) : option Z :=
  match tw with Some (WTime f) => Some (f T) | _ => None end.
Definition win_time (tw : option window) : Prop :=
  match tw with Some (WObs _) => False | _ => True end.

(** the queried variable; [None] means the index *)
Definition qvar (e : entity) (var : option string) : string :=
  match var with Some v => v | None => e_index e end.
