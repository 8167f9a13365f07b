(** Models entityset/timedelta.py, utils/wrangle.py (_check_timedelta), utils/time_utils.py,
    utils/gen_utils.py (check_schema_version) and the rounding of computational_backends/utils.py.
    Durations and times are integers (nanoseconds); values of a Timedelta are integers. *)
From Coq Require Import DecimalString QArith.
From Verif Require Import Base M_Table M_CFM.
Local Close Scope Q_scope.
Local Open Scope string_scope.

(** ** Strings *)
Definition lower_ascii (a : ascii) : ascii :=
  let n := nat_of_ascii a in if (65 <=? n)%nat && (n <=? 90)%nat then ascii_of_nat (n + 32) else a.
Fixpoint lower (s : string) : string :=
  match s with EmptyString => EmptyString | String a s' => String (lower_ascii a) (lower s') end.
(** s.endswith('s') *)
Fixpoint ends_s (s : string) : bool :=
  match s with
  | EmptyString => false
  | String a EmptyString => Ascii.eqb a "s"%char
  | String _ s' => ends_s s'
  end.
Definition string_of_Z (z : Z) : string := NilEmpty.string_of_int (Z.to_int z).

(** ** Timedelta: timedelta.py *)

(** L32-46 *)
Definition absolute_units : list string := ["ms"; "s"; "h"; "m"; "d"; "w"].
Definition readable_units : list (string * string) :=
  [("ms", "Milliseconds"); ("s", "Seconds"); ("h", "Hours"); ("m", "Minutes"); ("d", "Days"); ("o", "Observations");
   ("w", "Weeks"); ("Y", "Years"); ("mo", "Months")].
Definition readable_to_unit : list (string * string) := map (fun kv => (lower (snd kv), fst kv)) readable_units.

(** nanoseconds of one absolute unit: pd.Timedelta(1, unit) *)
Definition unit_ns (u : string) : Z :=
  if u =? "ms" then 1000000 else if u =? "s" then 1000000000 else if u =? "m" then 60000000000
  else if u =? "h" then 3600000000000 else if u =? "d" then 86400000000000 else if u =? "w" then 604800000000000 else 0.

(** [delta_obj]: None, a pd.Timedelta, or a dateutil relativedelta given by its months and its fixed part *)
Inductive delta : Type :=
| DNone
| DAbs (ns : Z)
| DRel (months ns : Z).

Record timedelta : Type := mkTimedelta { times : list (string * Z); delta_obj : delta }.

(** L85-90 [_check_unit_plural] *)
Definition check_unit_plural (s : string) : string :=
  if (2 <? String.length s)%nat && negb (ends_s s) then lower (s ++ "s")
  else if (1 <? String.length s)%nat then lower s else s.

(** L123-130 [fix_units] *)
Definition fix_unit (s : string) : string :=
  let u := check_unit_plural s in match dget String.eqb u readable_to_unit with Some k => k | None => u end.
Definition fix_units (ts : list (string * Z)) : list (string * Z) :=
  fold_left (fun d uv => dset String.eqb (fix_unit (fst uv)) (snd uv) d) ts [].

(** L161-165 [is_absolute]; L173-177 [has_multiple_units] *)
Definition is_absolute (ts : list (string * Z)) : bool := forallb (fun uv => mem_str (fst uv) absolute_units) ts.
Definition has_multiple_units (ts : list (string * Z)) : bool := (1 <? List.length ts)%nat.

(** L132-137 [lower_readable_times] followed by relativedelta called with them as keyword arguments; relativedelta has no
    argument called milliseconds or observations (TypeError).  relativedelta keeps the total number of
    months and the total fixed time. *)
Definition rel_months (u : string) : Z := if u =? "Y" then 12 else if u =? "mo" then 1 else 0.
Definition relative_of (ts : list (string * Z)) : res delta :=
  do _ <- mapM (fun uv => match dget String.eqb (fst uv) readable_units with Some _ => Ok tt | None => Err KeyError end) ts;
  if existsb (fun uv => (fst uv =? "ms") || (fst uv =? "o"))%bool ts then Err TypeError
  else Ok (DRel (fold_right (fun uv a => snd uv * rel_months (fst uv) + a)%Z 0%Z ts)
                (fold_right (fun uv a => snd uv * unit_ns (fst uv) + a)%Z 0%Z ts)).

(** L103-111 [get_unit_type] *)
Definition get_unit_type (ts : list (string * Z)) : res delta :=
  if mem_str "o" (map fst ts) then Ok DNone
  else if is_absolute ts && negb (has_multiple_units ts) then
    match ts with
    | (u, v) :: _ => Ok (DAbs (v * unit_ns u))
    | [] => Err IndexError
    end
  else relative_of ts.

(** L48-65 [__init__] from a dictionary of units, with and without delta_obj *)
Definition make_td (ts : list (string * Z)) : res timedelta :=
  do d <- get_unit_type (fix_units ts); Ok (mkTimedelta (fix_units ts) d).
Definition make_td_with (ts : list (string * Z)) (d : delta) : timedelta := mkTimedelta (fix_units ts) d.

(** L150-159 [get_arguments]: one unit and value, or two lists *)
Inductive td_args : Type :=
| ArgOne (unit : string) (value : Z)
| ArgMany (units : list string) (values : list Z).
Definition get_arguments (td : timedelta) : td_args :=
  match times td with
  | [(u, v)] => ArgOne u v
  | ts => ArgMany (map fst ts) (map snd ts)
  end.

(** L67-76 [from_dictionary]; a list of values shorter than the list of units raises IndexError *)
Definition from_dictionary (a : td_args) : res timedelta :=
  match a with
  | ArgOne u v => make_td [(u, v)]
  | ArgMany us vs =>
    if (List.length vs <? List.length us)%nat then Err IndexError
    else make_td (fold_left (fun d uv => dset String.eqb (fst uv) (snd uv) d) (combine us vs) [])
  end.

(** L79-83 [make_singular] *)
Definition make_singular (s : string) : string :=
  if (1 <? String.length s)%nat && ends_s s then substring 0 (String.length s - 1) s else s.

(** L139-148 [get_name]; a unit without a readable name raises KeyError *)
Definition get_name (td : timedelta) : res string :=
  let readable u := match dget String.eqb u readable_units with Some r => Ok r | None => Err KeyError end in
  if has_multiple_units (times td) then
    do parts <- mapM (fun uv =>
      do r <- readable (if (snd uv =? 1)%Z then make_singular (fst uv) else fst uv);
      Ok (string_of_Z (snd uv) ++ " " ++ r)) (times td);
    Ok (String.concat " " parts)
  else match times td with
       | (u, v) :: _ => do r <- readable u; Ok (string_of_Z v ++ " " ++ r)
       | [] => Err IndexError
       end.

(** L167-171 [has_no_observations]: [unit in "o"] is a substring test *)
Definition td_has_no_observations (td : timedelta) : bool :=
  negb (existsb (fun uv => (fst uv =? "o") || (fst uv =? "")) (times td))%bool.

(** L185-193 [__neg__] *)
Definition neg_delta (d : delta) : delta :=
  match d with DNone => DNone | DAbs ns => DAbs (- ns) | DRel m ns => DRel (- m) (- ns) end.
Definition td_neg (td : timedelta) : res timedelta :=
  let ts := map (fun uv => (fst uv, (- snd uv)%Z)) (times td) in
  match delta_obj td with
  | DNone => make_td ts
  | d => Ok (make_td_with ts (neg_delta d))
  end.

Section Arithmetic.
  (** dateutil's calendar: [shift m t] is the time [m] months after [t], day clamped to the month *)
  Variable shift : Z -> Z -> Z.

  (** time + delta_obj, time - delta_obj for a timestamp; adding None raises TypeError *)
  Definition add_delta (t : Z) (d : delta) : res Z :=
    match d with DNone => Err TypeError | DAbs ns => Ok (t + ns)%Z | DRel m ns => Ok (shift m t + ns)%Z end.
  Definition sub_delta (t : Z) (d : delta) : res Z :=
    match d with DNone => Err TypeError | DAbs ns => Ok (t - ns)%Z | DRel m ns => Ok (shift (- m) t + - ns)%Z end.

  (** L195-207 [__radd__], [__rsub__]; the raised Exception is RuntimeError here *)
  Definition td_radd (t : Z) (td : timedelta) : res Z :=
    if mem_str "o" (map fst (times td)) then Err RuntimeError else add_delta t (delta_obj td).
  Definition td_rsub (t : Z) (td : timedelta) : res Z :=
    if mem_str "o" (map fst (times td)) then Err RuntimeError else sub_delta t (delta_obj td).
End Arithmetic.

(** ** utils/wrangle.py L61-73 [_check_timedelta] on a string: digits, then spaces, then letters, up to the end.
    No match: None has no attribute groups (AttributeError).  A trailing newline is not modelled. *)
Definition is_digit (a : ascii) : bool := let n := nat_of_ascii a in (48 <=? n)%nat && (n <=? 57)%nat.
Definition is_alpha (a : ascii) : bool :=
  let n := nat_of_ascii a in ((65 <=? n)%nat && (n <=? 90)%nat) || ((97 <=? n)%nat && (n <=? 122)%nat).
Fixpoint span (p : ascii -> bool) (s : string) : string * string :=
  match s with
  | EmptyString => (EmptyString, EmptyString)
  | String a s' => if p a then let '(x, y) := span p s' in (String a x, y) else (EmptyString, s)
  end.
Definition int_of_digits (s : string) : res Z :=
  match NilEmpty.uint_of_string s with Some u => Ok (Z.of_uint u) | None => Err ValueError end.
Definition parse_timedelta (s : string) : res timedelta :=
  let '(ds, s1) := span is_digit s in
  let '(_, s2) := span (fun a => Ascii.eqb a " ") s1 in
  let '(us, s3) := span is_alpha s2 in
  if (ds =? "") || (us =? "") || negb (s3 =? "") then Err AttributeError
  else do v <- int_of_digits ds; make_td [(us, v)].

(** ** computational_backends/utils.py *)

(** dt.floor(freq): the greatest multiple of the frequency not after the time *)
Definition floor_to (w t : Z) : Z := (t / w * w)%Z.

(** L55-76 [datetime_round]: [None] is the column None that the function returns for several units (the
    assert of a string never fails).  A frequency that is not positive raises ValueError. *)
Definition datetime_round (td : timedelta) : res (option (Z -> Z)) :=
  if negb (is_absolute (times td)) then Err ValueError
  else match times td with
       | [(u, v)] => if (0 <? v)%Z then Ok (Some (floor_to (v * unit_ns u))) else Err ValueError
       | _ => Ok None
       end.

(** L23-30 [bin_cutoff_times] for a Timedelta; the original times stay in [c_orig] (driver L245) *)
Definition bin_cutoffs (td : timedelta) (cs : list cutoff) : res (list cutoff) :=
  do f <- datetime_round td;
  Ok (map (fun c => mkCutoff (c_id c)
        (match f with Some f => option_map f (c_time c) | None => None end) (c_time c) (c_pass c)) cs).

(** L26: the lambda for an integer bin size; Python's [/] is true division *)
Definition bin_int (b x : Z) : res Q :=
  if (b =? 0)%Z then Err ZeroDivisionError else Ok (Qmult (Qdiv (inject_Z x) (inject_Z b)) (inject_Z b)).

(** ** utils/time_utils.py L4-50 [make_temporal_cutoffs] on integers.  pd.date_range needs exactly three of
    start, end, periods, freq (freq defaults to a day); a frequency that is not positive and an empty
    result of the loop raise ValueError. *)
Definition day_ns : Z := 86400000000000.
Definition range_up (start stop w : Z) : list Z :=
  if (stop <? start)%Z then [] else map (fun k => start + Z.of_nat k * w)%Z (seq 0 (S (Z.to_nat ((stop - start) / w)))).
Definition range_back (stop w : Z) (n : nat) : list Z :=
  map (fun k => stop - Z.of_nat (n - 1 - k) * w)%Z (seq 0 n).
Definition date_range (start : option Z) (stop : Z) (periods : option Z) (freq : option Z) : res (list Z) :=
  let w := match freq with Some w => w | None => day_ns end in
  if (w <=? 0)%Z then Err ValueError
  else match start, periods with
       | None, Some n => if (n <? 0)%Z then Err ValueError else Ok (range_back stop w (Z.to_nat n))
       | Some s, None => Ok (range_up s stop w)
       | None, None => Err ValueError
       | Some _, Some _ => Err ValueError
       end.
(** [(time - start) / (num_windows - 1)]: a Timedelta, truncated to nanoseconds *)
Definition window_between (s t : Z) (n : option Z) : res Z :=
  match n with
  | None => Err TypeError
  | Some n => if (n - 1 =? 0)%Z then Err ZeroDivisionError else Ok (Z.quot (t - s) (n - 1))
  end.
(** L24-47: the body of the loop, for row [i] of the zipped instance ids and cutoffs *)
Definition temporal_block (window num : option Z) (start : option (list Z)) (i : nat) (id : val) (t : Z) :
    res (list (val * Z)) :=
  do ws <- match start with
           | None => Ok (window, None)
           | Some ss =>
             match nth_error ss i with
             | None => Err IndexError
             | Some s => match window with
                         | None => do w <- window_between s t num; Ok (Some w, None)
                         | Some w => Ok (Some w, Some s)
                         end
             end
           end;
  do ts <- date_range (snd ws) t num (fst ws);
  Ok (map (fun x => (id, x)) ts).
Definition make_temporal_cutoffs (ids : list val) (cuts : list Z) (window num : option Z) (start : option (list Z)) :
    res (list (val * Z)) :=
  match window, num, start with
  | Some _, Some _, Some _ => Err ValueError
  | _, _, _ =>
    do parts <- mapM (fun it => temporal_block window num start (fst it) (fst (snd it)) (snd (snd it)))
                     (combine (seq 0 (List.length (combine ids cuts))) (combine ids cuts));
    match parts with [] => Err ValueError | _ => Ok (List.concat parts) end
  end.

(** ** utils/gen_utils.py L48-79 [check_schema_version]: the two warnings, or the TypeError of comparing a
    string with the integer fill value *)
Fixpoint split_dots_go (s acc : string) : list string :=
  match s with
  | EmptyString => [acc]
  | String a s' => if Ascii.eqb a "." then acc :: split_dots_go s' "" else split_dots_go s' (acc ++ String a "")
  end.
Definition split_dots (s : string) : list string := split_dots_go s "".

(** L64-69: whether the upgrade warning is given *)
Fixpoint newer (current saved : list string) : res bool :=
  match current, saved with
  | [], [] => Ok false
  | c :: cs, s :: ss => match String.compare c s with Gt => Ok false | Lt => Ok true | Eq => newer cs ss end
  | _, _ => Err TypeError
  end.
Definition check_schema_version (current saved : string) : res (bool * bool) :=
  do up <- newer (split_dots current) (split_dots saved);
  Ok (up, match String.compare (hd "" (split_dots current)) (hd "" (split_dots saved)) with Gt => true | _ => false end).
