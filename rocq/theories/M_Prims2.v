(** Aggregations over times and most common values: featuretools/primitives/standard/aggregation_primitives.py and
    featuretools/utils/time_utils.py.
    Simplifications: exact rationals instead of floating point; timestamps are integers in nanoseconds. *)
From Coq Require Import QArith Qcanon.
From Verif Require Import Base M_Prims.
Local Open Scope string_scope.
Local Open Scope list_scope.
Local Open Scope Qc_scope.

Definition qz (z : Z) : Qc := Q2Qc (z # 1).

(** time_utils.py L63-70: seconds per unit *)
Definition unit_divs : list (string * Qc) :=
  [("years", qz 31540000); ("months", qz 2628000); ("days", qz 86400); ("hours", qz 3600); ("minutes", qz 60);
   ("seconds", qz 1); ("milliseconds", Q2Qc (1 # 1000)); ("nanoseconds", Q2Qc (1 # 1000000000))].
(** time_utils.py L53-74 [convert_time_units] *)
Definition convert_time_units (secs : Qc) (unit : string) : res Qc :=
  match dget String.eqb unit unit_divs with
  | None => Err ValueError
  | Some d => Ok (secs / d)
  end.

Definition ns : Qc := Q2Qc (1 # 1000000000).

(** aggregation_primitives.py L362-423 AvgTimeBetween, for timestamps: dropna, then (max - min) / (len - 1).  [None] is NaN. *)
Definition avg_time_between (unit : string) (x : list (option Z)) : res (option Qc) :=
  match dropna x with
  | [] | [_] => Ok None
  | t :: l =>
    let mx := fold_left Z.max l t in
    let mn := fold_left Z.min l t in
    let avg := qz (mx - mn) / (qlen (t :: l) - 1) in
    do v <- convert_time_units (avg * ns) unit; Ok (Some v)
  end.

(** aggregation_primitives.py L642-647 and L692-697: the time between the cutoff and the last (first) value of the column *)
Definition time_since (unit : string) (cutoff : Z) (v : Z) : res Qc := convert_time_units (qz (cutoff - v) * ns) unit.
Definition time_since_last (unit : string) (cutoff : Z) (x : list Z) : res Qc :=
  match rev x with [] => Err IndexError | v :: _ => time_since unit cutoff v end.
Definition time_since_first (unit : string) (cutoff : Z) (x : list Z) : res Qc :=
  match x with [] => Err IndexError | v :: _ => time_since unit cutoff v end.

(** aggregation_primitives.py L771-779 [find_dividend_by_unit] for a whole number of seconds *)
Definition find_dividend (secs : Z) : Z :=
  if Z.eqb (secs mod 86400) 0 then 86400 else if Z.eqb (secs mod 3600) 0 then 3600 else if Z.eqb (secs mod 60) 0 then 60 else 1.
(** L756-761 [convert_datetime_to_floats]: int() truncates *)
Definition datetime_to_floats (xs : list Z) : list Qc :=
  match xs with
  | [] => []
  | x0 :: _ => map (fun x => qz x * (ns / qz (find_dividend (Z.quot x0 1000000000)))) xs
  end.

Definition qmean (l : list Qc) : Qc := qsum l / qlen l.
Definition qdot (a b : list Qc) : Qc := qsum (map (fun xy => fst xy * snd xy) (combine a b)).

(** L749 np.polyfit(x, y, 1)[0]: the slope of the least-squares line, from the normal equations *)
Definition polyfit_slope (x y : list Qc) : Qc :=
  (qlen x * qdot x y - qsum x * qsum y) / (qlen x * qdot x x - qsum x * qsum x).

(** L724-753 Trend for timestamps [x] and numbers [y]: rows with a missing value are dropped; fewer than three rows give NaN *)
Definition trend (y : list (option Qc)) (x : list (option Z)) : option Qc :=
  let df := dropna (map (fun yx : option Qc * option Z => match yx with (Some a, Some b) => Some (a, b) | _ => None end) (combine y x)) in
  if Nat.leb (List.length df) 2 then None
  else
    let xs := datetime_to_floats (map snd df) in
    let ys := map fst df in
    let xc := map (fun a => a - qmean xs) xs in
    let yc := map (fun a => a - qmean ys) ys in
    if Nat.eqb (List.length (dedup_by (fun a b : Qc => if Qc_eq_dec a b then true else false) [] xc)) 1 then Some 0
    else Some (polyfit_slope xc yc).

(** number of occurrences *)
Definition occurrences {A} (eqb : A -> A -> bool) (a : A) (l : list A) : nat := List.length (filter (eqb a) l).

Section MostCommon.
  Context {A : Type} (eqb leb : A -> A -> bool).
  (** pandas Series.value_counts().index: the distinct values, by falling number of occurrences.  The order of values
      that occur equally often is not specified by pandas; [order] is any such order. *)
  Variable order : list A -> list A.
  (** aggregation_primitives.py L319-359 NMostCommon(n) *)
  Definition n_most_common (n : nat) (c : list (option A)) : list (option A) :=
    let array := map Some (firstn n (order (dropna c))) in
    array ++ repeat None (n - List.length array).
  (** L117-139 Mode: Series.mode() lists the most frequent values in ascending order; .get(0, nan) *)
  Definition mode (c : list (option A)) : option A :=
    let l := dropna c in
    let top := fold_left Nat.max (map (fun a => occurrences eqb a l) l) 0%nat in
    hd_error (isort leb (filter (fun a => Nat.eqb (occurrences eqb a l) top) (dedup_by eqb [] l))).
End MostCommon.
