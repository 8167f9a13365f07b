(** More standard aggregations and column transforms of featuretools/primitives/standard.
    Simplifications: numbers are exact rationals; a column is a list of optional values, [None] is NaN. *)
From Coq Require Import QArith Qcanon.
From Verif Require Import Base M_Prims.
Local Open Scope list_scope.
Local Open Scope Qc_scope.

(** aggregation_primitives.py L425-446 Median: pd.Series.median, the middle of the sorted values, NaN skipped *)
Definition median_pd (c : ncol) : option Qc :=
  let s := isort qc_leb (dropna c) in
  let n := List.length s in
  if Nat.eqb n 0 then None
  else if Nat.odd n then nth_error s (Nat.div n 2)
  else match nth_error s (Nat.div n 2 - 1), nth_error s (Nat.div n 2) with
       | Some a, Some b => Some ((a + b) / (1 + 1))
       | _, _ => None
       end.

(** L472-491 Std called directly on a column: np.std calls Series.std(ddof=0), the population standard deviation; this is its square *)
Definition var_call (c : ncol) : option Qc :=
  match dropna c with
  | [] => None
  | l => let m := qsum l / qlen l in Some (qsum (map (fun x => (x - m) * (x - m)) l) / qlen l)
  end.

(** L494-512 First: x.iloc[0]; L515-533 Last: x.iloc[-1]; both raise IndexError on an empty column *)
Definition first_pd {A} (c : list (option A)) : res (option A) := match c with [] => Err IndexError | v :: _ => Ok v end.
Definition last_pd {A} (c : list (option A)) : res (option A) := match rev c with [] => Err IndexError | v :: _ => Ok v end.

(** transform_primitive.py L526-546 Percentile: Series.rank(pct=True): the average rank of equal values, over the number of values *)
Definition percentile (c : ncol) : list (option Qc) :=
  let l := dropna c in
  map (option_map (fun x => (qlen (filter (fun y => negb (qc_leb x y)) l) + (qlen (filter (fun y => Qc_eq_bool x y) l) + 1) / (1 + 1)) / qlen l)) c.
