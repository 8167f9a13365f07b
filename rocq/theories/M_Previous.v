(** TimeSincePrevious, primitives/standard/transform_primitive.py L62-97.
    Simplifications: exact rationals instead of floating point; timestamps are integers in nanoseconds. *)
From Coq Require Import QArith Qcanon.
From Verif Require Import Base M_Prims M_Prims2.
Local Open Scope Qc_scope.

(** L94 [values.diff()], pandas: the first row and the rows at or after a missing time have no difference *)
Fixpoint time_diff (prev : option Z) (x : list (option Z)) : list (option Z) :=
  match x with
  | [] => []
  | t :: x => match prev, t with Some p, Some t => Some (t - p)%Z | _, _ => None end :: time_diff t x
  end.
(** L92-96: total_seconds of each difference, in the unit; the unit is looked up once for the whole column *)
Definition time_since_previous (unit : string) (x : list (option Z)) : res (list (option Qc)) :=
  do _ <- convert_time_units 0 unit;
  mapM (fun g => match g with None => Ok None | Some g => do v <- convert_time_units (qz g * ns) unit; Ok (Some v) end) (time_diff None x).
