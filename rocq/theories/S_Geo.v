(** Specification for C79: points on a sphere. *)
From Coq Require Import Reals.
Local Open Scope R_scope.

(** a vector *)
Record vec : Type := mkVec { vx : R; vy : R; vz : R }.
(** the point of the unit sphere at a latitude and a longitude in degrees *)
Definition point (lat lon : R) : vec :=
  let f := lat * PI / 180 in let l := lon * PI / 180 in mkVec (cos f * cos l) (cos f * sin l) (sin f).
Definition dot (p q : vec) : R := vx p * vx q + vy p * vy q + vz p * vz q.
(** the angle between two points of the unit sphere, seen from the centre, is the length of the shortest arc between them *)
Definition angle (p q : vec) : R := acos (dot p q).
