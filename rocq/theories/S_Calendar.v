(** Specification for C81 and C82: the Gregorian calendar, told by what the next day is. *)
From Verif Require Import Base.
Local Open Scope Z_scope.

Definition date : Type := Z * Z * Z.
(** every fourth year has a leap day, but of the full centuries only every fourth *)
Definition leap_year (y : Z) : Prop := (4 | y) /\ ((100 | y) -> (400 | y)).
Definition last_day (y m : Z) (n : Z) : Prop :=
  (In m [4; 6; 9; 11] /\ n = 30) \/ (m = 2 /\ leap_year y /\ n = 29) \/ (m = 2 /\ ~ leap_year y /\ n = 28) \/ (In m [1; 3; 5; 7; 8; 10; 12] /\ n = 31).
(** the day after a day *)
Inductive next_day : date -> date -> Prop :=
| SameMonth y m d n : last_day y m n -> 1 <= d < n -> next_day (y, m, d) (y, m, d + 1)
| NextMonth y m n : last_day y m n -> m < 12 -> next_day (y, m, n) (y, m + 1, 1)
| NextYear y : next_day (y, 12, 31) (y + 1, 1, 1).
(** the calendar: a date and a day of the week (Monday is 0) for every day, counted from 1970-01-01, a Thursday *)
Definition calendar (date_on : Z -> date) (weekday_on : Z -> Z) : Prop :=
  date_on 0 = (1970, 1, 1) /\ weekday_on 0 = 3 /\
  (forall n, next_day (date_on n) (date_on (n + 1))) /\
  (forall n, 0 <= weekday_on n <= 6) /\
  (forall n, weekday_on (n + 1) = if weekday_on n =? 6 then 0 else weekday_on n + 1).
(** nanoseconds in a day *)
Definition a_day : Z := 24 * 60 * 60 * 1000000000.
Definition year_of (d : date) : Z := fst (fst d).
(** the week of the year by ISO 8601: weeks start on Monday and belong to the year of their Thursday; week [k] of a year is the
    one with its [k]-th Thursday *)
Definition iso_week (date_on : Z -> date) (weekday_on : Z -> Z) (n k : Z) : Prop :=
  let thursday := n + 3 - weekday_on n in
  year_of (date_on (thursday - 7 * (k - 1))) = year_of (date_on thursday) /\ year_of (date_on (thursday - 7 * k)) = year_of (date_on thursday) - 1.

(** the [k]-th birthday of someone born on a date (but on no leap day) *)
Definition birthday (date_on : Z -> date) (born k n : Z) : Prop :=
  let '(y, m, d) := date_on born in (m, d) <> (2, 29) /\ date_on n = (y + k, m, d).
