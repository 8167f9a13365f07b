(** The primitives about dates: primitives/standard/transform_primitive.py L100-328 (Day, Hour, Second, Minute, Week, Month, Year,
    IsWeekend, Weekday) and L665-695 (Age).  They are one call of pandas each ([vals.dt.day] and so on); what pandas computes is
    modelled here as its C code does it.  Datetimes are nanoseconds since 1970-01-01 00:00 (integers, without pandas' bounds of
    the years 1677 to 2262); NaT and NaN are [None]; no time zones. *)
From Coq Require Import QArith.
From Verif Require Import Base.
Local Open Scope Z_scope.

Definition day_length : Z := 86400 * 1000000000.
(** the number of days since 1970-01-01 *)
Definition day_of (t : Z) : Z := t / day_length.

(** is_leapyear (np_datetime.c) *)
Definition is_leapyear (y : Z) : bool := (y mod 4 =? 0) && (negb (y mod 100 =? 0) || (y mod 400 =? 0)).
(** days_to_yearsdays (np_datetime.c): the year, and the day in the year from 0, counting from 2000 in cycles of 400, 100, 4 and 1 years *)
Definition days_to_yearsdays (days : Z) : Z * Z :=
  let d := days - (365 * 30 + 7) in
  let y := 2000 + 400 * (d / 146097) in
  let r := d mod 146097 in
  if 366 <=? r then
    let y := y + 100 * ((r - 1) / 36524) in
    let r := (r - 1) mod 36524 in
    if 365 <=? r then
      let y := y + 4 * ((r + 1) / 1461) in
      let r := (r + 1) mod 1461 in
      if 366 <=? r then (y + (r - 1) / 365, (r - 1) mod 365) else (y, r)
    else (y, r)
  else (y, r).
(** days_per_month_table (np_datetime.c) *)
Definition days_per_month (leap : bool) : list Z := [31; if leap then 29 else 28; 31; 30; 31; 30; 31; 31; 30; 31; 30; 31].
(** set_datetimestruct_days: the month and the day in the month from 1 *)
Fixpoint find_month (ls : list Z) (m d : Z) : Z * Z :=
  match ls with [] => (m, d + 1) | n :: ls => if d <? n then (m, d + 1) else find_month ls (m + 1) (d - n) end.
Definition date_parts (days : Z) : Z * Z * Z :=
  let yd := days_to_yearsdays days in
  let md := find_month (days_per_month (is_leapyear (fst yd))) 1 (snd yd) in
  (fst yd, fst md, snd md).

(** dayofweek (ccalendar.pyx): Sakamoto's method, Monday is 0 *)
Definition sakamoto : list Z := [0; 3; 2; 5; 0; 3; 5; 1; 4; 6; 2; 4].
Definition dayofweek (y m d : Z) : Z :=
  let y := if m <? 3 then y - 1 else y in
  let day := (y + y / 4 - y / 100 + y / 400 + nth (Z.to_nat (m - 1)) sakamoto 0 + d) mod 7 in
  (day + 6) mod 7.
(** get_day_of_year (ccalendar.pyx), from 1 *)
Definition day_of_year (y m d : Z) : Z := fold_left Z.add (firstn (Z.to_nat (m - 1)) (days_per_month (is_leapyear y))) 0 + d.
(** get_iso_calendar (ccalendar.pyx), the week *)
Definition week_of_year (y m d : Z) : Z :=
  let dow := dayofweek y m d in
  let w := (day_of_year y m d - 1) - dow + 3 in
  let w := if 0 <=? w then w / 7 + 1 else w in
  if w <? 0 then if (-2 <? w) || ((w =? -2) && is_leapyear (y - 1)) then 53 else 52
  else if w =? 53 then if 31 - d + dow <? 3 then 1 else 53
  else w.

(** the primitives, value by value *)
Definition on_date (f : Z -> Z -> Z -> Z) (t : option Z) : option Z :=
  match t with Some t => let p := date_parts (day_of t) in Some (f (fst (fst p)) (snd (fst p)) (snd p)) | None => None end.
Definition year := on_date (fun y m d => y).
Definition month := on_date (fun y m d => m).
Definition day := on_date (fun y m d => d).
Definition weekday := on_date dayofweek.
Definition week := on_date week_of_year.
(** the rest of the day *)
Definition on_clock (f : Z -> Z) (t : option Z) : option Z := match t with Some t => Some (f (t mod day_length)) | None => None end.
Definition hour := on_clock (fun r => r / (3600 * 1000000000)).
Definition minute := on_clock (fun r => r / (60 * 1000000000) mod 60).
Definition second := on_clock (fun r => r / 1000000000 mod 60).
(** L297 [vals.dt.weekday > 4]: comparisons with NaN are false *)
Definition is_weekend (t : option Z) : bool := match weekday t with Some w => 4 <? w | None => false end.
(** L693-694: whole days (rounded down), divided by 365 *)
Definition age (time : Z) (x : option Z) : option Q :=
  match x with Some b => Some (((time - b) / day_length) # 365) | None => None end.
