(** Places: primitives/standard/transform_primitive.py L549-570 [Latitude], L573-594 [Longitude], L597-662 [Haversine];
    utils/entity_utils.py L226-228 [replace_latlong_nan].
    Simplifications: floating-point numbers are real numbers (rounding is not modelled: the square root of a rounded number
    above 1 is NaN in numpy); NaN is [None]; a column is a list of rows with their index labels; pandas dataframes only. *)
From Coq Require Import Reals.
From Verif Require Import Base.
Local Open Scope R_scope.

(** a number or NaN *)
Definition num : Type := option R.
Definition lift1 (f : R -> R) (x : num) : num := match x with Some x => Some (f x) | None => None end.
Definition lift2 (f : R -> R -> R) (x y : num) : num := match x, y with Some x, Some y => Some (f x y) | _, _ => None end.

(** a value of a LatLong column: a single NaN, or a pair *)
Inductive place : Type := Lost | At (lat lon : num).
(** a row of a column: its label in the index, and the value *)
Definition gcol : Type := list (val * place).
Definition lost (p : place) : bool := match p with Lost => true | At _ _ => false end.
Definition hasnans (c : gcol) : bool := existsb (fun r => lost (snd r)) c.

(** entity_utils.py L226-228: [values.where(values.notnull(), other)]: the row of [other] with the same label, whose labels are
    0 to len - 1; NaN where there is none *)
Definition in_range (n : nat) (l : val) : bool := match l with VNum k => (0 <=? k)%Z && (k <? Z.of_nat n)%Z | _ => false end.
Definition replace_latlong_nan (c : gcol) : gcol :=
  map (fun r => (fst r, if lost (snd r) then if in_range (List.length c) (fst r) then At None None else Lost else snd r)) c.
Definition filled (c : gcol) : gcol := if hasnans c then replace_latlong_nan c else c.

(** x[0], x[1]: a single NaN is a float and has no items *)
Definition item0 (p : place) : res num := match p with At a _ => Ok a | Lost => Err TypeError end.
Definition item1 (p : place) : res num := match p with At _ b => Ok b | Lost => Err TypeError end.
(** L565-570, L589-594 *)
Definition latitude (c : gcol) : res (list num) := mapM (fun r => item0 (snd r)) (filled c).
Definition longitude (c : gcol) : res (list num) := mapM (fun r => item1 (snd r)) (filled c).

(** L643-652 on numbers; np.radians *)
Definition radians (x : R) : R := x * PI / 180.
Definition hav (lat1 lon1 lat2 lon2 : R) : R :=
  let dlon := lon2 - lon1 in
  let dlat := lat2 - lat1 in
  (sin (dlat / 2))^2 + cos lat1 * cos lat2 * (sin (dlon / 2))^2.
(** L649-651 *)
Inductive dunit : Type := Miles | Kilometers.
Definition radius_earth (u : dunit) : R := match u with Miles => 39587613 / 10000 | Kilometers => 63710088 / 10000 end.
(** np.sqrt and np.arcsin: NaN outside their domains *)
Definition np_sqrt (x : R) : num := if Rlt_dec x 0 then None else Some (sqrt x).
Definition np_arcsin (x : R) : num := if Rle_dec (-1) x then if Rle_dec x 1 then Some (asin x) else None else None.
Definition distance (u : dunit) (lat1 lon1 lat2 lon2 : R) : num :=
  match np_sqrt (hav (radians lat1) (radians lon1) (radians lat2) (radians lon2)) with
  | Some s => lift1 (fun x => radius_earth u * 2 * x) (np_arcsin s)
  | None => None
  end.
(** with NaN *)
Definition distance_nan (u : dunit) (lat1 lon1 lat2 lon2 : num) : num :=
  match lat1, lon1, lat2, lon2 with Some a, Some b, Some c, Some d => distance u a b c d | _, _, _, _ => None end.
(** L633-654: the two columns belong to one entity and have the same length *)
Definition haversine (u : dunit) (c1 c2 : gcol) : res (list num) :=
  do lat1 <- mapM (fun r => item0 (snd r)) (filled c1);
  do lon1 <- mapM (fun r => item1 (snd r)) (filled c1);
  do lat2 <- mapM (fun r => item0 (snd r)) (filled c2);
  do lon2 <- mapM (fun r => item1 (snd r)) (filled c2);
  Ok (map (fun pq => distance_nan u (fst (fst pq)) (snd (fst pq)) (fst (snd pq)) (snd (snd pq))) (combine (combine lat1 lon1) (combine lat2 lon2))).
