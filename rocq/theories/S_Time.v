(** What durations, rounding, versions and temporal cutoffs mean. *)
From Verif Require Import Base M_Time.

(** a duration built by the library: from units alone, or from units and the pandas object they came from *)
Definition built (td : timedelta) : Prop :=
  (exists ts, make_td ts = Ok td) \/
  (exists ts d, td = make_td_with ts d /\ d <> DNone /\ ~ In "o"%string (map fst (times td))).

Definition counts_observations (td : timedelta) : Prop := In "o"%string (map fst (times td)).

(** the spellings the documentation promises for a unit [u] with readable name [r] *)
Definition spellings (u r : string) : list string :=
  [u; r; lower r; substring 0 (String.length r - 1) r; lower (substring 0 (String.length r - 1) r)].

(** the lengths of the fixed units in nanoseconds *)
Definition unit_lengths : list (string * Z) :=
  let ms := 1000000%Z in let s := (1000 * ms)%Z in let m := (60 * s)%Z in let h := (60 * m)%Z in let d := (24 * h)%Z in
  [("ms", ms); ("s", s); ("m", m); ("h", h); ("d", d); ("w", (7 * d)%Z)]%string.

(** [b] is the greatest multiple of [w] not after [t] *)
Definition greatest_multiple (w t b : Z) : Prop :=
  (exists k, b = k * w)%Z /\ (b <= t)%Z /\ forall k, (k * w <= t)%Z -> (k * w <= b)%Z.

(** each element is [w] after the one before it *)
Definition spaced (w : Z) (l : list Z) : Prop :=
  forall i a b, nth_error l i = Some a -> nth_error l (S i) = Some b -> b = (a + w)%Z.

(** dotted decimal versions: components missing at the end count as 0 *)
Fixpoint version_older (a b : list nat) : bool :=
  match a, b with
  | [], b => existsb (fun n => negb (Nat.eqb n 0)) b
  | _ :: _, [] => false
  | x :: a', y :: b' => if Nat.eqb x y then version_older a' b' else Nat.ltb x y
  end.
Definition dotted (v : list nat) : string := String.concat "."%string (map (fun n => string_of_Z (Z.of_nat n)) v).
