(** What the selection functions should keep. *)
From Coq Require Import QArith.
From Verif Require Import Base M_Schema M_Feature M_Select.
Local Close Scope Q_scope.

(** [m'] is [m] without exactly the columns that do not satisfy [P]; order and contents are kept *)
Definition keeps_exactly (P : string * list val -> Prop) (m m' : fmatrix) : Prop :=
  exists keepb, m' = filter keepb m /\ forall c, In c m -> (keepb c = true <-> P c).

Definition nulls (col : list val) : Z := Z.of_nat (List.length (filter is_null col)).
Definition rows_of (col : list val) : Z := Z.of_nat (List.length col).
(** the fraction of nulls is above / below / equal to [t], without division *)
Definition null_fraction_cmp (col : list val) (t : Q) : comparison := (nulls col * Zpos (Qden t) ?= Qnum t * rows_of col)%Z.

(** two different values, nulls counting only when asked *)
Definition two_values (count_nan : bool) (col : list val) : Prop :=
  exists a b, In a col /\ In b col /\ a <> b /\ (count_nan = false -> a <> VNull /\ b <> VNull).

(** in the list, before *)
Definition before {A} (a b : A) (l : list A) : Prop := exists x y z, l = x ++ a :: y ++ b :: z.

(** the absolute correlation of two columns is known and at least the threshold *)
Definition correlated (corr : list val -> list val -> option Q) (t : Q) (a b : list val) : Prop := exists c, corr a b = Some c /\ Qle t c.
