(** What the standard primitives are documented to compute, in terms of whole columns. *)
From Coq Require Import QArith Qcanon.
From Verif Require Import Base.

(** the numbers of a column: missing values (and anything that is not a number) left out, booleans count as 0 and 1 *)
Definition number_of (v : val) : option Z :=
  match v with VNum z => Some z | VBool b => Some (if b then 1 else 0)%Z | VNull | VStr _ => None end.
Fixpoint numbers (vs : list val) : list Z :=
  match vs with
  | [] => []
  | v :: vs' => match number_of v with Some z => z :: numbers vs' | None => numbers vs' end
  end.
Fixpoint total (l : list Z) : Z := match l with [] => 0%Z | z :: l' => (z + total l')%Z end.
Definition least (z : Z) (l : list Z) : Prop := In z l /\ forall x, In x l -> (z <= x)%Z.
Definition greatest (z : Z) (l : list Z) : Prop := In z l /\ forall x, In x l -> (x <= z)%Z.

(** [X_upto vs x v]: [v] is the running total (smallest, largest, number, change) in the row of [x], where [vs] are the values of the
    rows before it.  The result is missing where [x] is missing; earlier missing values are skipped, except that
    the running count counts every row. *)
Definition sum_upto (vs : list val) (x v : val) : Prop :=
  v = match number_of x with Some _ => VNum (total (numbers (vs ++ [x]))) | None => VNull end.
Definition min_upto (vs : list val) (x v : val) : Prop :=
  match number_of x with Some _ => exists z, v = VNum z /\ least z (numbers (vs ++ [x])) | None => v = VNull end.
Definition max_upto (vs : list val) (x v : val) : Prop :=
  match number_of x with Some _ => exists z, v = VNum z /\ greatest z (numbers (vs ++ [x])) | None => v = VNull end.
Definition count_upto (vs : list val) (x v : val) : Prop := v = VNum (Z.of_nat (List.length vs) + 1)%Z.
Definition diff_upto (vs : list val) (x v : val) : Prop :=
  match number_of x, vs with
  | Some z, _ :: _ => match number_of (last vs VNull) with Some y => v = VNum (z - y)%Z | None => v = VNull end
  | _, _ => v = VNull
  end.
