(** The attribute [commutative] of the standard primitives with two columns, primitives/standard/binary_transform.py and
    primitives/base/primitive_base.py L35 (False unless a class says otherwise). *)
From Verif Require Import Base M_Feature M_Expr.

(** L261, L326, L391, L456-457 (the default), L547, L605, L815, L842.  Division is not in M_Expr. *)
Definition standard_binary : list (prim * bool) :=
  [(GreaterThan, false); (GreaterThanEqualTo, false); (LessThan, false); (LessThanEqualTo, false); (Equal, true); (NotEqual, true);
   (AddNumeric, true); (SubtractNumeric, true); (MultiplyNumeric, true); (ModuloNumeric, false); (MultiplyBoolean, true); (And, true); (Or, true)].
