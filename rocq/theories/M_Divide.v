(** Arithmetic of features on fractions, with division: feature_base.py L218-222, L248-283 and
    primitives/standard/binary_transform.py L375-585, L616-708.  [M_Expr.v] models the same operators on integers, with the
    comparisons and without division.  Floats are fractions here: no rounding, no overflow, and one zero (a negative zero
    would give the other infinity). *)
From Coq Require Import List String Bool QArith.
From Verif Require Import Base.
Import ListNotations.
Local Open Scope list_scope.

(** a float: a number, an infinity (with its sign) or NaN, which is a missing value *)
Inductive num : Type := Fin (q : Q) | Inf (negative : bool) | NaN.
Definition is_neg (q : Q) : bool := match q ?= 0 with Lt => true | _ => false end.
Definition is_zero (q : Q) : bool := match q ?= 0 with Eq => true | _ => false end.

(** what numpy computes, element by element *)
Definition nadd (a b : num) : num :=
  match a, b with
  | NaN, _ | _, NaN => NaN
  | Fin x, Fin y => Fin (x + y)
  | Inf s, Inf t => if Bool.eqb s t then Inf s else NaN
  | Inf s, Fin _ | Fin _, Inf s => Inf s
  end.
Definition nneg (a : num) : num := match a with Fin x => Fin (- x) | Inf s => Inf (negb s) | NaN => NaN end.
Definition nsub (a b : num) : num := nadd a (nneg b).
Definition nmul (a b : num) : num :=
  match a, b with
  | NaN, _ | _, NaN => NaN
  | Fin x, Fin y => Fin (x * y)
  | Inf s, Inf t => Inf (xorb s t)
  | Inf s, Fin x | Fin x, Inf s => if is_zero x then NaN else Inf (xorb s (is_neg x))
  end.
Definition ndiv (a b : num) : num :=
  match a, b with
  | NaN, _ | _, NaN => NaN
  | Fin x, Fin y => if is_zero y then (if is_zero x then NaN else Inf (is_neg x)) else Fin (x / y)
  | Inf _, Inf _ => NaN
  | Inf s, Fin y => Inf (xorb s (is_neg y))
  | Fin _, Inf _ => Fin 0
  end.

Inductive aop : Type := Add | Sub | Mul | Div.
Definition elementwise (op : aop) : num -> num -> num := match op with Add => nadd | Sub => nsub | Mul => nmul | Div => ndiv end.
Definition sign (op : aop) : string := match op with Add => " + " | Sub => " - " | Mul => " * " | Div => " / " end%string.

(** features made by the operators, from variables of one entity *)
Inductive afeat : Type :=
| ABase (c : string)
| ABoth (op : aop) (f g : afeat)          (* AddNumeric, SubtractNumeric, MultiplyNumeric, DivideNumeric *)
| AScalar (op : aop) (f : afeat) (c : Q)  (* AddNumericScalar, ..., DivideNumericScalar *)
| AFrom (op : aop) (c : Q) (f : afeat).   (* ScalarSubtractNumericFeature, DivideByFeature *)

(** get_function of each primitive, on whole columns; a row gives the value of each variable *)
Fixpoint column (rows : list (string -> num)) (f : afeat) : list num :=
  match f with
  | ABase c => map (fun r => r c) rows
  | ABoth op f g => map (fun xy => elementwise op (fst xy) (snd xy)) (combine (column rows f) (column rows g))
  | AScalar op f c => map (fun v => elementwise op v (Fin c)) (column rows f)
  | AFrom op c f => map (fun v => elementwise op (Fin c) v) (column rows f)
  end.

Section Names.
  (** str of a number *)
  Variable str : Q -> string.
  (** generate_name of each primitive *)
  Fixpoint aname (f : afeat) : string :=
    match f with
    | ABase c => c
    | ABoth op f g => (aname f ++ sign op ++ aname g)%string
    | AScalar op f c => (aname f ++ sign op ++ str c)%string
    | AFrom op c f => (str c ++ sign op ++ aname f)%string
    end.
End Names.

(** Python expressions over variables and numbers *)
Inductive aexpr : Type := XVar (c : string) | XNum (q : Q) | XOp (op : aop) (a b : aexpr).
Inductive aval : Type := AFeat (f : afeat) | ANum (q : Q).
(** L218-222, and L248-283 for a number on the left: L252-253 [__radd__], L259-260 [__rsub__], L269-273 [__rtruediv__],
    L282-283 [__rmul__].  Two numbers are computed by Python, which raises ZeroDivisionError. *)
Definition apply_op (op : aop) (a b : aval) : res aval :=
  match a, b with
  | AFeat f, AFeat g => Ok (AFeat (ABoth op f g))
  | AFeat f, ANum c => Ok (AFeat (AScalar op f c))
  | ANum c, AFeat f =>
    Ok (AFeat (match op with Add => AScalar Add f c | Mul => AScalar Mul f c | Sub => AFrom Sub c f | Div => AFrom Div c f end))
  | ANum x, ANum y =>
    match op with
    | Add => Ok (ANum (x + y)) | Sub => Ok (ANum (x - y)) | Mul => Ok (ANum (x * y))
    | Div => if is_zero y then Err ZeroDivisionError else Ok (ANum (x / y))
    end
  end.
Fixpoint abuild (e : aexpr) : res aval :=
  match e with
  | XVar c => Ok (AFeat (ABase c))
  | XNum q => Ok (ANum q)
  | XOp op a b => do x <- abuild a; do y <- abuild b; apply_op op x y
  end.
