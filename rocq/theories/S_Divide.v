(** Specification for C89: the exact value of an expression, by the usual rules for fractions. *)
From Coq Require Import List String QArith.
From Verif Require Import Base M_Divide.

(** [exactly r e q]: in a row whose variables are r, the expression e is defined and has the value q *)
Inductive exactly (r : string -> num) : aexpr -> Q -> Prop :=
| exact_var c q : r c = Fin q -> exactly r (XVar c) q
| exact_num q : exactly r (XNum q) q
| exact_add a b x y : exactly r a x -> exactly r b y -> exactly r (XOp Add a b) (x + y)
| exact_sub a b x y : exactly r a x -> exactly r b y -> exactly r (XOp Sub a b) (x - y)
| exact_mul a b x y : exactly r a x -> exactly r b y -> exactly r (XOp Mul a b) (x * y)
| exact_div a b x y : exactly r a x -> exactly r b y -> ~ y == 0 -> exactly r (XOp Div a b) (x / y).

(** a variable that the expression uses *)
Fixpoint uses (e : aexpr) (c : string) : Prop :=
  match e with XVar c' => c = c' | XNum _ => False | XOp _ a b => uses a c \/ uses b c end.
(** the same number, the same infinity or both missing *)
Definition same (a b : num) : Prop :=
  match a, b with Fin x, Fin y => x == y | Inf s, Inf t => s = t | NaN, NaN => True | _, _ => False end.
