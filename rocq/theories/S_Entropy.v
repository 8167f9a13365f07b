(** Specification for C80: the entropy of a list is the average surprise of its rows. *)
From Coq Require Import Reals.
From Verif Require Import Base.
Local Open Scope R_scope.

(** how often [v] is in the list *)
Fixpoint times (v : val) (l : list val) : nat :=
  match l with [] => O | x :: l => if val_eqb v x then S (times v l) else times v l end.
(** how surprising a row with value [v] is: minus the logarithm of the share of rows like it *)
Definition surprise (l : list val) (v : val) : R := - ln (INR (times v l) / INR (List.length l)).
Fixpoint sum_of (f : val -> R) (l : list val) : R := match l with [] => 0 | x :: l => f x + sum_of f l end.
(** the average over the rows *)
Definition mean_surprise (l : list val) : R := sum_of (surprise l) l / INR (List.length l).
(** the rows that are counted *)
Definition known (l : list val) : list val := filter (fun v => negb (is_null v)) l.
