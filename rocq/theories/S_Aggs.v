(** What the standard aggregations are documented to compute, in elementary terms.  A column is a list of optional values. *)
From Coq Require Import QArith Qcanon Sorted.
From Verif Require Import Base.
Local Open Scope Qc_scope.

(** [n] is the number of positions of the list at which [p] holds *)
Definition number_of {A} (p : A -> Prop) (c : list A) (n : nat) : Prop :=
  exists ps, NoDup ps /\ (forall i, In i ps <-> exists a, nth_error c i = Some a /\ p a) /\ List.length ps = n.
Definition present {A} (o : option A) : Prop := exists a, o = Some a.
(** the value of a natural number *)
Definition q_of (n : nat) : Qc := Q2Qc (Z.of_nat n # 1).
(** [s] is the total of the present values *)
Inductive total : list (option Qc) -> Qc -> Prop :=
| total_nil : total [] 0
| total_missing c s : total c s -> total (None :: c) s
| total_value x c s : total c s -> total (Some x :: c) (x + s).
(** [s] lists the present values in ascending order *)
Definition in_order (c : list (option Qc)) (s : list Qc) : Prop :=
  StronglySorted Qcle s /\ Permutation (map Some s) (filter (fun o => match o with Some _ => true | None => false end) c).
(** the total of the squared distances from [m] *)
Definition spread (c : list (option Qc)) (m v : Qc) : Prop := total (map (option_map (fun x => (x - m) * (x - m))) c) v.
