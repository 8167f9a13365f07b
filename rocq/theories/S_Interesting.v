(** What interesting values are. *)
From Coq Require Import Sorting.Sorted.
From Verif Require Import Base M_Schema M_Table M_Entities.
Local Open Scope list_scope.

(** how often a value occurs in a column, and how many values are not missing *)
Definition times (col : list val) (v : val) : nat := count_occ val_eq_dec col v.
Definition present (col : list val) : list val := filter (fun v => negb (val_eqb v VNull)) col.
Definition occurs (col : list val) (v : val) : Prop := In v col /\ v <> VNull.
(** [n] different values *)
Definition different (col : list val) (n : nat) : Prop := exists l, NoDup l /\ (forall v, In v l <-> occurs col v) /\ List.length l = n.
(** more than 5% and less than 95% of the values that are not missing *)
Definition moderate (col : list val) (v : val) : Prop :=
  (List.length (present col) < 20 * times col v)%nat /\ (100 * times col v < 95 * List.length (present col))%nat.

Definition good_choice (max_values : nat) (col vals : list val) : Prop :=
  NoDup vals /\ (List.length vals <= max_values)%nat /\ (forall v, In v vals -> occurs col v) /\
  (* the most frequent first, and none left out that occurs more often *)
  StronglySorted (fun a b => times col b <= times col a)%nat vals /\
  (forall v w, In v vals -> occurs col w -> ~ In w vals -> (times col w <= times col v)%nat) /\
  (* of fewer than 25 different values as many as are asked for, otherwise those of moderate frequency *)
  forall n, different col n ->
    ((n < 25)%nat -> List.length vals = Nat.min max_values n) /\
    ((25 <= n)%nat -> (forall v, In v vals -> moderate col v) /\ forall w, occurs col w -> moderate col w -> In w vals \/ List.length vals = max_values).

Definition linked_variable (rels : list relationship) (eid vid : string) : Prop :=
  exists r, In r rels /\ ((r_ce r = eid /\ r_cv r = vid) \/ (r_pe r = eid /\ r_pv r = vid)).
Definition discrete (ty : vtype) : Prop := ty = TId \/ ty = TCategorical \/ ty = TOrdinal.
(** a variable before and after *)
Definition marked (max_values : nat) (rels : list relationship) (e : ent) (eid : string) (v v' : variable) : Prop :=
  v_id v' = v_id v /\ v_type v' = v_type v /\ v_desc v' = v_desc v /\
  (~ discrete (v_type v) -> v_values v' = v_values v) /\
  (discrete (v_type v) -> linked_variable rels eid (v_id v) -> v_values v' = []) /\
  (discrete (v_type v) -> ~ linked_variable rels eid (v_id v) -> good_choice max_values (t_column (n_tab e) (v_id v)) (v_values v')).
