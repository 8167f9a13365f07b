(** Standard primitives of featuretools/primitives/standard whose functions are written in the repository
    (or are one pandas/numpy call): the cumulative transforms, and the aggregations together with their
    partitioned (Dask) implementations.
    Simplifications: numbers are exact (integers in cells, rationals for quotients), no floating point. *)
From Coq Require Import QArith Qcanon.
From Verif Require Import Base M_Feature.
Local Open Scope string_scope.
Local Open Scope list_scope.

(** numeric reading of a cell: numbers, booleans as 0/1, anything else is NaN *)
Definition as_num (v : val) : option Z :=
  match v with VNum z => Some z | VBool true => Some 1%Z | VBool false => Some 0%Z | _ => None end.
Definition of_num (o : option Z) : val := match o with Some z => VNum z | None => VNull end.

(** pandas Series.cumsum / cummin / cummax (cum_transform_feature.py L28, L105, L131): one pass with an
    accumulator; NaN stays NaN in its own row and is skipped by the accumulator *)
Fixpoint scan (op : Z -> Z -> Z) (acc : option Z) (l : list (option Z)) : list (option Z) :=
  match l with
  | [] => []
  | None :: l' => None :: scan op acc l'
  | Some x :: l' =>
    let a := match acc with Some y => op y x | None => x end in
    Some a :: scan op (Some a) l'
  end.

(** cum_transform_feature.py L26-30 *)
Definition cum_sum (vs : list val) : list val := map of_num (scan Z.add None (map as_num vs)).
(** cum_transform_feature.py L51-55: np.arange(1, len(values) + 1) *)
Definition cum_count (vs : list val) : list val := map (fun n => VNum (Z.of_nat n)) (seq 1 (List.length vs)).
(** cum_transform_feature.py L103-107 *)
Definition cum_min (vs : list val) : list val := map of_num (scan Z.min None (map as_num vs)).
(** cum_transform_feature.py L129-133 *)
Definition cum_max (vs : list val) : list val := map of_num (scan Z.max None (map as_num vs)).
(** cum_transform_feature.py L77-81: values.cumsum() / np.arange(1, len(values) + 1); quotients are rationals *)
Definition cum_mean (vs : list val) : list (option Qc) :=
  map (fun xn : option Z * nat => match fst xn with Some s => Some (Q2Qc (s # Pos.of_nat (snd xn))) | None => None end)
    (combine (scan Z.add None (map as_num vs)) (seq 1 (List.length vs))).

(** transform_primitive_base.py L15-20 [generate_name], without constructor arguments *)
Definition trans_name (name : string) (bases : list string) : string := (name ++ "(" ++ String.concat ", " bases ++ ")")%string.

(** a transform of one column that uses the full entity, default NaN (cum_transform_feature.py: uses_full_entity = True in each class) *)
Definition full_transform (cls name : string) (f : list val -> list val) : prim :=
  mkPrim cls 1 true false VNull false (trans_name name) (fun _ _ _ _ _ => "")
    (fun _ cs => [f (hd [] cs)]) (fun _ _ => []).

(** cum_transform_feature.py L7-30, L33-55, L84-107, L110-133 *)
Definition CumSum : prim := full_transform "CumSum" "CUM_SUM" cum_sum.
Definition CumCount : prim := full_transform "CumCount" "CUM_COUNT" cum_count.
Definition CumMin : prim := full_transform "CumMin" "CUM_MIN" cum_min.
Definition CumMax : prim := full_transform "CumMax" "CUM_MAX" cum_max.

(** pandas Series.diff (transform_primitive.py L476-479) *)
Fixpoint diff_from (prev : option Z) (l : list (option Z)) : list (option Z) :=
  match l with
  | [] => []
  | x :: l' => match prev, x with Some a, Some b => Some (b - a)%Z | _, _ => None end :: diff_from x l'
  end.
Definition diff (vs : list val) : list val := map of_num (diff_from None (map as_num vs)).
(** transform_primitive.py L454-479 *)
Definition Diff : prim := full_transform "Diff" "DIFF" diff.

(** ** Aggregations: the in-memory function *)
Section Aggregations.
  Local Open Scope Qc_scope.
  (** a numeric column: [None] is NaN *)
  Definition ncol : Type := list (option Qc).
  Definition some_of {A} (o : option A) : list A := match o with Some a => [a] | None => [] end.
  (** Series.dropna *)
  Definition dropna {A} (c : list (option A)) : list A := flat_map some_of c.
  Definition qsum (l : list Qc) : Qc := fold_left Qcplus l 0.
  Definition qlen {A} (l : list A) : Qc := Q2Qc (Z.of_nat (List.length l) # 1).
  Definition qc_leb (a b : Qc) : bool := if Qclt_le_dec b a then false else true.

  (** aggregation_primitives.py L24-46 Count: pd.Series.count *)
  Definition count_pd {A} (c : list (option A)) : nat := List.length (dropna c).
  (** L52-73 Sum: np.sum of a Series skips NaN *)
  Definition sum_pd (c : ncol) : Qc := qsum (dropna c).
  (** L76-114 Mean: np.mean of a Series skips NaN; np.mean of its values (skipna=False) does not *)
  Definition mean_pd (skipna : bool) (c : ncol) : option Qc :=
    if skipna then match dropna c with [] => None | l => Some (qsum l / qlen l) end
    else if forallb (fun o => match o with Some _ => true | None => false end) c
         then match dropna c with [] => None | l => Some (qsum l / qlen l) end
         else None.
  (** L142-183 Min, Max *)
  Fixpoint best (le : Qc -> Qc -> bool) (acc : option Qc) (l : list Qc) : option Qc :=
    match l with
    | [] => acc
    | x :: l' => best le (Some (match acc with Some y => if le y x then y else x | None => x end)) l'
    end.
  Definition min_pd (c : ncol) : option Qc := best qc_leb None (dropna c).
  Definition max_pd (c : ncol) : option Qc := best (fun a b => qc_leb b a) None (dropna c).
  (** L472-491 Std returns np.std.  Inside groupby(...).agg pandas replaces np.std by its own 'std' (the sample standard deviation);
      this is its square.  Called directly np.std is the population standard deviation: see [var_call] in M_Prims3.v. *)
  Definition var_pd (c : ncol) : option Qc :=
    match dropna c with
    | [] | [_] => None
    | l => let m := qsum l / qlen l in Some (qsum (map (fun x => (x - m) * (x - m)) l) / (qlen l - 1))
    end.

  (** L186-228 NumUnique: pd.Series.nunique *)
  Definition nunique_pd {A} (eqb : A -> A -> bool) (c : list (option A)) : nat := List.length (dedup_by eqb [] (dropna c)).
  (** L231-265 NumTrue: np.sum of booleans *)
  Definition bsum (l : list bool) : Z := fold_left (fun n (b : bool) => if b then (n + 1)%Z else n) l 0%Z.
  Definition num_true_pd (c : list (option bool)) : Z := bsum (dropna c).
  (** L268-316 PercentTrue: s.fillna(0).mean() *)
  Definition fillna0 (c : list (option bool)) : list bool := map (fun o => match o with Some b => b | None => false end) c.
  Definition percent_true_pd (c : list (option bool)) : option Qc :=
    match c with [] => None | _ => Some (Q2Qc (bsum (fillna0 c) # 1) / qlen (fillna0 c)) end.
  (** L536-565 Any and L568-597 All: np.any / np.all of a Series skip NaN *)
  Definition any_pd (c : list (option bool)) : bool := existsb (fun b => b) (dropna c).
  Definition all_pd (c : list (option bool)) : bool := forallb (fun b => b) (dropna c).
End Aggregations.

(** ** Aggregations: the partitioned implementation *)
(** dask.dataframe.Aggregation(name, chunk, agg, finalize) inside a groupby: every partition is grouped, [chunk]
    runs on each group of each partition, [agg] combines the results for a group over the partitions that have
    it, [finalize] turns that into the value.  [key] selects the group. *)
Section Dask.
  Context {K A C R : Type} (keqb : K -> K -> bool) (chunk : list A -> C) (agg : list C -> C) (finalize : C -> R).
  Definition group_of (k : K) (part : list (K * A)) : list A := map snd (filter (fun r => keqb (fst r) k) part).
  Definition chunks (k : K) (parts : list (list (K * A))) : list C :=
    flat_map (fun part => match group_of k part with [] => [] | g => [chunk g] end) parts.
  Definition dask_agg (k : K) (parts : list (list (K * A))) : R := finalize (agg (chunks k parts)).
End Dask.

Section DaskPrimitives.
  Local Open Scope Qc_scope.
  Context {K : Type} (keqb : K -> K -> bool).

  (** L207-223: chunk = set of the values, agg = union of the sets, finalize = len *)
  Definition nunique_dask {A} (eqb : A -> A -> bool) : K -> list (list (K * option A)) -> nat :=
    dask_agg keqb (fun x => dedup_by eqb [] (dropna x)) (fun s => dedup_by eqb [] (List.concat s)) (@List.length A).
  (** L253-263 *)
  Definition num_true_dask : K -> list (list (K * option bool)) -> Z :=
    dask_agg keqb num_true_pd (fun s => fold_left Z.add s 0%Z) (fun x => x).
  (** L292-311: chunk = (sum of fillna(0), len), agg = sums, finalize = total / length *)
  Definition percent_true_dask : K -> list (list (K * option bool)) -> Qc :=
    dask_agg keqb (fun x => (bsum (fillna0 x), Z.of_nat (List.length (fillna0 x))))
      (fun s => (fold_left Z.add (map fst s) 0%Z, fold_left Z.add (map snd s) 0%Z))
      (fun tl => Q2Qc (fst tl # 1) / Q2Qc (snd tl # 1)).
  (** L556-563, L588-595 *)
  Definition any_dask : K -> list (list (K * option bool)) -> bool :=
    dask_agg keqb any_pd (fun s => existsb (fun b => b) s) (fun x => x).
  Definition all_dask : K -> list (list (K * option bool)) -> bool :=
    dask_agg keqb all_pd (fun s => forallb (fun b => b) s) (fun x => x).

  (** the aggregations requested by name ('count', 'sum', 'mean', 'min', 'max', 'std': L42, L71, L105, L159, L181, L489) are Dask's
      own; their documented tree reductions are: *)
  Definition count_dask {A} : K -> list (list (K * option A)) -> nat :=
    dask_agg keqb count_pd (fun s => fold_left Nat.add s 0%nat) (fun x => x).
  Definition sum_dask : K -> list (list (K * option Qc)) -> Qc := dask_agg keqb sum_pd qsum (fun x => x).
  Definition mean_dask : K -> list (list (K * option Qc)) -> option Qc :=
    dask_agg keqb (fun x => (sum_pd x, count_pd x))
      (fun s => (qsum (map fst s), fold_left Nat.add (map snd s) 0%nat))
      (fun sn => match snd sn with 0%nat => None | n => Some (fst sn / Q2Qc (Z.of_nat n # 1)) end).
  Definition min_dask : K -> list (list (K * option Qc)) -> option Qc := dask_agg keqb min_pd min_pd (fun x => x).
  Definition max_dask : K -> list (list (K * option Qc)) -> option Qc := dask_agg keqb max_pd max_pd (fun x => x).
  Definition var_dask : K -> list (list (K * option Qc)) -> option Qc :=
    dask_agg keqb (fun x => (count_pd x, sum_pd x, qsum (map (fun y => y * y) (dropna x))))
      (fun s => (fold_left Nat.add (map (fun t => fst (fst t)) s) 0%nat, qsum (map (fun t => snd (fst t)) s), qsum (map snd s)))
      (fun t => let '(n, s1, s2) := t in
                match n with
                | 0%nat | 1%nat => None
                | _ => let n' := Q2Qc (Z.of_nat n # 1) in Some ((s2 - s1 * s1 / n') / (n' - 1))
                end).
  (** aggregation_primitives.py L103-105: the Dask function of Mean does not look at skipna *)
  Definition mean_dask_prim (skipna : bool) : K -> list (list (K * option Qc)) -> option Qc := mean_dask.
End DaskPrimitives.
