(** Entropy: primitives/standard/aggregation_primitives.py L782-817.
    Series.value_counts(normalize=True, dropna) and scipy.stats.entropy(pk, base), over the real numbers (rounding is not
    modelled; real addition makes the order in which value_counts lists the values irrelevant; base 1, a division by zero, is left out).  Missing values are one value. *)
From Coq Require Import Reals.
From Verif Require Import Base.
Local Open Scope R_scope.

Definition rsum (l : list R) : R := fold_right Rplus 0 l.

(** Series.value_counts(normalize=True, dropna=dropna): the values with their shares *)
Definition shares (dropna : bool) (s : list val) : list (val * R) :=
  let counted := if dropna then filter (fun v => negb (is_null v)) s else s in
  map (fun v => (v, INR (List.length (filter (val_eqb v) counted)) / INR (List.length counted))) (dedup_by val_eqb [] counted).
(** scipy.special.entr *)
Definition entr (p : R) : R := if Rlt_dec 0 p then - (p * ln p) else 0.
(** scipy.stats.entropy: pk is divided by its sum first *)
Definition scipy_entropy (pk : list R) (base : option R) : R :=
  let total := rsum pk in
  let s := rsum (map (fun p => entr (p / total)) pk) in
  match base with None => s | Some b => s / ln b end.
(** L812-817 *)
Definition entropy (dropna : bool) (base : option R) (s : list val) : R := scipy_entropy (map snd (shares dropna s)) base.
