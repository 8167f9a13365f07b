(** Shared vocabulary of all models: cell values, Python exceptions as values,
    insertion-ordered dictionaries, stable sort.  Nothing here models a
    particular function of /repo; these are the data types the models use. *)
From Coq Require Export List ZArith String Ascii Bool Lia Permutation Sorted.
Export ListNotations.
Open Scope list_scope.

(** A data-frame cell.  [VNull] stands for NaN / NaT / None.  Numbers are exact
    integers (no floating point); timestamps are integers too. *)
Inductive val : Type :=
| VNull
| VNum (z : Z)
| VBool (b : bool)
| VStr (s : string).

Definition val_eq_dec (a b : val) : {a = b} + {a <> b}.
Proof. decide equality; [apply Z.eq_dec | apply Bool.bool_dec | apply String.string_dec]. Defined.

Definition val_eqb (a b : val) : bool :=
  match a, b with
  | VNull, VNull => true
  | VNum x, VNum y => Z.eqb x y
  | VBool x, VBool y => Bool.eqb x y
  | VStr x, VStr y => String.eqb x y
  | _, _ => false
  end.

Definition is_null (v : val) : bool := match v with VNull => true | _ => false end.

(** Python exceptions as values. *)
Inductive err : Type :=
| KeyError | ValueError | TypeError | AssertionError | AttributeError
| IndexError | ZeroDivisionError | RuntimeError
| OutOfFuel.   (* not a Python exception: the modelled loop did not finish within its fuel *)

Inductive res (A : Type) : Type :=
| Ok (a : A)
| Err (e : err).
Arguments Ok {A} a.
Arguments Err {A} e.

Definition bind {A B} (x : res A) (f : A -> res B) : res B :=
  match x with Ok a => f a | Err e => Err e end.
Notation "'do' x <- e1 ; e2" := (bind e1 (fun x => e2))
  (at level 200, x pattern, e1 at level 100, e2 at level 200).

Fixpoint mapM {A B} (f : A -> res B) (l : list A) : res (list B) :=
  match l with
  | [] => Ok []
  | a :: l' => do b <- f a; do bs <- mapM f l'; Ok (b :: bs)
  end.

Fixpoint foldM {A S} (f : S -> A -> res S) (l : list A) (s : S) : res S :=
  match l with
  | [] => Ok s
  | a :: l' => do s' <- f s a; foldM f l' s'
  end.

(** Insertion-ordered dictionaries (Python dict), keyed by a boolean equality. *)
Section Dict.
  Context {K V : Type} (keqb : K -> K -> bool).

  Fixpoint dget (k : K) (d : list (K * V)) : option V :=
    match d with
    | [] => None
    | (k', v) :: d' => if keqb k k' then Some v else dget k d'
    end.

  (* d[k] = v : replaces in place, or appends *)
  Fixpoint dset (k : K) (v : V) (d : list (K * V)) : list (K * V) :=
    match d with
    | [] => [(k, v)]
    | (k', v') :: d' => if keqb k k' then (k', v) :: d' else (k', v') :: dset k v d'
    end.
End Dict.

(** Stable sort by a boolean [leb] (Python's [sorted] and pandas' mergesort are stable). *)
Section ISort.
  Context {A : Type} (leb : A -> A -> bool).
  Fixpoint insert (a : A) (l : list A) : list A :=
    match l with
    | [] => [a]
    | b :: l' => if leb a b then a :: b :: l' else b :: insert a l'
    end.
  Fixpoint isort (l : list A) : list A :=
    match l with
    | [] => []
    | a :: l' => insert a (isort l')
    end.
End ISort.

Definition mem_str (s : string) (l : list string) : bool := existsb (String.eqb s) l.
Definition mem_val (v : val) (l : list val) : bool := existsb (val_eqb v) l.

(** Keep the first occurrence of each element (pandas drop_duplicates, keep="first";
    unique()). *)
Fixpoint dedup_by {A} (eqb : A -> A -> bool) (seen : list A) (l : list A) : list A :=
  match l with
  | [] => []
  | a :: l' => if existsb (eqb a) seen then dedup_by eqb seen l'
               else a :: dedup_by eqb (a :: seen) l'
  end.
