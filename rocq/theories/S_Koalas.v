(** C97: what cleaning does to a cell. *)
From Coq Require Import String List ZArith.
From Verif Require Import M_Koalas.
Import ListNotations.

Definition no_nan (x : item) : item := match x with INaN => INum (-1) | y => y end.
(** tuples become lists, NaN in them becomes -1, other cells stay *)
Definition clean_cell (x : kcell) : kcell := match x with KTuple xs | KList xs => KList (map no_nan xs) | y => y end.
(** a cell that is a tuple or list of numbers *)
Definition numbers (x : kcell) : Prop := exists xs, (x = KTuple xs \/ x = KList xs) /\ forall s, ~ In (IText s) xs.
Definition single (x : kcell) : Prop := (forall xs, x <> KTuple xs) /\ (forall xs, x <> KList xs).
(** a column of tuples, or of lists, of numbers, or of single values, which are not missing when it is a category of integers *)
Definition regular (c : kcolumn) : Prop :=
  k_cells c <> [] /\
  ((k_dtype c = Plain /\ Forall numbers (k_cells c)) \/
   (Forall single (k_cells c) /\ (k_dtype c = IntCategory -> ~ In KMissing (k_cells c)))).
