(** C91, C92: what a listing of primitives and a file of primitives should give. *)
From Coq Require Import String Ascii List Permutation.
From Verif Require Import Base M_Listing.
Import ListNotations.
Local Open Scope string_scope.
Local Open Scope list_scope.

(** class [c], with the name [n], can be used from module [m] *)
Definition exported (m : pymodule) (c : pclass) (n : string) : Prop := (exists a, In (a, Some c) m) /\ c_name c = Some n /\ n <> "".
(** a class is one object: equal identities, equal classes *)
Definition objects (m : pymodule) : Prop := forall a b c d, In (a, Some c) m -> In (b, Some d) m -> c_id c = c_id d -> c = d.
(** [n] is the name of a type somewhere in the declared inputs *)
Inductive mentions (n : string) : list itype -> Prop :=
  | men_here l : mentions n (IName n :: l)
  | men_in a l : mentions n a -> mentions n (IList a :: l)
  | men_later t l : mentions n l -> mentions n (t :: l).
(** what a row says about a class *)
Record describes (lower : string -> string) (r : lrow) (c : pclass) (n : string) : Prop := {
  d_name : l_name r = lower n;
  d_libs : l_dask r = c_dask c /\ l_koalas r = c_koalas c;
  d_desc : match c_doc c with
           | None => l_desc r = ""
           | Some d => (exists rest, d = (l_desc r ++ rest)%string /\ (rest = "" \/ exists t, rest = String "010" t)) /\ ~ In "010"%char (list_ascii_of_string (l_desc r))
           end;
  d_inputs : exists ns, l_inputs r = String.concat ", " ns /\ NoDup ns /\ forall x, In x ns <-> mentions x (c_inputs c);
  d_ret : l_ret r = c_ret c }.
(** a file name that may hold a primitive *)
Definition primitive_file (f : string) : Prop := (exists s, f = (s ++ ".py")%string) /\ ~ (exists s, f = ("__" ++ s)%string) /\ ~ (exists s, f = ("." ++ s)%string).
(** a primitive other than the two base classes *)
Definition own_primitive (agg trans : nat) (c : pclass) : Prop := c_prim c = true /\ c_id c <> agg /\ c_id c <> trans.
