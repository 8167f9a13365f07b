(** What a primitive made from a function should compute: vocabulary of C76. *)
From Verif Require Import Base M_Make.
Local Open Scope string_scope.
Section Spec.
  Variable V : Type.
  (** the function, its data parameters first: as many as there are inputs, without defaults, then the settings *)
  Definition well_formed (f : func V) (inputs : nat) : Prop :=
    NoDup (map fst (u_params V f)) /\ List.length (firstn inputs (u_params V f)) = inputs /\
    (forall q, In q (firstn inputs (u_params V f)) -> snd q = None /\ fst q <> "time") /\ (forall q, In q (skipn inputs (u_params V f)) -> snd q <> None).
  (** the value of a parameter that is not a column: the time of calculation for "time", what the user set, or else the default *)
  Definition value_for (settings : list (string * V)) (time_last : V) (q : string * option V) (v : V) : Prop :=
    if String.eqb (fst q) "time" then v = time_last
    else In (fst q, v) settings \/ ~ In (fst q) (map fst settings) /\ snd q = Some v.
End Spec.
