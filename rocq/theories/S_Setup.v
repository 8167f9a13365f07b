(** What the lists of primitives given to dfs stand for: vocabulary of C75. *)
From Coq Require Import Permutation Sorted.
From Verif Require Import Base M_Feature M_Match M_DFS M_Setup.
Local Open Scope string_scope.

Section Stands.
  Variable attr : prim -> pattr.
  Variable lower : string -> string.
  Variable new : nat -> res prim.
  Variable params : prim -> list param.
  Variable attribute : prim -> string -> option aval.
  Variable subtype : nat -> nat -> bool.
  Variable aeq : aval -> aval -> bool.
  (** a primitive stands for itself, a class for what it makes without arguments, a name, in any case, for the class with that name *)
  Inductive stands (known : list (string * nat)) : given -> prim -> Prop :=
  | stands_prim p : stands known (GInst p) p
  | stands_class k p : new k = Ok p -> stands known (GClass k) p
  | stands_name s k p : In (lower s, k) known -> new k = Ok p -> stands known (GName s) p.
  (** a primitive has a value for each argument of its class *)
  Definition complete (p : prim) : Prop := forall m, In m (params p) -> m_standard m = true -> attribute p (m_name m) <> None.
  (** the argument was left at its default *)
  Definition untouched (p : prim) (m : param) : bool :=
    match attribute p (m_name m), m_default m with Some v, Some d => subtype (v_type v) (v_type d) && aeq d v | _, _ => false end.
  (** how a primitive is written: its name, then ", argument=value" for each argument that was set *)
  Definition text (p : prim) : string :=
    a_name (attr p) ++ String.concat "" (map (fun m => ", " ++ m_name m ++ "=" ++ match attribute p (m_name m) with Some v => v_text v | None => "" end)
      (filter (fun m => m_standard m && negb (untouched p m)) (params p))).
  (** two lists of elements stand for the same primitives, in any order *)
  Definition same_primitives (known : list (string * nat)) (l l' : list given) : Prop :=
    exists ps ps', Forall2 (stands known) l ps /\ Forall2 (stands known) l' ps' /\ Permutation ps ps'.
  (** ... which are written differently unless they are the same *)
  Definition told_apart (known : list (string * nat)) (l : list given) : Prop :=
    forall g h p q, In g l -> In h l -> stands known g p -> stands known h q -> text p = text q -> p = q.
End Stands.
