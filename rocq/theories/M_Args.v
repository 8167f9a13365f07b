(** Model of what happens to the dictionary [variable_types] that a caller gives to EntitySet.entity_from_dataframe.
    Python dictionaries are objects: the model keeps them in a store, so that two names for one dictionary are the same
    address and a write through one name is seen through the other.  Simplified: type names that are not classes
    (strings) are looked up by the parameter [resolve]; everything that does not touch the dictionary is left out. *)
From Verif Require Import Base M_Entities.
Open Scope string_scope.
Import ListNotations.

Definition vdict : Type := list (string * vtype).
(** the store: the dictionary at each address *)
Definition store : Type := list vdict.
Definition load (h : store) (a : nat) : vdict := nth a h [].
(** a new object *)
Definition alloc (h : store) (d : vdict) : store * nat := ((h ++ [d])%list, List.length h).
(** assignment to an object *)
Fixpoint write (h : store) (a : nat) (d : vdict) : store :=
  match h, a with
  | [], _ => []
  | _ :: h, O => d :: h
  | x :: h, S a => x :: write h a d
  end.
(** [x or {}] *)
Definition or_empty (h : store) (a : nat) : store * nat :=
  match load h a with [] => alloc h [] | _ => (h, a) end.

Section Args.
  (** entity.py L227-237: the class a type stands for *)
  Variable resolve : vtype -> vtype.

  (** entityset.py L498: [variable_types = variable_types or {}], for an argument that may be None *)
  Definition given_types (h : store) (arg : option nat) : store * nat :=
    match arg with None => alloc h [] | Some a => or_empty h a end.
  (** entity.py L230-237: one entry after the other is replaced by its class *)
  Definition resolve_one (a : nat) (h : store) (vid : string) : store :=
    match dget String.eqb vid (load h a) with
    | Some ty => write h a (dset String.eqb vid (resolve ty) (load h a))
    | None => h
    end.
  Definition resolve_types (h : store) (a : nat) : store := fold_left (resolve_one a) (map fst (load h a)) h.
  (** entity.py L226-240: the dictionary the variables are made from: a copy, with the index added *)
  Definition local_types (h : store) (a : nat) (index : string) : store * nat :=
    let '(h, b) := alloc h (load h a) in
    let '(h, b) := or_empty h b in
    let h := resolve_types h b in
    (if mem_str index (map fst (load h b)) then h else write h b (load h b ++ [(index, TIndex)])%list, b).
  (** the store after entity_from_dataframe, and the address of the dictionary that is used *)
  Definition types_used (h : store) (arg : option nat) (index : string) : store * nat :=
    let '(h, a) := given_types h arg in local_types h a index.
End Args.
