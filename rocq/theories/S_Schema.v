(** Specification vocabulary for relationship graphs, independent of the traversal code. *)
From Verif Require Import Base M_Schema.

(** [chain src dst rels a p b]: [p] is a list of relationships of the entity set leading from
    entity [a] to entity [b], each one starting where the previous one ended. *)
Inductive chain (src dst : relationship -> string) (rels : list relationship)
  : string -> list relationship -> string -> Prop :=
| chain_nil a : chain src dst rels a [] a
| chain_cons r p b : In r rels -> chain src dst rels (dst r) p b ->
                     chain src dst rels (src r) (r :: p) b.

(** child-to-parent direction and parent-to-child direction *)
Definition forward_chain := chain r_ce r_pe.
Definition backward_chain := chain r_pe r_ce.

(** the entities visited by a forward chain from [a] *)
Definition visited (a : string) (p : list relationship) : list string := a :: map r_pe p.

(** a cycle is reachable from [a] *)
Definition reaches_cycle (src dst : relationship -> string) (rels : list relationship) (a : string) : Prop :=
  exists b p q, chain src dst rels a p b /\ q <> [] /\ chain src dst rels b q b.
