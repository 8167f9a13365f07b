(** C90: what becomes of the seed features given to deep feature synthesis. *)
From Verif Require Import Base M_Schema M_Feature.
Local Open Scope list_scope.

(** among [fs] there is a feature of the same entity with the same name *)
Definition has_its_name (rels : list relationship) (fs : list feat) (f : feat) : Prop :=
  exists g, In g fs /\ fentity g = fentity f /\ fname rels g = fname rels f.
