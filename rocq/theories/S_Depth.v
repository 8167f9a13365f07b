(** Specification of dependencies. *)
From Verif Require Import Base M_Schema M_Feature.

(** [below rels ign f g]: [g] is reached from [f] by one or more dependency steps (inputs and where conditions), none of them
    to a feature whose unique name is ignored *)
Inductive below (rels : list relationship) (ign : list string) : feat -> feat -> Prop :=
| below_one f d : In d (fdeps f) -> ~ In (funique rels d) ign -> below rels ign f d
| below_more f d g : In d (fdeps f) -> ~ In (funique rels d) ign -> below rels ign d g -> below rels ign f g.

(** the features that have no depth of their own: identity features, and those the caller asked to stop at *)
Definition bottom (rels : list relationship) (stop : list string) (f : feat) : Prop :=
  (exists e v nm, f = FIdent e v nm) \/ In (funique rels f) stop.
