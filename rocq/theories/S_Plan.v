(** What a calculation plan has to contain. *)
From Verif Require Import Base M_Schema M_Feature M_FeatureSet.

(** a multi-output feature stands for its slices *)
Definition unslice (f : feat) : feat := match f with FSlice b _ _ => b | _ => f end.

(** [planned p full g]: feature [g] has to be calculated at the entity reached from the target entity by
    path [p]; [full]: for every row of that entity, because [g] or a feature that depends on it there
    uses the full entity.  [approx p n]: the feature named [n] at path [p] has been approximated. *)
Inductive planned (rels : list relationship) (approx : list edge -> string -> Prop) (fs : list feat)
  : list edge -> bool -> feat -> Prop :=
| planned_target f : In f fs -> ~ approx [] (funique rels f) -> planned rels approx fs [] (uses_full f) f
| planned_dep p full f d : planned rels approx fs p full f -> In d (fdeps f) ->
    ~ approx (p ++ fpath f) (funique rels (unslice d)) ->
    planned rels approx fs (p ++ fpath f) (full || uses_full (unslice d)) (unslice d).

(** the path [p] is visited by a feature that needs full entities below it: [p] is the place of such a
    feature or lies on the way from it to its dependencies *)
Definition full_needed (rels : list relationship) (approx : list edge -> string -> Prop) (fs : list feat)
    (p : list edge) : Prop :=
  exists p0 g q r, planned rels approx fs p0 true g /\ fpath g = q ++ r /\ p = p0 ++ q.
