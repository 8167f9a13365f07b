(** What combining the options of all primitives with the global ignore lists has to give. *)
From Verif Require Import Base M_Match.

(** an option dict names the entity in include_entities or as a key of include_variables *)
Definition names_entity (o : popt) (e : string) : Prop :=
  (exists l, o_inc_e o = Some l /\ In e l) \/ (exists d l, o_inc_v o = Some d /\ In (e, l) d).

(** the options of one primitive honour the global lists: an ignored entity that none of them names is ignored by each,
    and so are the ignored variables of such an entity, and those of an entity the dict already ignores variables of *)
Definition honours (ign_e : list string) (ign_v : edict) (os : list popt) : Prop :=
  forall o, In o os ->
    (forall e, In e ign_e -> (forall o', In o' os -> ~ names_entity o' e) -> In e (o_ign_e o)) /\
    (forall e v vs, In (e, vs) ign_v -> In v vs ->
       (forall o', In o' os -> ~ names_entity o' e) \/ (exists l, In (e, l) (o_ign_v o)) ->
       exists l, dget String.eqb e (o_ign_v o) = Some l /\ In v l).

(** [o] is the user's dict [o0] with nothing lost and only globally ignored entities and variables added *)
Definition extends (ign_e : list string) (ign_v : edict) (o0 o : popt) : Prop :=
  o_inc_e o = o_inc_e o0 /\ o_inc_v o = o_inc_v o0 /\
  o_inc_ge o = o_inc_ge o0 /\ o_ign_ge o = o_ign_ge o0 /\ o_inc_gv o = o_inc_gv o0 /\ o_ign_gv o = o_ign_gv o0 /\
  (forall e, In e (o_ign_e o0) -> In e (o_ign_e o)) /\
  (forall e, In e (o_ign_e o) -> In e (o_ign_e o0) \/ In e ign_e) /\
  (forall e l v, dget String.eqb e (o_ign_v o0) = Some l -> In v l -> exists l', dget String.eqb e (o_ign_v o) = Some l' /\ In v l') /\
  (forall e l v, dget String.eqb e (o_ign_v o) = Some l -> In v l ->
     (exists l', dget String.eqb e (o_ign_v o0) = Some l' /\ In v l') \/ (exists l', In (e, l') ign_v /\ In v l')).
