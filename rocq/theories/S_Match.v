(** What the choice of inputs should be: specification for C30 and C31. *)
From Coq Require Import Permutation.
From Verif Require Import Base M_Schema M_Feature M_Types M_Match S_Calc.

Section Choice.
  Variable p_ret : prim -> option vtyp.
  Variable vtypes : string -> string -> option vtyp.
  (** [t] is a choice of distinct features of the pool [fs], one for each type of the signature [ts] *)
  Definition choice (ts : list vtyp) (fs t : list feat) : Prop :=
    incl t fs /\ NoDup t /\ Forall2 (fun f ty => issub (ftype p_ret vtypes f) ty = true) t ts.
End Choice.

(** ** Options *)
Section Passes.
  Variable rels : list relationship.
  (** the entity is neither left out by include_entities nor named by ignore_entities *)
  Definition entity_passes (inc ign : option (list string)) (e : string) : Prop :=
    (forall l, inc = Some l -> In e l) /\ (forall l, ign = Some l -> ~ In e l).
  (** as documented: include_entities takes priority over ignore_entities *)
  Definition entity_passes_doc (inc ign : option (list string)) (e : string) : Prop :=
    match inc with Some l => In e l | None => forall l, ign = Some l -> ~ In e l end.
  (** one feature of the definition: an identity feature of an entity with included variables is judged by these alone *)
  Definition dep_passes (entity_ok : string -> Prop) (inc_v ign_v : option edict) (d : feat) : Prop :=
    match d with
    | FIdent e v _ =>
      (exists i vs, inc_v = Some i /\ dget String.eqb e i = Some vs /\ In (fname rels d) vs) \/
      ((forall i, inc_v = Some i -> dget String.eqb e i = None) /\ (forall i vs, ign_v = Some i -> dget String.eqb e i = Some vs -> ~ In (fname rels d) vs) /\ entity_ok e)
    | _ => entity_ok (fentity d)
    end.
  (** the feature and everything it is built from pass *)
  Definition passes (o : popt) (f : feat) : Prop :=
    forall d, reaches f d -> dep_passes (entity_passes (o_inc_e o) (Some (o_ign_e o))) (o_inc_v o) (Some (o_ign_v o)) d.
  Definition passes_doc (o : popt) (f : feat) : Prop :=
    forall d, reaches f d -> dep_passes (entity_passes_doc (o_inc_e o) (Some (o_ign_e o))) (o_inc_v o) (Some (o_ign_v o)) d.
  (** the same for the feature grouped by *)
  Definition passes_group (o : popt) (f : feat) : Prop :=
    forall d, reaches f d -> dep_passes (entity_passes (o_inc_ge o) (o_ign_ge o)) (o_inc_gv o) (o_ign_gv o) d.
  (** one option dict for all inputs, or one for each *)
  Definition all_pass (os : list popt) (m : list feat) : Prop :=
    match os with
    | [o] => forall f, In f m -> passes o f
    | _ => forall i f o, nth_error m i = Some f -> nth_error os i = Some o -> passes o f
    end.
End Passes.
