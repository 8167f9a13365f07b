(** Specification for C88: well-formed options and misspelt names, in terms of what the user wrote. *)
From Coq Require Import List String ZArith.
From Verif Require Import Base M_Match M_Options.
Import ListNotations.
Local Open Scope list_scope.

(** options that take a list of entities, and those that take a list of variables for each entity *)
Definition entity_options : list string := ["ignore_entities"; "include_entities"; "ignore_groupby_entities"; "include_groupby_entities"]%string.
Definition variable_options : list string := ["ignore_variables"; "include_variables"; "ignore_groupby_variables"; "include_groupby_variables"]%string.
(** a name, or another simple value *)
Definition simple (v : pv) : Prop := (exists s, v = PStr s) \/ (exists z, v = PNum z).
Definition a_list (v : pv) : Prop := exists l, v = PList l /\ forall x, In x l -> simple x.
Definition a_table (v : pv) : Prop := exists d, v = PDict d /\ forall k x, In (k, x) d -> simple k /\ a_list x.
Definition well_formed (o : string * pv) : Prop := In (fst o) entity_options /\ a_list (snd o) \/ In (fst o) variable_options /\ a_table (snd o).

(** the entity set has an entity of this name, with this variable *)
Definition has_entity (es : esdict) (e : pv) : Prop := exists n vs, e = PStr n /\ In (n, vs) es.
Definition has_variable (es : esdict) (e x : pv) : Prop := exists n vs s, e = PStr n /\ In (n, vs) es /\ x = PStr s /\ In s vs.
(** the option mentions an entity, or a variable of an entity *)
Definition mentions_entity (o : pv) (e : pv) : Prop := (exists l, o = PList l /\ In e l) \/ (exists d x, o = PDict d /\ In (e, x) d).
Definition mentions_variable (o : pv) (x e : pv) : Prop := exists d l, o = PDict d /\ In (e, PList l) d /\ In x l.
(** nothing else than the names written is read *)
Definition read_as (o : pv) (r : oval) : Prop :=
  match r with
  | OSet l => o = PList l
  | ODict t => o = PDict (map (fun kv => (fst kv, PList (snd kv))) t)
  end.

(** the names and tables that the search uses hold exactly the names written; an option that was not written is absent *)
Definition uses_names (o : option pv) (r : option (list string)) : Prop :=
  match o, r with
  | None, None => True
  | Some v, Some l => forall s, In s l <-> mentions_entity v (PStr s)
  | _, _ => False
  end.
Definition uses_table (o : option pv) (r : option edict) : Prop :=
  match o, r with
  | None, None => True
  | Some v, Some t => (forall e, In e (map fst t) <-> mentions_entity v (PStr e)) /\
                      forall e s, (exists l, In (e, l) t /\ In s l) <-> mentions_variable v (PStr s) (PStr e)
  | _, _ => False
  end.
(** options are kept under the name of a primitive, also when they are given for its class, or for one instance *)
Definition option_key (k : ukey) : okey := match k with UName n => KName n | UClass n => KName n | UInst i => KInst i end.
