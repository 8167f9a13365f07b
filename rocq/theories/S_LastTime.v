(** Last time index: the latest event at or below an instance. *)
From Verif Require Import Base M_Schema S_Schema M_Table.

(** [event es e i t]: the instance [i] of entity [e], or one of its descendants through any chain of
    relationships, has an event at time [t] *)
Inductive event (es : entityset) : string -> val -> Z -> Prop :=
| event_own e ti r t :
    In e (es_ents es) -> e_time e = Some ti -> In r (rows (e_df e)) -> cell ti r = VNum t ->
    event es (e_id e) (cell (e_index e) r) t
| event_child rel c r t :
    In rel (es_rels es) -> In c (es_ents es) -> e_id c = r_ce rel -> In r (rows (e_df c)) ->
    event es (r_ce rel) (cell (e_index c) r) t ->
    event es (r_pe rel) (cell (r_cv rel) r) t.

(** [v] is the last time of instance [i] of entity [e] *)
Definition is_last_time (es : entityset) (e : string) (i v : val) : Prop :=
  (v = VNull /\ forall t, ~ event es e i t) \/
  (exists t, v = VNum t /\ event es e i t /\ forall t', event es e i t' -> (t' <= t)%Z).

(** schema-level well-formedness: distinct entity ids, relationships between existing columns *)
Definition wf_es (es : entityset) : Prop :=
  NoDup (map e_id (es_ents es)) /\
  NoDup (es_rels es) /\
  (forall e, In e (es_ents es) -> wf_entity e) /\
  (forall r, In r (es_rels es) ->
     (exists p, In p (es_ents es) /\ e_id p = r_pe r /\ e_index p = r_pv r) /\
     (exists c, In c (es_ents es) /\ e_id c = r_ce r /\ In (r_cv r) (cols (e_df c)))).

(** no entity is its own descendant *)
Definition acyclic (es : entityset) : Prop := forall a, ~ reaches_cycle r_pe r_ce (es_rels es) a.
(** at most one relationship between a parent and a child entity *)
Definition single_links (es : entityset) : Prop :=
  forall r1 r2, In r1 (es_rels es) -> In r2 (es_rels es) -> r_pe r1 = r_pe r2 -> r_ce r1 = r_ce r2 -> r1 = r2.
(** time columns hold times after 1800-01-01 00:00 (nanoseconds since the epoch) or nulls *)
Definition times_after_1800 (es : entityset) : Prop :=
  forall e ti r, In e (es_ents es) -> e_time e = Some ti -> In r (rows (e_df e)) ->
    cell ti r = VNull \/ exists t, cell ti r = VNum t /\ (-5364662400000000000 < t)%Z.
(** among the children of one instance through one relationship, either all have an event at or
    below them or none has *)
Definition no_mixed_children (es : entityset) : Prop :=
  forall rel c r1 r2 t, In rel (es_rels es) -> In c (es_ents es) -> e_id c = r_ce rel ->
    In r1 (rows (e_df c)) -> In r2 (rows (e_df c)) -> cell (r_cv rel) r1 = cell (r_cv rel) r2 ->
    event es (r_ce rel) (cell (e_index c) r1) t -> exists t', event es (r_ce rel) (cell (e_index c) r2) t'.

(** the series recorded for [e] in the result gives every instance its last time *)
Definition has_last_times (es : entityset) (e : entity) : Prop :=
  exists s, e_lti e = Some s /\ map fst s = map (cell (e_index e)) (rows (e_df e)) /\
    forall i v, In (i, v) s -> is_last_time es (e_id e) i v.

(** everything but the last time indexes is untouched *)
Definition same_but_lti (es es' : entityset) : Prop :=
  es_rels es' = es_rels es /\
  Forall2 (fun e e' => e_id e' = e_id e /\ e_index e' = e_index e /\ e_time e' = e_time e /\
                       e_sec e' = e_sec e /\ e_df e' = e_df e) (es_ents es) (es_ents es').

(** [x] is one of [us] or an ancestor of one *)
Definition self_or_ancestor (es : entityset) (us : list string) (x : string) : Prop :=
  exists u p, In u us /\ forward_chain (es_rels es) u p x.
