(** Conditions on entity sets and feature definitions used by the calculation theorems. *)
From Verif Require Import Base M_Schema S_Schema M_Table M_Query S_Query S_View M_Feature.

(** ** Entity sets *)

(** a well-formed entity whose index, time index and link columns are not hidden by a secondary time
    index *)
Definition good_entity (rels : list relationship) (e : entity) : Prop :=
  wf_entity e /\ independent_secondaries e /\ NoDup (map fst (e_sec e)) /\
  never_hidden e (e_index e) /\
  (forall ti, e_time e = Some ti -> never_hidden e ti) /\
  (forall r, In r rels -> r_ce r = e_id e -> never_hidden e (r_cv r) /\ In (r_cv r) (cols (e_df e))) /\
  (forall r, In r rels -> r_pe r = e_id e -> r_pv r = e_index e).

Definition good_es (es : entityset) : Prop :=
  (forall e, In e (es_ents es) -> good_entity (es_rels es) e) /\
  (forall r, In r (es_rels es) -> (exists e, es_get es (r_pe r) = Ok e) /\ (exists e, es_get es (r_ce r) = Ok e)).

(** no index value is missing *)
Definition index_present (es : entityset) : Prop :=
  forall e r, In e (es_ents es) -> In r (rows (e_df e)) -> cell (e_index e) r <> VNull.

(** the Index, Id and TimeIndex variables of each entity: existing columns, among them the index, the
    time index and the link columns *)
Definition good_idvars (es : entityset) (idvars : string -> list string) : Prop :=
  forall e, In e (es_ents es) ->
    List.incl (idvars (e_id e)) (cols (e_df e)) /\ In (e_index e) (idvars (e_id e)) /\
    (forall ti, e_time e = Some ti -> In ti (idvars (e_id e))) /\
    (forall r, In r (es_rels es) -> r_ce r = e_id e -> In (r_cv r) (idvars (e_id e))).

(** ** Feature definitions *)

(** what the constructors of the feature classes check (feature_base.py L403-427, L489-566, L640-660,
    L684-698, L773-792) *)
Inductive wt (rels : list relationship) : feat -> Prop :=
| wt_ident e v nm : wt rels (FIdent e v nm)
| wt_direct r b nm : In r rels -> wt rels b -> fentity b = r_pe r -> wt rels (FDirect r b nm)
| wt_agg p bs path uniq wh prev nm ce :
    bs <> [] -> path <> [] ->
    backward_chain rels (match path with r :: _ => r_pe r | [] => ""%string end) path ce ->
    (forall b, In b bs -> wt rels b) ->
    (forall b, In b bs -> fentity b = ce /\ fnout b = 1) ->
    (forall w, wh = Some w -> wt rels w) ->
    (forall w, wh = Some w -> fentity w = ce /\ fnout w = 1) ->
    wt rels (FAgg p bs path uniq wh prev nm)
| wt_trans p bs nm e :
    bs <> [] -> (forall b, In b bs -> wt rels b) -> (forall b, In b bs -> fentity b = e /\ fnout b = 1) ->
    wt rels (FTrans p bs nm)
| wt_group p bs g nm :
    bs <> [] -> wt rels g -> fnout g = 1 ->
    (forall b, In b bs -> wt rels b) -> (forall b, In b bs -> fentity b = fentity g /\ fnout b = 1) ->
    wt rels (FGroup p bs g nm)
| wt_slice b n nm : wt rels b -> n < fnout b -> 1 < fnout b -> wt rels (FSlice b n nm).

(** [reaches f g]: [g] is [f] or one of its direct or indirect dependencies *)
Inductive reaches : feat -> feat -> Prop :=
| reaches_refl f : reaches f f
| reaches_dep f d g : In d (fdeps f) -> reaches d g -> reaches f g.

Definition needed (fs : list feat) (g : feat) : Prop := exists f, In f fs /\ reaches f g.

Definition is_slice (f : feat) : Prop := match f with FSlice _ _ _ => True | _ => False end.
Definition is_ident (f : feat) : Prop := match f with FIdent _ _ _ => True | _ => False end.
