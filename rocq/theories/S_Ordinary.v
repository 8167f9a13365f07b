(** Vocabulary of C73: requests whose names are ordinary words and whose primitives behave, in terms that can be read off the
    schema, the primitives and the features (the conditions of S_Value.v and S_Total.v speak about generated names). *)
From Verif Require Import Base M_Schema S_Schema M_Table M_Query M_Feature M_FeatureSet S_Calc S_Group S_Sem S_Value M_Names S_Names.

(** an aggregation has one output *)
Definition good_agg (p : prim) (k : nat) : Prop :=
  p_nout p = 1 /\ forall t cs, List.length cs = k -> List.length (p_agg p t cs) = 1.
(** a transform of [k] inputs has one output with one value per row; unless it asks for the whole entity it works row by row *)
Definition good_trans (p : prim) (k : nat) : Prop :=
  p_nout p = 1 /\ (forall t cs, List.length cs = k -> List.length (p_trans p t cs) = 1) /\
  (forall t cs n o, List.length cs = k -> (forall c, In c cs -> List.length c = n) -> In o (p_trans p t cs) -> List.length o = n) /\
  (p_full p = false -> rowwise k p).
Definition good_primitive (f : feat) : Prop :=
  match f with
  | FAgg p bs _ _ _ _ _ => good_agg p (List.length bs)
  | FTrans p bs _ | FGroup p bs _ _ => good_trans p (List.length bs)
  | _ => True
  end.

(** a copy, through parents, of a variable that links its entity to a parent *)
Fixpoint link_copy (rels : list relationship) (f : feat) : Prop :=
  match f with
  | FIdent e v None => exists r, In r rels /\ r_ce r = e /\ r_cv r = v
  | FDirect r b None => link_copy rels b
  | _ => False
  end.

(** the schema *)
Record ordinary_schema (es : entityset) : Prop := {
  os_plain : plain_schema (es_rels es);
  os_words : forall e, In e (es_ents es) -> word (e_id e) /\ forall c, In c (cols (e_df e)) -> word c;
  (** where a grandparent exists, there is one relationship to the parent *)
  os_links : forall r0 r, In r0 (es_rels es) -> In r (es_rels es) -> r_ce r0 = r_pe r -> parent_name (es_rels es) r = r_pe r
}.

(** the features *)
Record ordinary_features (es : entityset) (style_of : prim -> style -> Prop) (delta : tdelta -> Prop) (eid : string) (fs : list feat) : Prop := {
  of_styled : styled style_of;
  of_deltas : deltas delta;
  of_windows : (forall d, delta d -> (exists u v, td_times d = [(u, v)] /\ u <> ""%string) /\ (forall n, dget String.eqb "o"%string (td_times d) = Some n -> (0 < n)%Z)) /\
    (forall d d', delta d -> delta d' -> td_times d = td_times d' -> d = d');
  of_target : exists e, es_get es eid = Ok e;
  of_ordinary : forall f, In f fs -> ordinary (es_rels es) style_of (index_of es) delta eid f;
  of_primitives : forall f, needed fs f -> good_primitive f;
  (** a condition is not one of the aggregated inputs *)
  of_where : forall p bs path u w prev nm, needed fs (FAgg p bs path u (Some w) prev nm) -> ~ In w bs;
  (** no feature needs its whole entity, or no feature copies a variable that leads to a grandparent (C06_link_full_refuted) *)
  of_full : (forall f, needed fs f -> uses_full f = false) \/ (forall r b nm, needed fs (FDirect r b nm) -> ~ link_copy (es_rels es) b)
}.

(** a transform of [k] inputs whose values are true or false *)
Definition returns_booleans (p : prim) (k : nat) : Prop :=
  forall t cs o v, List.length cs = k -> In o (p_trans p t cs) -> In v o -> exists b, v = VBool b.

(** what is needed besides for the calculation not to fail *)
Record answerable (es : entityset) (T : Z) (tw : option window) (incl : bool) (fs : list feat) : Prop := {
  an_variables : forall e v nm, needed fs (FIdent e v nm) -> exists x, es_get es e = Ok x /\ In v (cols (e_df x));
  (** conditions are transforms that return true or false *)
  an_where : forall p bs path u w prev nm, needed fs (FAgg p bs path u (Some w) prev nm) ->
    match w with FTrans q ws _ => returns_booleans q (List.length ws) | _ => False end;
  (** one primitive counts *)
  an_count : forall p p' bs bs' path path' u u' wh wh' prev prev' nm nm',
    needed fs (FAgg p bs path u wh prev nm) -> needed fs (FAgg p' bs' path' u' wh' prev' nm') ->
    p_count p = true -> p_count p' = true -> p = p';
  (** aggregations of several columns, or that read the time, do not use [use_previous] and every row has an owner *)
  an_columns : forall p bs path u wh prev nm, needed fs (FAgg p bs path u wh prev nm) ->
    single_column (FAgg p bs path u wh prev nm) \/
    (prev = None /\ forall b c, In b bs -> In c (rows_at es T tw incl (fentity b)) -> owner es T tw incl path c <> VNull);
  (** an index that is copied to a child does not also link its entity to a parent *)
  an_index : forall r nm nm' r2, needed fs (FDirect r (FIdent (r_pe r) (r_pv r) nm) nm') -> In r2 (es_rels es) -> r_ce r2 = r_pe r -> r_cv r2 <> r_pv r
}.
