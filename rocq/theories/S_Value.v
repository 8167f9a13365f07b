(** Conditions under which the calculated value of a feature is its meaning (S_Sem.v). *)
From Verif Require Import Base M_Schema M_Table M_Query M_Feature M_FeatureSet S_Calc S_Group.

(** the features a calculation has columns for: the requested ones and everything they depend on; a slice
    is a column of the feature it slices *)
Definition calculated (fs : list feat) (f : feat) : Prop := needed fs f /\ ~ is_slice f.

(** a transform primitive that works row by row on [k] input columns: output [j] in row [i] depends on the inputs in row [i] *)
Definition rowwise (k : nat) (p : prim) : Prop :=
  exists g : option Z -> list val -> list val,
    forall t (cs : list (list val)) n, List.length cs = k -> (forall c, In c cs -> List.length c = n) ->
      p_trans p t cs =
      map (fun j => map (fun i => nth j (g t (map (fun c => nth i c VNull) cs)) VNull) (seq 0 n)) (seq 0 (p_nout p)).

(** columns that the calculator may add to the rows of an entity to link them to ancestors beyond the parent
    (feature_set_calculator.py L343-389): the rows of the child of [r] get a column "parent.c" for a link column [c] of the parent *)
Inductive link_column (rels : list relationship) : relationship -> string -> Prop :=
| lc_first r0 r : In r0 rels -> In r rels -> r_ce r0 = r_pe r -> link_column rels r (r_cv r0)
| lc_next r' r c : In r rels -> r_ce r' = r_pe r -> link_column rels r' c -> link_column rels r (parent_name rels r' ++ "." ++ c).
Definition link_name (rels : list relationship) (r : relationship) (c : string) : string := (parent_name rels r ++ "." ++ c)%string.

(** column names are unambiguous: names identify features, and a column of an entity has one origin *)
Record clear_names (es : entityset) (fs : list feat) : Prop := {
  cn_unique : distinct_names (es_rels es) fs;
  cn_columns : forall f g i j n, calculated fs f -> calculated fs g -> fentity f = fentity g ->
    nth_error (fnames (es_rels es) f) i = Some n -> nth_error (fnames (es_rels es) g) j = Some n -> f = g /\ i = j;
  cn_variables : forall f e n, calculated fs f -> es_get es (fentity f) = Ok e ->
    In n (fnames (es_rels es) f) -> In n (cols (e_df e)) -> is_ident f;
  cn_identity : forall e v nm, needed fs (FIdent e v nm) -> fname (es_rels es) (FIdent e v nm) = v;
  cn_slices : forall b n nm, needed fs (FSlice b n nm) -> nm = None;
  (** a link column is not a variable, and if it is called like a feature, that feature copies the same column of the parent;
      then no feature looks at the full entity *)
  cn_links : forall r c, link_column (es_rels es) r c ->
    (forall e, es_get es (r_ce r) = Ok e -> ~ In (link_name (es_rels es) r c) (cols (e_df e))) /\
    (forall f, calculated fs f -> fentity f = r_ce r -> In (link_name (es_rels es) r c) (fnames (es_rels es) f) ->
       (exists b, f = FDirect r b None /\ fentity b = r_pe r /\ ~ is_slice b) /\ forall g, calculated fs g -> uses_full g = false)
}.

(** the two aggregations with one input column, one output and no use of the calculation time are
    computed by pandas' agg, the others by apply *)
Definition single_column (f : feat) : Prop :=
  match f with FAgg p bs _ _ _ _ _ => p_time p = false /\ List.length bs = 1 /\ p_nout p = 1 | _ => True end.

Record plain_features (rels : list relationship) (fs : list feat) : Prop := {
  (** features of a class whose paths have the same name have the same path *)
  pf_paths : forall f g, calculated fs f -> calculated fs g -> fentity f = fentity g -> fclass f = fclass g ->
    fpath_name rels f = fpath_name rels g -> fpath f = fpath g;
  (** use_previous windows have one named unit, and a number of observations is positive *)
  pf_windows : forall f, calculated fs f -> plain_window f;
  pf_same_window : forall f g a b, calculated fs f -> calculated fs g -> fprev f = Some a -> fprev g = Some b ->
    td_times a = td_times b -> a = b;
  pf_observations : forall f d n, calculated fs f -> fprev f = Some d -> dget String.eqb "o"%string (td_times d) = Some n -> (0 < n)%Z;
  (** beyond the first step, an aggregation goes through relationships that are the only one between
      their two entities *)
  pf_links : forall p bs path u wh prev nm, calculated fs (FAgg p bs path u wh prev nm) ->
    forall r, In r (tl path) -> parent_name rels r = r_pe r;
  (** a condition is not one of the aggregated inputs *)
  pf_where : forall p bs path u w prev nm, calculated fs (FAgg p bs path u (Some w) prev nm) -> ~ In w bs;
  (** a parent column is copied by one direct feature *)
  pf_direct : forall r b nm b' nm' n, calculated fs (FDirect r b nm) -> calculated fs (FDirect r b' nm') ->
    In n (fnames rels b) -> In n (fnames rels b') -> FDirect r b nm = FDirect r b' nm';
  (** primitives return as many outputs as they declare *)
  pf_outputs : forall f, calculated fs f -> match f with
    | FAgg p bs _ _ _ _ _ => forall t cs, List.length cs = List.length bs -> List.length (p_agg p t cs) = p_nout p
    | FTrans p bs _ | FGroup p bs _ _ => forall t cs, List.length cs = List.length bs -> List.length (p_trans p t cs) = p_nout p
    | _ => True
    end;
  (** transforms that do not ask for the full entity work row by row *)
  pf_trans : forall p bs nm, calculated fs (FTrans p bs nm) -> p_full p = false -> rowwise (List.length bs) p;
  pf_group : forall p bs g nm, calculated fs (FGroup p bs g nm) -> p_full p = false -> rowwise (List.length bs) p
}.
