(** Conditions under which a valid request is answered, whatever the data: no step of the calculation can fail. *)
From Verif Require Import Base M_Schema M_Table M_Query M_Feature M_FeatureSet S_Calc S_Group S_Sem S_Value.

Record runnable (es : entityset) (T : Z) (tw : option window) (incl : bool) (fs : list feat) : Prop := {
  (** the variables that features read exist *)
  rn_variables : forall eid v nm, needed fs (FIdent eid v nm) -> exists e, es_get es eid = Ok e /\ In v (cols (e_df e));
  (** transforms return one value per row *)
  rn_lengths : forall f, calculated fs f -> match f with
    | FTrans p bs _ | FGroup p bs _ _ => forall t cs n o, List.length cs = List.length bs ->
        (forall c, In c cs -> List.length c = n) -> In o (p_trans p t cs) -> List.length o = n
    | _ => True
    end;
  (** conditions are true or false, never missing *)
  rn_where : forall p bs path u w prev nm, calculated fs (FAgg p bs path u (Some w) prev nm) ->
    forall c, In c (rows_at es T tw incl (fentity w)) -> exists b, hd VNull (sem es T tw incl w c) = VBool b;
  (** pandas counts a column once per group of aggregations *)
  rn_counts : forall p p' bs bs' path u u' wh prev nm nm',
    let f := FAgg p bs path u wh prev nm in let g := FAgg p' bs' path u' wh prev nm' in
    calculated fs f -> calculated fs g -> single_column f -> single_column g -> p_count p = true -> p_count p' = true ->
    hd_error bs = hd_error bs' -> f = g;
  (** an aggregation that is not a single pandas column has some group to aggregate as soon as it has a row:
      it does not use [use_previous], and every row belongs to an instance *)
  rn_columns : forall p bs path u wh prev nm, calculated fs (FAgg p bs path u wh prev nm) ->
    single_column (FAgg p bs path u wh prev nm) \/
    (prev = None /\ forall b c, In b bs -> In c (rows_at es T tw incl (fentity b)) -> owner es T tw incl path c <> VNull);
  (** only a feature with one column has the name of the parent's index *)
  rn_index_names : forall r b nm, calculated fs (FDirect r b nm) -> fname (es_rels es) b = r_pv r -> fnout b = 1;
  (** a copy of the parent's index is not called like a link column (it would be skipped, L551, and then not found, L562) *)
  rn_index_links : forall r b nm r' c, calculated fs (FDirect r b nm) -> fname (es_rels es) b = r_pv r ->
    link_column (es_rels es) r' c -> r_ce r' = r_ce r -> fname (es_rels es) (FDirect r b nm) <> link_name (es_rels es) r' c;
  (** a transform of one output of a feature with several does not slice an aggregation or a direct
      feature: the order of evaluation does not look through such slices (C14_slice_order_refuted) *)
  rn_slices : forall f b n nm, calculated fs f -> fpath f = [] -> In (FSlice b n nm) (fdeps f) -> fpath b = []
}.
