(** Vocabulary of C73: what a caller of deep feature synthesis provides when the names are ordinary words and the
    primitives behave.  Nothing here speaks about the features that the search makes. *)
From Verif Require Import Base M_Schema S_Schema M_Table M_Query M_Feature M_Types M_DFS S_Calc S_Sem S_Value M_Names S_Names S_Ordinary.

Record ordinary_search (es : entityset) (style_of : prim -> style -> Prop)
    (entities : list string) (variables : string -> list string) (vtypes : string -> string -> option vtyp) (interesting : string -> string -> list val)
    (p_ret : prim -> option vtyp) (p_inputs : prim -> option (list (list vtyp))) (eq_prim : val -> prim) (A : dfs_args) : Prop := {
  (** the description of the schema that the search reads is that of the data *)
  sr_entities : forall e, In e entities -> exists x, es_get es e = Ok x;
  sr_variables : forall e v, In v (variables e) -> exists x, es_get es e = Ok x /\ In v (cols (e_df x));
  sr_index : forall e v, vtypes e v = Some YIndex -> v = index_of es e;
  sr_once : NoDup (es_rels es);
  sr_acyclic : forall e, ~ reaches_cycle r_pe r_ce (es_rels es) e;
  sr_seeds : g_seeds A = [];
  (** how the primitives are named *)
  sr_styled : styled style_of;
  sr_trans : forall p, In p (g_trans A ++ g_groups A) -> exists n args, style_of p (Call n args);
  sr_aggs : forall p, In p (g_aggs A) -> (exists n args, style_of p (Aggregate n args)) \/ (style_of p Counting /\ exists sigs, p_inputs p = Some ([YIndex] :: sigs));
  sr_eq : forall e v x, In x (interesting e v) -> (exists op w, style_of (eq_prim x) (Scalar op w)) /\ ~ In (eq_prim x) (g_trans A);
  (** what they do with the inputs they declare *)
  sr_good_trans : forall p ts sigs, In p (g_trans A ++ g_groups A) -> p_inputs p = Some (ts :: sigs) -> good_trans p (List.length ts);
  sr_good_agg : forall p ts sigs, In p (g_aggs A) -> p_inputs p = Some (ts :: sigs) -> good_agg p (List.length ts);
  sr_good_eq : forall e v x, In x (interesting e v) -> good_trans (eq_prim x) 1 /\ returns_booleans (eq_prim x) 1 /\ p_full (eq_prim x) = false;
  sr_declared : forall p, In p (g_trans A ++ g_groups A ++ g_aggs A) -> exists ts sigs, p_inputs p = Some (ts :: sigs) /\ ts <> [];
  (** no primitive returns an index *)
  sr_returns : forall p, In p (g_trans A ++ g_groups A ++ g_aggs A) -> p_ret p <> Some YIndex;
  (** at most one primitive counts rows the way pandas does *)
  sr_count : forall p p', In p (g_aggs A) -> In p' (g_aggs A) -> p_count p = true -> p_count p' = true -> p = p';
  (** no transform needs its whole entity, or no entity has a grandparent (C06_link_full_refuted) *)
  sr_full : (forall p, In p (g_trans A ++ g_groups A) -> p_full p = false) \/ (forall r0 r, In r0 (es_rels es) -> In r (es_rels es) -> r_ce r0 <> r_pe r)
}.

(** an aggregation that pandas makes of a single column *)
Definition one_column (p_inputs : prim -> option (list (list vtyp))) (p : prim) : Prop :=
  p_time p = false /\ exists t sigs, p_inputs p = Some ([t] :: sigs).
(** aggregations of several columns, or that read the time: every row visible at time [T] belongs to an instance *)
Definition owned (es : entityset) (p_inputs : prim -> option (list (list vtyp))) (A : dfs_args) (tw : option window) (incl : bool) (T : Z) : Prop :=
  forall p, In p (g_aggs A) -> one_column p_inputs p \/
    forall e path ce c, path <> [] -> backward_chain (es_rels es) e path ce -> In c (rows_at es T tw incl ce) -> owner es T tw incl path c <> VNull.
(** ... and their value over no rows is missing *)
Definition missing_defaults (p_inputs : prim -> option (list (list vtyp))) (A : dfs_args) : Prop :=
  forall p, In p (g_aggs A) -> one_column p_inputs p \/ p_default p = VNull.
