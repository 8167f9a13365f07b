(** What the search can make, as far as names go: vocabulary of C74. *)
From Verif Require Import Base M_Schema M_Feature M_Types M_Match M_DFS S_Schema S_DFS.

Section Made.
  Variable variables : string -> list string.
  Variable vtypes : string -> string -> option vtyp.
  Variable interesting : string -> string -> list val.
  Variable rels : list relationship.
  Variable p_ret : prim -> option vtyp.
  Variable p_inputs : prim -> option (list (list vtyp)).
  Variable eq_prim : val -> prim.
  Variable A : dfs_args.
  (** columns, and what the listed primitives make of what was made before and has
      the types they declare: an over-approximation of what a search finds *)
  Inductive made : feat -> Prop :=
  | made_column e v : In v (variables e) -> made (FIdent e v None)
  | made_output b i : made b -> 1 < fnout b -> i < fnout b -> made (FSlice b i None)
  | made_transform p m e : In p (g_trans A) -> m <> [] -> takes vtypes p_ret p_inputs p m -> (forall b, In b m -> made b /\ fentity b = e) -> made (FTrans p m None)
  | made_group p m g e : In p (g_groups A) -> takes vtypes p_ret p_inputs p m -> (forall b, In b m -> made b /\ fentity b = e) -> made g -> fentity g = e -> made (FGroup p m g None)
  | made_parent r b : In r rels -> made b -> fentity b = r_pe r -> ~ end_of r b -> made (FDirect r b None)
  | made_aggregate p m path e ce u wh : In p (g_aggs A) -> m <> [] -> path <> [] -> backward_chain rels e path ce -> takes vtypes p_ret p_inputs p m -> (forall b, In b m -> made b /\ fentity b = ce) ->
      has_unique_forward_path rels ce e = Ok u ->
      (forall w, wh = Some w -> exists v x, In v (variables ce) /\ In x (interesting ce v) /\ w = FTrans (eq_prim x) [FIdent ce v None] None) ->
      made (FAgg p m path u wh None None).
  (** no two features of an entity share a name *)
  Definition names_differ : Prop := forall f g, made f -> made g -> fentity f = fentity g -> fname rels f = fname rels g -> f = g.
  (** ... not even when the case of letters is ignored, wherever a commutative primitive could take them *)
  Definition case_matters_not (attr : prim -> pattr) (lower : string -> string) : Prop :=
    (exists p, In p (g_trans A ++ g_groups A ++ g_aggs A) /\ a_comm (attr p) = true) ->
    forall f g, made f -> made g -> fentity f = fentity g -> lower (fname rels f) = lower (fname rels g) -> fname rels f = fname rels g.
End Made.
