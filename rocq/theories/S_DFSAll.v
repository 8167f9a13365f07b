(** Everything that was asked for is built: specification for C68. *)
From Coq Require Import Permutation.
From Verif Require Import Base M_Schema M_Feature M_Types M_Match M_DFS S_Schema S_Match.

Section All.
  Variable rels : list relationship.
  (** what other features may take as input: the feature itself, or each of its outputs when it has several *)
  Definition outputs (f : feat) : list feat :=
    if Nat.ltb 1 (fnout f) then map (fun i => FSlice f i None) (seq 0 (fnout f)) else [f].
  (** no two of the features share a name *)
  Definition named_apart (l : list feat) : Prop := forall f g, In f l -> In g l -> fname rels f = fname rels g -> f = g.
  (** a step on top of [b] stays within max_depth (-1: no limit); with only one entity, nothing is stacked *)
  Definition room (entities : list string) (A : dfs_args) (b : feat) : Prop :=
    forall n, get_depth rels None b = Ok n -> (g_depth A = (-1)%Z \/ (Z.of_nat n < g_depth A)%Z) /\ (List.length entities = 1 -> n = 0).
  (** all are values of the same parent *)
  Definition same_parent (m : list feat) : Prop := exists r, forall b, In b m -> exists x nm, b = FDirect r x nm.
  (** the order of the inputs of a commutative primitive is not promised *)
  Definition reordered (comm : bool) (m m' : list feat) : Prop := if comm then Permutation m' m else m' = m.
  (** a feature of that name is in the list *)
  Definition present (fs : list feat) (f : feat) : Prop := exists f', In f' fs /\ funique rels f' = funique rels f.
  (** a name that an output of a feature with several outputs could have *)
  Definition output_name (v : string) : Prop := exists b i, 1 < fnout b /\ i < fnout b /\ fname rels (FSlice b i None) = v.
  (** the index of the target is not named like [f] *)
  Definition not_index (index_of : string -> option string) (A : dfs_args) (f : feat) : Prop := index_of (g_target A) <> Some (fname rels f).
  (** everything that has a name: the index, the result and the outputs *)
  Definition named (index_of : string -> option string) (A : dfs_args) (fs : list feat) : list feat :=
    (match index_of (g_target A) with Some i => [FIdent (g_target A) i None] | None => [] end) ++ fs ++ flat_map outputs fs.
End All.

(** ** Options: may a primitive be used on entity [e]? *)
Definition names_entity (e : string) (o : option edict) : Prop := exists i, o = Some i /\ dget String.eqb e i <> None.
Definition entity_allowed (os : list popt) (e : string) : Prop :=
  forall o, In o os -> names_entity e (o_inc_v o) \/ entity_passes (o_inc_e o) (Some (o_ign_e o)) e.
Definition group_allowed (os : list popt) (e : string) : Prop :=
  entity_allowed os e /\ forall o, In o os -> names_entity e (o_inc_gv o) \/ entity_passes (o_inc_ge o) (o_ign_ge o) e.
