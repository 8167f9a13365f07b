(** How the arguments of dfs become the arguments of the search: the constructor of DeepFeatureSynthesis, synthesis/deep_feature_synthesis.py L127-268,
    [handle_primitive] and [check_trans_primitive] L923-947, the order of primitives primitives/base/primitive_base.py L57-58 and L71-107.
    Simplifications: the checks that ignore_entities and ignore_variables are lists of names (L169-184) always pass; calling a class twice gives the same
    primitive (in Python, equal primitives that are different objects); calling something that is not a primitive class is left out. *)
From Verif Require Import Base M_Schema M_Feature M_Types M_Match M_DFS M_Names.
Local Open Scope string_scope.

(** one element of agg_primitives, trans_primitives, ...: a name, a class (a number) or a primitive *)
Inductive given : Type := GName (s : string) | GClass (k : nat) | GInst (p : prim).

(** a value of an argument: its type, and the text [str(value)] *)
Record aval : Type := mkAval { v_type : nat; v_text : string }.
(** inspect.Parameter: name, whether it is POSITIONAL_OR_KEYWORD, its default ([None] is Parameter.empty) *)
Record param : Type := mkParam { m_name : string; m_standard : bool; m_default : option aval }.

(** the arguments of dfs that the constructor works on *)
Record call : Type := mkCall {
  l_target : string;
  l_aggs : option (list given); l_trans : option (list given); l_wheres : option (list given); l_groups : option (list given);
  l_depth : Z; l_maxf : Z; l_paths : list (list string); l_ignore_e : list string; l_ignore_v : edict; l_options : uopts;
  l_seeds : list feat; l_drop_contains : list string; l_drop_exact : list string; l_limit : nat
}.

Section Setup.
  Variable entities : list string.
  Variable rels : list relationship.
  Variable attr : prim -> pattr.
  Variable lower : string -> string.
  (** calling a class without arguments; primitives/utils.py L16-40: the classes by lower-case name *)
  Variable new : nat -> res prim.
  Variable known_aggs known_trans : list (string * nat).
  (** entityset_type in p.compatibility, of a primitive and of a class *)
  Variable compatible : prim -> bool.
  Variable compatible_class : nat -> bool.
  (** primitives/api: get_default_aggregation_primitives, get_default_transform_primitives, and Count *)
  Variable default_aggs default_trans : list nat.
  Variable count_class : nat.
  (** signature(self.__class__).parameters, getattr(self, name), isinstance on types, == on values *)
  Variable params : prim -> list param.
  Variable attribute : prim -> string -> option aval.
  Variable subtype : nat -> nat -> bool.
  Variable aeq : aval -> aval -> bool.

  (** primitive_base.py L85-107 [get_arguments] *)
  Definition get_arguments (p : prim) : res (list (string * aval)) :=
    foldM (fun acc m =>
      if negb (m_standard m) then Ok acc else
      match attribute p (m_name m) with
      | None => Err AssertionError
      | Some v => Ok (match m_default m with
                      | Some d => if subtype (v_type v) (v_type d) && aeq d v then acc else (acc ++ [(m_name m, v)])%list
                      | None => (acc ++ [(m_name m, v)])%list
                      end)
      end) (params p) [].
  (** L57-58: what [<] compares *)
  Definition prim_key (p : prim) : res string :=
    do args <- get_arguments p; Ok (a_name (attr p) ++ args_string (map (fun a : string * aval => fst a ++ "=" ++ v_text (snd a)) args)).
  (** list.sort: of two or more, each is compared; of fewer, none *)
  Definition sort_prims (l : list prim) : res (list prim) :=
    if Nat.leb (List.length l) 1 then Ok l
    else do ks <- mapM (fun p => do k <- prim_key p; Ok (k, p)) l; Ok (map snd (isort (fun a b : string * prim => str_leb (fst a) (fst b)) ks)).

  (** L203-210, L228-237, L932-938, L923-928 *)
  Definition handle (known : list (string * nat)) (g : given) : res prim :=
    match g with
    | GInst p => Ok p
    | GClass k => new k
    | GName s => match dget String.eqb (lower s) known with None => Err ValueError | Some k => new k end
    end.
  (** L202-214 *)
  Definition agg_primitive (g : given) : res prim := do p <- handle known_aggs g; if a_isagg (attr p) then Ok p else Err ValueError.
  (** L931-947 [check_trans_primitive] *)
  Definition trans_primitive (g : given) : res prim := do p <- handle known_trans g; if a_isagg (attr p) then Err ValueError else Ok p.
  (** L227-237: the kind is not checked *)
  Definition where_primitive (g : given) : res prim := handle known_aggs g.
  Definition prims_of (one : given -> res prim) (l : list given) : res (list prim) := do ps <- mapM one l; sort_prims ps.
  (** L198-199, L217-218, L225-226, L240-241 *)
  Definition classes (ks : list nat) : list given := map GClass (filter compatible_class ks).
  Definition given_or (d : list given) (l : option (list given)) : list given := match l with None => d | Some l => l end.

  Definition setup (L : call) : res dfs_args :=
    if negb (mem_str (l_target L) entities) then Err KeyError                                            (* L146-149 *)
    else if mem_str (l_target L) (l_ignore_e L) then Err AssertionError                                  (* L171-172 *)
    else
      do aggs <- prims_of agg_primitive (given_or (classes default_aggs) (l_aggs L));                    (* L198-215 *)
      do trans <- prims_of trans_primitive (given_or (classes default_trans) (l_trans L));               (* L217-223 *)
      do wheres <- prims_of where_primitive (given_or [GClass count_class] (l_wheres L));                (* L225-238 *)
      do groups <- prims_of trans_primitive (given_or [] (l_groups L));                                  (* L240-246 *)
      if negb (forallb compatible (trans ++ aggs ++ wheres ++ groups)%list) then Err ValueError               (* L250-256 *)
      else Ok (mkArgs (l_target L) aggs trans wheres groups (l_depth L) (l_maxf L) (l_paths L) (l_ignore_e L) (l_ignore_v L) (l_options L)
                 (isort (fun a b => str_leb (funique rels a) (funique rels b)) (l_seeds L))                  (* L264 *)
                 (l_drop_contains L) (l_drop_exact L) (l_limit L)).
End Setup.
