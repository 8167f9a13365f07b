(** Deep feature synthesis: models synthesis/deep_feature_synthesis.py L127-822 and the pure parts of synthesis/dfs.py. *)
From Verif Require Import Base M_Schema M_Feature M_Types M_Serialize M_Match.
Local Open Scope string_scope.
Local Open Scope list_scope.

(** [c in s] for strings *)
Fixpoint substr (c s : string) : bool := String.prefix c s || match s with "" => false | String _ s => substr c s end.

(** Arguments of the constructor (L127-143) that stay as they are.  Library-dependent defaults and primitives given by name
    are not modelled: primitives are instances. *)
Record dfs_args : Type := mkArgs {
  g_target : string;
  g_aggs : list prim; g_trans : list prim; g_wheres : list prim; g_groups : list prim;   (* already sorted, L215, L223, L238, L246 *)
  g_depth : Z; g_maxf : Z;                             (* max_depth, max_features *)
  g_paths : list (list string);                        (* allowed_paths, [] when not given *)
  g_ignore_e : list string; g_ignore_v : edict;
  g_options : uopts;
  g_seeds : list feat;                                 (* sorted by unique name, L263 *)
  g_drop_contains : list string; g_drop_exact : list string;
  g_limit : nat                                        (* where_stacking_limit *)
}.

Section DFS.
  (** the entity set: entities, variables of each entity in order, their types and interesting values, indexes, relationships.
      [Variable.name] is taken to be its id (it can be changed by the user, variable.py L88-104). *)
  Variable entities : list string.
  Variable variables : string -> list string.
  Variable vtypes : string -> string -> option vtyp.
  Variable interesting : string -> string -> list val.
  Variable index_of : string -> option string.
  Variable rels : list relationship.
  (** primitives: see M_Types, M_Match; [eq_prim v] is EqualScalar(v) *)
  Variable p_ret : prim -> option vtyp.
  Variable p_inputs : prim -> option (list (list vtyp)).
  Variable attr : prim -> pattr.
  Variable subc : nat -> nat -> bool.
  Variable eq_prim : val -> prim.
  Variable arity_of : okey -> option nat.
  Variable lower : string -> string.
  (** the order in which a set of features is iterated *)
  Variable ordF : list feat -> list feat.
  Notation ftype := (ftype p_ret vtypes).
  Notation fname := (fname rels).
  Notation funique := (funique rels).
  Notation mk_agg := (mk_agg p_ret p_inputs vtypes rels (fun _ _ => Ok tt)).
  Notation mk_trans := (mk_trans p_ret p_inputs vtypes).
  Notation mk_group := (mk_group p_ret p_inputs vtypes).
  Notation mk_ident := (mk_ident vtypes).

  Definition afeats : Type := list (string * list (string * feat)).
  Record state : Type := mkSt { s_all : afeats; s_wheres : list (string * list feat) }.

  Section Run.
  (** the constructor's results: options per primitive, what is ignored everywhere, depth limit ([None]: unlimited) *)
  Variable A : dfs_args.
  Variable G : gopts.
  Definition seed_names : list string := map funique (g_seeds A).
  Definition pool_depth (f : feat) : res nat := get_depth rels (Some seed_names) f.

  (** L476-504 [_handle_new_feature] *)
  Definition handle_new_feature (f : feat) (all : afeats) : res afeats :=
    match dget String.eqb (fentity f) all with
    | None => Err KeyError
    | Some d =>
      if match dget String.eqb (funique f) d with Some _ => negb (mem_str (funique f) seed_names) | None => false end then Ok all
      else Ok (dset String.eqb (fentity f) (dset String.eqb (funique f) f d) all)
    end.
  Definition add_all (fs : list feat) (all : afeats) : res afeats := foldM (fun all f => handle_new_feature f all) fs all.

  (** L506-529 [_add_identity_features] *)
  Definition add_identity_features (e : string) (all : afeats) : res afeats :=
    do ids <- mapM (fun v => mk_ident e v None) (filter (fun v => negb (mem_str v (dd_get e (g_ign_v G)))) (variables e));
    do all <- add_all ids all;
    add_all (filter (fun f => String.eqb (fentity f) e) (g_seeds A)) all.

  (** L531-554 [_build_where_clauses]: [feat == val] is Feature([feat], primitive=EqualScalar(val)) (feature_base.py L218-226) *)
  Definition add_where (f : feat) (l : list feat) : list feat := if existsb (feq rels f) l then l else l ++ [f].
  Definition build_where_clauses (e : string) (s : state) : res state :=
    let idents := filter (fun f => match f with FIdent _ _ _ => true | _ => false end) (map snd (match dget String.eqb e (s_all s) with Some d => d | None => [] end)) in
    do ws <- mapM (fun f => match f with
                            | FIdent e' v _ => mapM (fun x => mk_trans (eq_prim x) [f] None) (interesting e' v)
                            | _ => Ok []
                            end) idents;
    let old := match dget String.eqb e (s_wheres s) with Some l => l | None => [] end in
    Ok (mkSt (s_all s) (dset String.eqb e (fold_left (fun l w => add_where w l) (List.concat ws) old) (s_wheres s))).

  (** L754-782 [_features_by_type]; [ts = None] stands for PandasTypes._all *)
  Definition ddel (n : string) (d : list (string * feat)) : list (string * feat) := filter (fun kv => negb (String.eqb (fst kv) n)) d.
  Definition expand (d : list (string * feat)) : res (list (string * feat)) :=
    foldM (fun acc (kv : string * feat) =>
             if Nat.ltb 1 (fnout (snd kv)) then
               do sl <- mapM (fun i => mk_slice (snd kv) i None) (seq 0 (fnout (snd kv)));
               Ok (fold_left (fun acc s => dset String.eqb (funique s) s acc) sl (ddel (fst kv) acc))
             else Ok acc) d d.
  Definition deep_enough (md : option Z) (f : feat) : res bool :=
    match md with None => Ok true | Some m => do n <- pool_depth f; Ok (Z.leb (Z.of_nat n) m) end.
  Fixpoint filterM (p : feat -> res bool) (l : list feat) : res (list feat) :=
    match l with [] => Ok [] | x :: l => do b <- p x; do l <- filterM p l; Ok (if b then x :: l else l) end.
  Definition features_by_type (all : afeats) (e : string) (md : option Z) (ts : option (list vtyp)) : res (list feat) :=
    if match md with Some m => Z.ltb m 0 | None => false end then Ok []
    else match dget String.eqb e all with
         | None => Ok []
         | Some d =>
           do d <- expand d;
           filterM (deep_enough md) (filter (fun f => match ts with None => true | Some ts => existsb (issub (ftype f)) ts end) (map snd d))
         end.

  (** L784-798 *)
  Definition feature_in_relationship_path (path : list edge) (f : feat) : bool :=
    match f with
    | FIdent e v _ => existsb (fun x : edge => let r := snd x in
        (String.eqb (r_ce r) e && String.eqb (r_cv r) v) || (String.eqb (r_pe r) e && String.eqb (r_pv r) v)) path
    | _ => false
    end.

  (** L582-584: only the first alternative of the input types is used *)
  Definition dfs_types (p : prim) : res (list vtyp) := match p_inputs p with None => Err TypeError | Some [] => Err IndexError | Some (t :: _) => Ok t end.
  Definition opts (p : prim) : list popt := options_of attr (g_opts G) p.
  (** L800-822 [_get_matching_inputs] *)
  Definition get_matching_inputs (all : afeats) (e : string) (md : option Z) (ts : list vtyp) (p : prim) (direct : bool) (flt : feat -> bool) : res (list (list feat)) :=
    do fs <- features_by_type all e md (Some ts);
    let fs := filter flt fs in
    do ms <- match_inputs rels p_ret vtypes lower ordF ts fs (a_comm (attr p)) direct;
    let ms := if direct then filter (fun m => negb (all_direct_and_same_path m)) ms else ms in
    filter_matches_by_options rels p_ret vtypes ms (opts p) false (a_comm (attr p)).

  Definition lower_depth (md : option Z) : option Z := option_map (fun m => (m - 1)%Z) md.
  Definition usable (m : list feat) : bool := forallb (fun b => Nat.eqb (fnout b) 1) m && check_transform_stacking attr m.

  (** L575-599 *)
  Definition trans_step (all : afeats) (e : string) (md : option Z) (direct : bool) (p : prim) : res (list feat) :=
    if ignore_entity_for_primitive (opts p) e false then Ok []
    else do ts <- dfs_types p;
         do ms <- get_matching_inputs all e (lower_depth md) ts p direct (fun _ => true);
         mapM (fun m => mk_trans p m None) (filter usable ms).
  (** L601-646.  At L636-642 [groupby] is still the one-element tuple made by [filter_groupby_matches_by_options], so the
      grouping feature is never counted as a DirectFeature and the first test is never true. *)
  Definition group_step (all : afeats) (e : string) (md : option Z) (direct : bool) (p : prim) : res (list feat) :=
    if ignore_entity_for_primitive (opts p) e true then Ok []
    else do ts <- dfs_types p;
         do ms <- get_matching_inputs all e (lower_depth md) ts p false (fun _ => true);
         let gts := if existsb (fun o => has_key e (o_inc_gv o)) (opts p) then None else Some [YId] in
         do gs <- features_by_type all e (lower_depth md) gts;
         do gs <- filter_matches_by_options rels p_ret vtypes (map (fun g => [g]) gs) (opts p) true false;
         do fss <- mapM (fun m => mapM (fun g => match g with g :: _ => mk_group p m g None | [] => Err IndexError end)
                                       (filter (fun _ => negb (direct && negb (existsb is_direct m))) gs)) (filter usable ms);
         Ok (List.concat fss).
  (** L556-649 [_build_transform_features] *)
  Definition build_transform_features (e : string) (md : option Z) (direct : bool) (s : state) : res state :=
    do t <- mapM (trans_step (s_all s) e md direct) (g_trans A);
    do g <- mapM (group_step (s_all s) e md direct) (g_groups A);
    do all <- add_all (List.concat t ++ List.concat g) (s_all s);
    Ok (mkSt all (s_wheres s)).

  (** L651-676 [_build_forward_features]; the [continue] at L671 continues the inner loop and skips nothing *)
  Definition build_forward_features (path : list edge) (md : option Z) (s : state) : res state :=
    match path with
    | [] => Err IndexError
    | (_, r) :: _ =>
      do fs <- features_by_type (s_all s) (r_pe r) md None;
      do ds <- mapM (fun f => mk_direct r f None) (filter (fun f => negb (feature_in_relationship_path path f)) fs);
      do all <- add_all ds (s_all s);
      Ok (mkSt all (s_wheres s))
    end.

  (** L720-730: aggregations with a where clause in the inputs and below *)
  Definition has_where (f : feat) : bool := match fwhere f with Some _ => true | None => false end.
  Definition count_wheres (m : list feat) : nat :=
    List.length (flat_map (fun f => filter has_where (f :: deep_deps rels [] f)) m).
  (** L711-752, for one input tuple *)
  Definition agg_one (p : prim) (path : list relationship) (ce : string) (s : state) (m : list feat) : res state :=
    do ok <- check_stacking attr subc p m;
    if negb ok then Ok s
    else
      do f <- mk_agg p m path None None None;
      do all <- handle_new_feature f (s_all s);
      if Nat.leb (g_limit A) (count_wheres m) then Ok (mkSt all (s_wheres s))
      else if negb (existsb (fun q => subc (a_class (attr p)) (a_class (attr q))) (g_wheres A)) then Ok (mkSt all (s_wheres s))
      else
        let wheres := ordF (match dget String.eqb ce (s_wheres s) with Some l => l | None => [] end) in
        let names := map funique m in
        do fs <- mapM (fun w => mk_agg p m path (Some w) None None)
                      (filter (fun w => negb (existsb (fun b => mem_str (funique b) names) (fbases w))) wheres);
        do all <- add_all fs all;
        Ok (mkSt all (s_wheres s)).
  (** L678-752 [_build_agg_features] *)
  Definition build_agg_features (pe ce : string) (path : list edge) (md : option Z) (s : state) : res state :=
    foldM (fun s p =>
      if ignore_entity_for_primitive (opts p) ce false then Ok s
      else do ts <- dfs_types p;
           do ms <- get_matching_inputs (s_all s) ce (lower_depth md) ts p false
                      (fun f => negb (direct_of_entity f pe) && negb (feature_in_relationship_path path f));
           do ms <- filter_matches_by_options rels p_ret vtypes ms (opts p) false false;
           foldM (agg_one p (map snd path) ce) ms s) (g_aggs A) s.

  Definition skip_entity (path : list edge) (ep : string * list edge) : bool :=
    mem_str (fst ep) (g_ign_e G)
    || match g_paths A with [] => false | ps => negb (existsb (list_eqb String.eqb (path_entities (path ++ snd ep))) ps) end.
  Definition visited (s : state) (e : string) : bool := match dget String.eqb e (s_all s) with Some _ => true | None => false end.

  (** L352-474 [_run_dfs].  [tf] is the fuel of the deep traversal (C18), [fuel] bounds the recursion; running out of either
      is an error that C29 excludes. *)
  Fixpoint run_dfs (tf fuel : nat) (e : string) (path : list edge) (md : option Z) (s : state) : res state :=
    if match md with Some m => Z.ltb m 0 | None => false end then Ok s                                   (* L364-365 *)
    else match fuel with
    | 0 => Err OutOfFuel
    | S fuel =>
      do all <- add_identity_features e (dset String.eqb e [] (s_all s));                                (* L367-372 *)
      let visit s (ep : string * list edge) :=
        if visited s (fst ep) || skip_entity path ep then Ok s
        else run_dfs tf fuel (fst ep) (path ++ snd ep) (lower_depth md) s in
      do back <- get_backward_entities 1 rels e false;
      do s <- foldM visit back (mkSt all (s_wheres s));                                                  (* L378-397 *)
      do deep <- get_backward_entities tf rels e true;
      do s <- foldM (fun s (ep : string * list edge) => if skip_entity path ep then Ok s else build_agg_features e (fst ep) (snd ep) md s) deep s;  (* L403-416 *)
      do s <- build_transform_features e md false s;                                                     (* L422 *)
      do fwd <- get_forward_entities 1 rels e false;
      do s <- foldM visit fwd s;                                                                         (* L428-447 *)
      do s <- foldM (fun s (ep : string * list edge) => if skip_entity path ep then Ok s else build_forward_features (snd ep) md s) fwd s;  (* L453-465 *)
      do s <- build_transform_features e md true s;                                                      (* L470 *)
      build_where_clauses e s                                                                            (* L474 *)
    end.

  (** L302-309 *)
  Definition is_target_index (f : feat) : bool :=
    match f with FIdent e v _ => String.eqb e (g_target A) && match index_of (g_target A) with Some i => String.eqb v i | None => false end | _ => false end.
  (** L332-350 [_filter_features] *)
  Definition keep_feature (f : feat) : bool :=
    negb (existsb (fun c => substr c (fname f)) (g_drop_contains A)) && negb (mem_str (fname f) (g_drop_exact A)).
  Definition sort_by_depth (fs : list feat) : res (list feat) :=
    do ds <- mapM (fun f => do n <- get_depth rels None f; Ok (n, f)) fs;
    Ok (map snd (isort (fun a b => Nat.leb (fst a) (fst b)) ds)).
  (** L300-330 of [build_features]; [ret] is return_variable_types, [None] for 'all' *)
  Definition finish (ret : option (list vtyp)) (d : list (string * feat)) : res (list feat) :=
    let fs := filter (fun f => match ret with None => true | Some ts => existsb (issub (ftype f)) ts end) (map snd d) in
    do fs <- sort_by_depth (filter (fun f => negb (is_target_index f)) fs);
    let fs := filter keep_feature fs in
    Ok (if Z.ltb 0 (g_maxf A) then firstn (Z.to_nat (g_maxf A)) fs else fs).
  End Run.

  (** L150-160 *)
  Definition depth_limit (A : dfs_args) : option Z :=
    let md := if Z.eqb (g_depth A) (-1) then None else Some (g_depth A) in
    if Nat.eqb (List.length entities) 1 && match md with None => true | Some m => Z.ltb 1 m end then Some 1%Z else md.
  Definition default_types : list vtyp := [YNumeric; YDiscrete; YBoolean].
  (** L127-330: the constructor and [build_features] *)
  Definition build_features (A : dfs_args) (ret : option (list vtyp)) (tf fuel : nat) : res (list feat) :=
    if negb (mem_str (g_target A) entities) then Err KeyError
    else if mem_str (g_target A) (g_ignore_e A) then Err AssertionError
    else
      do G <- generate_all_primitive_options attr arity_of (g_trans A ++ g_aggs A ++ g_wheres A ++ g_groups A) (g_options A) (g_ignore_e A) (g_ignore_v A);
      do s <- run_dfs A G tf fuel (g_target A) [] (depth_limit A) (mkSt [] []);
      match dget String.eqb (g_target A) (s_all s) with
      | None => Err KeyError                                                                             (* L300, e.g. max_depth = -2 *)
      | Some d => finish A ret d
      end.
End DFS.

(** ** Unused primitives: synthesis/dfs.py L295-359 *)
Record used : Type := mkUsed { u_trans : list string; u_agg : list string; u_group : list string; u_where : list string; u_seen : list string }.
Section Unused.
  Variable rels : list relationship.
  Variable attr : prim -> pattr.
  (** L328-354 [get_feature_data], with the recursion bounded by [fuel] *)
  Fixpoint get_feature_data (fuel : nat) (u : used) (f : feat) : res used :=
    if mem_str (fname rels f) (u_seen u) then Ok u
    else match fuel with
    | 0 => Err OutOfFuel
    | S fuel =>
      let f := match f with FSlice b _ _ => b | f => f end in
      let u := match f with
        | FAgg p _ _ _ (Some _) _ _ => mkUsed (u_trans u) (u_agg u) (u_group u) (a_name (attr p) :: u_where u) (u_seen u)
        | FAgg p _ _ _ None _ _ => mkUsed (u_trans u) (a_name (attr p) :: u_agg u) (u_group u) (u_where u) (u_seen u)
        | FGroup p _ _ _ => mkUsed (u_trans u) (u_agg u) (a_name (attr p) :: u_group u) (u_where u) (u_seen u)
        | FTrans p _ _ => mkUsed (a_name (attr p) :: u_trans u) (u_agg u) (u_group u) (u_where u) (u_seen u)
        | _ => u
        end in
      foldM (get_feature_data fuel) (fdeps f) (mkUsed (u_trans u) (u_agg u) (u_group u) (u_where u) (fname rels f :: u_seen u))
    end.
  (** L320-359 [_categorize_features] *)
  Definition categorize_features (fuel : nat) (fs : list feat) : res used := foldM (get_feature_data fuel) fs (mkUsed [] [] [] [] []).
  (** L295-300 [get_unused_primitives]; [specified] are names *)
  Definition get_unused (specified u : list string) : list string :=
    isort str_leb (dedup_by String.eqb [] (filter (fun n => negb (mem_str n u)) specified)).
End Unused.
