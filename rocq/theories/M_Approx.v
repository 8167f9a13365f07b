(** Models the calculation with [approximate] in computational_backends/calculate_feature_matrix.py and utils.py,
    for pandas entity sets and a window given as a timedelta. *)
From Verif Require Import Base M_Schema M_Trie M_Table M_Query M_Feature M_FeatureSet M_Calc M_CFM M_Time.

(** feature_set.py L56-60 [feature_dependents] of one feature: the features that rely on it *)
Definition dependents (rels : list relationship) (fs : list feat) (f : feat) : list feat :=
  let names := match dget String.eqb (funique rels f) (feature_dependents rels fs) with Some l => l | None => [] end in
  flat_map (fun n => match dget String.eqb n (features_by_name rels fs) with Some g => [g] | None => [] end) names.

(** feature_set.py L192-201 [uses_full_entity(feature, check_dependents=True)] *)
Definition uses_full_or_dependent (rels : list relationship) (fs : list feat) (f : feat) : bool :=
  uses_full f || existsb uses_full (dependents rels fs f).

(** utils.py L99-103: the end of a chain of direct features, with the path to it *)
Fixpoint chain_end (b : feat) : list edge * feat :=
  match b with
  | FDirect r b' _ => let '(p, e) := chain_end b' in ((true, r) :: p, e)
  | _ => ([], b)
  end.

Definition is_agg (f : feat) : bool := match f with FAgg _ _ _ _ _ _ _ => true | _ => false end.

(** utils.py L79-109 [gather_approximate_features] *)
Definition gather_approximate (rels : list relationship) (fs : list feat) : atrie :=
  fold_left (fun t f =>
    if uses_full_or_dependent rels fs f then t
    else match f with
         | FDirect _ _ _ =>
           let '(p, b) := chain_end f in
           if is_agg b then update_at edge_eqb [] p (fun s => TNode (set_add (funique rels b) (tvalue s)) (children s)) t else t
         | _ => t
         end) fs (TNode [] []).

(** calculate_feature_matrix.py L218-235 [no_unapproximated_aggs] *)
Definition no_unapproximated (rels : list relationship) (fs : list feat) (appr : atrie) : bool :=
  let names := flat_map snd (iter appr) in
  forallb (fun f => negb (is_agg f) && forallb (fun d => negb (is_agg d)) (deep_deps rels names f)) fs.

(** L693-721 [_add_approx_entity_index_var]: each cutoff with the instance at the end of the path, by inner merges with the
    whole tables.  If the link is the index itself, the frame has that column twice and the merge raises (KeyError).  Clashes
    of the columns added on the way with columns of the cutoff frame are not modelled. *)
Fixpoint follow (es : entityset) (path : list edge) (pv : string) (cs : list (cutoff * val)) : res (list (cutoff * val)) :=
  match path with
  | [] => Ok cs
  | (_, r) :: path' =>
    do e <- es_get es (r_ce r);
    do _ <- check_col (e_df e) pv; do _ <- check_col (e_df e) (r_cv r);
    if String.eqb pv (r_cv r) then Err KeyError
    else follow es path' (r_pv r)
           (flat_map (fun cv => map (fun x => (fst cv, cell (r_cv r) x))
                                 (filter (fun x => val_eqb (cell pv x) (snd cv)) (rows (e_df e)))) cs)
  end.

(** the feature matrix as a frame indexed by the instance; the index is not a column *)
Definition frame_of (idx : string) (names : list string) (fm : list mrow) : df :=
  mkDf names (map (fun m : mrow => (idx, fst (fst m)) :: snd m) fm).

Section Approx.
  Variables (es : entityset) (idvars : string -> list string) (ord : list string -> list string) (incl : bool)
            (sort_ids : list val -> list val) (now : Z) (tw : option window).
  Notation rels := (es_rels es).

  (** L379-400: the calculator of one group of rows, with the features calculated beforehand *)
  Definition calculator_with (fs : list feat) (appr : atrie) (pre : option (trie edge (option df))) (w : option window) (t : Z)
      (ids : list val) : res matrix :=
    run es idvars ord fs appr (match pre with Some p => p | None => TNode None [] end) t w incl ids.

  (** L541-573 for one node of the trie.  drop_duplicates also looks at target_time, which is the same for all rows; sort_values
      is left out: the calculation sorts the instances of each time again (L422). *)
  Definition approximate_node (fs : list feat) (bs : list cutoff) (path : list edge) (names : list string) : res df :=
    do e0 <- match fs with f :: _ => es_get es (fentity f) | [] => Err IndexError end;
    do linked <- follow es path (e_index e0) (map (fun c => (c, c_id c)) bs);
    let keep := filter (fun iv => negb (is_null (fst iv)))
                  (dedup_by label_eqb [] (map (fun cv => (snd cv, c_time (fst cv))) linked)) in
    do afs <- mapM (fun n => match dget String.eqb n (features_by_name rels fs) with Some f => Ok f | None => Err KeyError end) (ord names);
    do e <- match afs with f :: _ => es_get es (fentity f) | [] => Err IndexError end;
    match keep with
    | [] => Ok (mkDf (map (fname rels) afs) [])                                                      (* utils.py L112-115 *)
    | _ =>
      let cut := CFrame (map (fun iv => mkCutoff (fst iv) (snd iv) (snd iv) []) keep) in
      do fm <- cfm (calculator_with afs (TNode [] [])) (fun _ => Err RuntimeError) sort_ids now tw [] Sequential false false
                 (Some (Z.of_nat (List.length keep), 1%Z)) cut cut;
      Ok (frame_of (e_index e) (flat_map (fnames rels) afs) fm)
    end.

  (** L491-578 [approximate_features] on a group of rows whose times are already rounded *)
  Definition approximate_features (td : timedelta) (fs : list feat) (appr : atrie) (group : list cutoff) : res (trie edge (option df)) :=
    do bs <- bin_cutoffs td group;
    foldM (fun t pn =>
             match snd pn with
             | [] => Ok t
             | _ => do d <- approximate_node fs bs (fst pn) (snd pn); Ok (set_value edge_eqb None (fst pn) (Some d) t)
             end) (iter appr) (TNode None []).

  (** L209-328: calculate_feature_matrix with a cutoff frame and approximate *)
  Definition cfm_approximate (td : timedelta) (fs : list feat) (pass : list string) (m : mode) (size : option (Z * Z)) (cs : list cutoff) : res (list mrow) :=
    let appr := gather_approximate rels fs in
    do bs <- bin_cutoffs td cs;
    cfm (calculator_with fs appr) (approximate_features td fs appr) sort_ids now tw pass m true (no_unapproximated rels fs appr) size
      (CFrame cs) (CFrame bs).
End Approx.
