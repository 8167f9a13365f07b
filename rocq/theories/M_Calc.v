(** Models computational_backends/feature_set_calculator.py for pandas entity sets.
    The index of every frame is the entity's index column (set_index(..., drop=False) everywhere), so
    index lookups are written as lookups of that column.  dtypes and progress callbacks are not modelled. *)
From Verif Require Import Base M_Schema M_Trie M_Table M_Query M_Feature M_FeatureSet.

(** ** pandas operations *)

(** frame[c] as a column *)
Definition column (d : df) (c : string) : res (list val) :=
  do _ <- check_col d c; Ok (map (cell c) (rows d)).

(** add a column name (kept in place when present) *)
Definition add_col (c : string) (cs : list string) : list string := if mem_str c cs then cs else cs ++ [c].

(** frame.assign / frame[c] = values for a full column; a column of another length raises *)
Definition assign_col (d : df) (c : string) (vs : list val) : res df :=
  if Nat.eqb (List.length vs) (List.length (rows d)) then
    Ok (mkDf (add_col c (cols d)) (map (fun rv => dset String.eqb c (snd rv) (fst rv)) (combine (rows d) vs)))
  else Err ValueError.

(** frame[c] = scalar *)
Definition assign_scalar (d : df) (c : string) (v : val) : df :=
  mkDf (add_col c (cols d)) (map (dset String.eqb c v) (rows d)).

Definition set_cells (kvs : list (string * val)) (r : row) : row :=
  fold_left (fun r kv => dset String.eqb (fst kv) (snd kv) r) kvs r.

(** left.merge(right, how='left') on a key: one row per match, nulls when there is none.  Null keys
    match null keys (pandas).  [key] is read in the left row; [right] lists the right rows with their
    key; [new] are the new columns, with the right row's column each one copies. *)
Definition left_merge (left : list row) (key : row -> val) (right : list (val * row))
    (new : list (string * string)) : list row :=
  flat_map (fun r =>
    match filter (fun kr => val_eqb (fst kr) (key r)) right with
    | [] => [set_cells (map (fun nc => (fst nc, VNull)) new) r]
    | ms => map (fun kr => set_cells (map (fun nc => (fst nc, cell (snd nc) (snd kr))) new) r) ms
    end) left.

(** frame.fillna({column: value}); columns that do not exist are ignored *)
Definition fillna (fills : list (string * val)) (d : df) : df :=
  mkDf (cols d)
    (map (fun r => fold_left (fun r kv =>
            if mem_str (fst kv) (cols d) && is_null (cell (fst kv) r)
            then dset String.eqb (fst kv) (snd kv) r else r) fills r) (rows d)).

(** df[df[c].isin(vals)] *)
Definition isin_filter (d : df) (c : string) (vals : list val) : res df :=
  do _ <- check_col d c; Ok (filter_df (fun r => mem_val (cell c r) vals) d).

(** distinct non-null keys, in order of first appearance: groupby(..., sort=False) *)
Definition group_keys (key : row -> val) (rs : list row) : list val :=
  filter (fun v => negb (is_null v)) (dedup_by val_eqb [] (map key rs)).

Section Calc.
  Variables (es : entityset)
            (idvars : string -> list string)   (* L752-755: Index, Id and TimeIndex variables of an entity *)
            (by_name : list (string * feat))   (* feature_set.features_by_name *)
            (ord : list string -> list string) (* iteration order of a set of names *)
            (T : Z)                            (* time_last *)
            (tw : option window) (incl : bool).
  Notation rels := (es_rels es).
  Notation fname := (fname rels).
  Notation fnames := (fnames rels).

  (** L748-760 [_necessary_columns] *)
  Definition necessary_columns (eid : string) (names : list string) : res (list string) :=
    do fcols <- mapM (fun n => match dget String.eqb n by_name with
                               | Some (FIdent _ v _) => Ok [v]
                               | Some _ => Ok []
                               | None => Err KeyError
                               end) names;
    Ok (dedup_by String.eqb [] (idvars eid ++ List.concat fcols)).

  (** L343-389 [_add_ancestor_relationship_variables] *)
  Definition add_ancestor (child parent : df) (avs : list string) (r : relationship) : res (df * list string) :=
    let new := map (fun v => (parent_name rels r ++ "." ++ v)%string) avs in
    do _ <- mapM (check_col parent) (r_pv r :: avs);
    do _ <- check_col child (r_cv r);
    Ok (mkDf (cols child ++ new)
             (left_merge (rows child) (cell (r_cv r))
                (map (fun pr => (cell (r_pv r) pr, pr)) (rows parent)) (combine new avs)),
        new).

  (** calculation time passed to a primitive (L454-457, L503-506, L785-788) *)
  Definition calc_time (p : prim) : option Z := if p_time p then Some T else None.

  (** L425-432 *)
  Definition calc_identity (g : list feat) (d : df) : res df :=
    if forallb (fun f => mem_str (fname f) (cols d)) g then Ok d else Err AssertionError.

  (** values of a transform for the columns of [d] named by the base features (L448-465) *)
  Definition trans_values (p : prim) (names : list string) (bases : list string) (d : df)
    : res (list (string * list val)) :=
    do args <- mapM (column d) bases;
    let outs := p_trans p (calc_time p) args in
    if Nat.eqb (List.length outs) (List.length names) then Ok (combine names outs)     (* L810 *)
    else Err AssertionError.

  (** L434-470 *)
  Definition calc_transform (g : list feat) (d : df) : res df :=
    match rows d with
    | [] =>
      foldM (fun d f => match f with
             | FTrans p _ _ => Ok (fold_left (fun d n => assign_scalar d n (p_default p)) (fnames f) d)
             | _ => Err TypeError end) g d
    | _ =>
      do new <- mapM (fun f => match f with
                | FTrans p bs _ => trans_values p (fnames f) (map fname bs) d
                | _ => Err TypeError end) g;
      foldM (fun d nv => assign_col d (fst nv) (snd nv)) (List.concat new) d
    end.

  (** L521-522 [frame[name].update(...)] for the rows of one group, in order: null values do not
      overwrite (pandas Series.update) *)
  Fixpoint update_group (gb : string) (key : val) (name : string) (vs : list val) (rs : list row) : list row :=
    match rs with
    | [] => []
    | r :: rs' =>
      if val_eqb (cell gb r) key then
        match vs with
        | v :: vs' => (if is_null v then r else dset String.eqb name v r) :: update_group gb key name vs' rs'
        | [] => r :: update_group gb key name [] rs'
        end
      else r :: update_group gb key name vs rs'
    end.

  (** L486-522 for one feature [p] with output names [names]; [d0] is the frame being grouped *)
  Definition groupby_feature (gb : string) (p : prim) (names bases : list string) (d0 d : df) : res df :=
    foldM (fun d key =>
        let grp := filter_df (fun r => val_eqb (cell gb r) key) d0 in
        do args <- mapM (column grp) bases;
        let outs := p_trans p (calc_time p) args in
        if Nat.eqb (List.length outs) (List.length names) &&
           forallb (fun c => Nat.eqb (List.length c) (List.length (rows grp))) outs then
          Ok (mkDf (cols d) (fold_left (fun rs nv => update_group gb key (fst nv) (snd nv) rs) (combine names outs) (rows d)))
        else Err ValueError)
      (group_keys (cell gb) (rows d0)) d.

  (** L472-526 *)
  Definition calc_groupby (g : list feat) (d : df) : res df :=
    do d1 <- foldM (fun d f => match f with
             | FGroup p _ _ _ => Ok (fold_left (fun d n => assign_scalar d n (p_default p)) (fnames f) d)
             | _ => Err TypeError end) g d;
    match rows d1, g with
    | [], _ => Ok d1
    | _, FGroup _ _ gf _ :: _ =>
      let gb := fname gf in
      do _ <- check_col d1 gb;
      foldM (fun d f => match f with
             | FGroup p bs _ _ => groupby_feature gb p (fnames f) (map fname bs) d1 d
             | _ => Err TypeError end) g d1
    | _, _ => Err TypeError
    end.

  (** L539-553: the column map of a merge, and the defaults to fill in *)
  Definition direct_col_map (child : df) (r : relationship) (g : list feat) : list (string * string) :=
    fold_left (fun m f => match f with
      | FDirect _ b _ =>
        fold_left (fun m nb => if mem_str (fst nb) (cols child) then m else dset String.eqb (snd nb) (fst nb) m)
          (combine (fnames f) (fnames b)) m
      | _ => m end) g [(r_pv r, r_cv r)].

  Definition direct_fills (g : list feat) : list (string * val) :=
    flat_map (fun f => if is_null (fdefault f) then [] else map (fun n => (n, fdefault f)) (fnames f)) g.

  (** L547-548 [index_as_feature]: the last feature of the group that copies the parent's index *)
  Definition index_as_feature (r : relationship) (g : list feat) : option feat :=
    fold_left (fun o f => match f with
      | FDirect _ b _ => if String.eqb (fname b) (r_pv r) then Some f else o
      | _ => o end) g None.

  (** L528-573; [look] is df_trie.get_node(...).value *)
  Definition calc_direct (look : list edge -> res df) (g : list feat) (child : df) : res df :=
    match g with
    | FDirect r _ _ :: _ =>
      do parent <- look [(true, r)];
      let m := direct_col_map child r g in
      do _ <- mapM (check_col parent) (map fst m);
      do _ <- match index_as_feature r g with
              | Some f => if mem_str (fname f) (map snd m) then Ok tt else Err KeyError   (* L562 *)
              | None => Ok tt
              end;
      do _ <- check_col child (r_cv r);
      let new := map (fun bn => (snd bn, fst bn)) (filter (fun bn => negb (String.eqb (snd bn) (r_cv r))) m) in
      Ok (fillna (direct_fills g)
            (mkDf (cols child ++ map fst new)
               (left_merge (rows child) (cell (r_cv r)) (map (fun pr => (cell (r_pv r) pr, pr)) (rows parent)) new)))
    | _ => Err TypeError
    end.

  (** utils/gen_utils.py L24-31 [get_relationship_variable_id] *)
  Definition relationship_variable_id (path : list relationship) : string :=
    match path with
    | [] => ""%string
    | r :: rest => fold_left (fun link r => (r_pe r ++ "." ++ link)%string) rest (r_cv r)
    end.

  (** L763-773 [_can_agg] *)
  Definition can_agg (f : feat) : bool :=
    match f with
    | FAgg p bs _ _ wh _ _ =>
      let left := match wh with
                  | Some w => filter (fun b => negb (String.eqb (fname b) (fname w))) bs
                  | None => bs end in
      negb (p_time p) && Nat.eqb (List.length left) 1 && Nat.eqb (p_nout p) 1
    | _ => false
    end.

  (** L627-630 [df.iloc[-n:]] *)
  Definition last_n {A} (n : Z) (l : list A) : list A :=
    if Z.leb n 0 then skipn (Z.to_nat (- n)) l else skipn (List.length l - Z.to_nat n) l.

  (** boolean indexing [base_frame.loc[base_frame[c]]] (L598): a cell that is not a boolean raises *)
  Definition bool_filter (c : string) (d : df) : res df :=
    do _ <- check_col d c;
    if forallb (fun r => match cell c r with VBool _ => true | _ => false end) (rows d)
    then Ok (filter_df (fun r => match cell c r with VBool b => b | _ => false end) d)
    else Err ValueError.

  (** L613-630: the rows used by a feature with use_previous.  [ti] is the child entity's time index. *)
  Definition prev_filter (prev : option tdelta) (ti : option string) (gb : string) (d : df) : res df :=
    match prev with
    | None => Ok d
    | Some p =>
      if td_no_obs p then
        match ti with
        | None => Ok d
        | Some ti => do _ <- check_col d ti; Ok (filter_df (fun r => v_ge (cell ti r) (td_sub p T)) d)
        end
      else
        do n <- td_obs p;
        do _ <- check_col d gb;
        Ok (mkDf (cols d) (flat_map (fun k => last_n n (filter (fun r => val_eqb (cell gb r) k) (rows d)))
                             (group_keys (cell gb) (rows d))))
    end.

  (** the output values of feature [f] on the rows of one group: L632-678 with pandas' agg (a single
      column), L776-797 (all base columns); a wrong number of outputs raises (L810) *)
  Definition agg_values (f : feat) (grp : df) : res (list val) :=
    match f with
    | FAgg p bs _ _ _ _ _ =>
      do args <- mapM (column grp) (if can_agg f then firstn 1 (map fname bs) else map fname bs);
      let vs := p_agg p (calc_time p) args in
      if Nat.eqb (List.length vs) (List.length (fnames f)) then Ok vs else Err AssertionError
    | _ => Err TypeError
    end.

  (** two features that both use pd.Series.count on one column: pandas rejects a repeated function
      name (L653-675); the second would overwrite the first in agg_rename anyway *)
  Fixpoint count_twice (fs : list feat) (seen : list string) : bool :=
    match fs with
    | [] => false
    | f :: fs' =>
      match f with
      | FAgg p bs _ _ _ _ _ =>
        if can_agg f && p_count p then
          let v := match bs with b :: _ => fname b | [] => ""%string end in
          mem_str v seen || count_twice fs' (v :: seen)
        else count_twice fs' seen
      | _ => count_twice fs' seen
      end
    end.

  (** L575-746; [idx] is the index column of the frame.  The features applied with apply(wrap) and those
      applied with agg are merged one after the other; both merges are on the index.  When no group is
      left, apply gives a frame without columns (so those features get none) while agg keeps its columns.
      If one of several output names is already a column, pandas renames both (suffixes _x, _y) and the
      output column is lost: rendered as KeyError. *)
  Definition calc_agg (look : list edge -> res df) (idx : string) (g : list feat) (d : df) : res df :=
    match g with
    | FAgg _ bs path _ wh prev _ :: _ =>
      do base <- look (map (fun r => (false, r)) path);
      let fs := filter (fun f => existsb (fun n => negb (mem_str n (cols d))) (fnames f)) g in
      match fs with
      | [] => Ok d
      | _ =>
        let names := flat_map fnames fs in
        do _ <- (if existsb (fun n => mem_str n (cols d)) names then Err KeyError else Ok tt);
        do base <- match wh, rows base with
                   | Some w, _ :: _ => bool_filter (fname w) base
                   | _, _ => Ok base
                   end;
        let fills := flat_map (fun f => map (fun n => (n, fdefault f)) (fnames f)) fs in
        match rows base with
        | [] => Ok (fillna fills (fold_left (fun d n => assign_scalar d n VNull) names d))     (* L602-607 *)
        | _ =>
          let gb := relationship_variable_id path in
          do child_ti <- match bs with
                         | b :: _ => do ce <- es_get es (fentity b); Ok (e_time ce)
                         | [] => Err IndexError
                         end;
          do base <- prev_filter prev child_ti gb base;
          do _ <- check_col base gb;
          do _ <- (if count_twice fs [] then Err ValueError else Ok tt);
          let keys := group_keys (cell gb) (rows base) in
          let fs' := match keys with [] => filter can_agg fs | _ => fs end in
          do vals <- mapM (fun k =>
              do vs <- mapM (fun f => agg_values f (filter_df (fun r => val_eqb (cell gb r) k) base)) fs';
              Ok (k, combine (flat_map fnames fs') (List.concat vs))) keys;
          Ok (fillna fills
                (mkDf (cols d ++ flat_map fnames fs')
                   (left_merge (rows d) (cell idx) vals (map (fun n => (n, n)) (flat_map fnames fs')))))
        end
      end
    | _ => Err TypeError
    end.

  (** L411-423 [_feature_type_handler] *)
  Definition calc_group (look : list edge -> res df) (idx : string) (g : list feat) (d : df) : res df :=
    match g with
    | FTrans _ _ _ :: _ => calc_transform g d
    | FGroup _ _ _ _ :: _ => calc_groupby g d
    | FDirect _ _ _ :: _ => calc_direct look g d
    | FAgg _ _ _ _ _ _ _ :: _ => calc_agg look idx g d
    | FIdent _ _ _ :: _ => calc_identity g d
    | _ => Err TypeError
    end.

  (** L330-341 [_calculate_features] *)
  Definition calc_features (look : list edge -> res df) (idx : string) (names : list string) (d : df) : res df :=
    do groups <- group_features rels by_name (ord names);
    foldM (fun d g => calc_group look idx g d) groups d.

  (** the two parallel tries of frames: (full_entity_df_trie, df_trie) *)
  Definition dtrie : Type := trie edge (option df * option df).

  (** [df_trie.get_node(path).value]; a node that was never calculated holds None *)
  Definition lookup (full : bool) (t : dtrie) (p : list edge) : res df :=
    let '(a, b) := tvalue (get_node edge_eqb (None, None) p t) in
    match (if full then a else b) with Some d => Ok d | None => Err AttributeError end.

  (** L301-305: left merge of the precalculated features on the index *)
  Definition merge_precalculated (idx : string) (pre : option df) (d : df) : df :=
    match pre with
    | None => d
    | Some p =>
      let new := map (fun c => (if mem_str c (cols d) then (c ++ "_precalculated")%string else c, c)) (cols p) in
      mkDf (cols d ++ map fst new)
           (left_merge (rows d) (cell idx) (map (fun pr => (cell idx pr, pr)) (rows p)) new)
    end.

  (** L161-328 [_calculate_features_for_entity] *)
  Fixpoint calc_node (ft : ftrie) (eid : string) (pre : trie edge (option df)) (fvar : string)
      (fvals : list val) (parent : option (relationship * list string * df)) {struct ft} : res dtrie :=
    match ft with
    | TNode (full, ff, nf) ch =>
      do e <- es_get es eid;
      do columns <- necessary_columns eid (ff ++ nf);
      do d0 <- query_by_values es eid (if full then None else Some fvals) (if full then None else Some fvar)
                 (Some columns) (Some T) tw incl;
      do (d1, anc) <-
        match parent with
        | None => Ok (d0, [])
        | Some (r, avs, pdf) =>
          do (d, new) <- match avs with [] => Ok (d0, []) | _ => add_ancestor d0 pdf avs r end;
          Ok (d, new ++ [r_cv r])
        end;
      do fd <- (if full then isin_filter d1 fvar fvals else Ok d1);                     (* L253-259 *)
      do subs <- (fix go (ch : list (edge * ftrie)) : res (list (edge * dtrie)) :=
         match ch with
         | [] => Ok []
         | (ed, s) :: ch' =>
           do sub <- (if fst ed
                      then do vs <- column fd (r_cv (snd ed));
                           calc_node s (r_pe (snd ed)) (get_node edge_eqb None [ed] pre) (r_pv (snd ed)) vs None
                      else do vs <- column fd (r_pv (snd ed));
                           calc_node s (r_ce (snd ed)) (get_node edge_eqb None [ed] pre) (r_cv (snd ed)) vs
                             (Some (snd ed, anc, d1)));
           do rest <- go ch';
           Ok ((ed, sub) :: rest)
         end) ch;
      let tr := TNode (None, None) subs in
      let d2 := merge_precalculated (e_index e) (tvalue pre) d1 in
      do d3 <- (if full then calc_features (lookup true tr) (e_index e) ff d2 else Ok d2);
      do d4 <- (if full then isin_filter d3 fvar fvals else Ok d3);
      do d5 <- calc_features (lookup false tr) (e_index e) nf d4;
      Ok (TNode (if full then Some d3 else None, Some d5) subs)
    end.
End Calc.

(** A calculated feature matrix: column names, and a row of values per instance. *)
Record matrix : Type := mkMatrix { m_cols : list string; m_rows : list (val * list val) }.

(** L391-409 [generate_default_df]; the row of a missing instance *)
Definition default_row (rels : list relationship) (fs : list feat) : row :=
  flat_map (fun f => map (fun n => (n, fdefault f)) (fnames rels f)) fs.

(** L68-159 [run] *)
Definition run (es : entityset) (idvars : string -> list string) (ord : list string -> list string)
    (fs : list feat) (appr : atrie) (pre : trie edge (option df)) (T : Z) (tw : option window) (incl : bool)
    (ids : list val) : res matrix :=
  let rels := es_rels es in
  match fs, ids with
  | [], _ => Err IndexError                                                        (* feature_set.py L33 *)
  | _, [] => Err AssertionError                                                    (* L99 *)
  | f0 :: _, _ =>
    let by_name := features_by_name rels fs in
    let ft := build_feature_trie rels fs appr in
    do e <- es_get es (fentity f0);
    do tr <- calc_node es idvars by_name ord T tw incl ft (fentity f0) pre (e_index e) ids None;
    match snd (tvalue tr) with
    | None => Err AttributeError
    | Some d =>
      let names := flat_map (fnames rels) fs in
      let dflt := default_row rels fs in
      let out r := map (fun n => cell n r) names in
      match rows d with
      | [] => Ok (mkMatrix names (map (fun i => (i, out dflt)) ids))                (* L129-130 *)
      | _ =>
        let have := map (cell (e_index e)) (rows d) in
        let missing := filter (fun i => negb (mem_val i have)) ids in               (* L132-133 *)
        let labelled := map (fun i => (i, dflt)) missing ++ map (fun r => (cell (e_index e) r, r)) (rows d) in
        (* L145 reindex: the labels must be distinct *)
        if Nat.eqb (List.length (dedup_by val_eqb [] (map fst labelled))) (List.length labelled) then
          do _ <- mapM (fun n => if mem_str n (cols d) || (negb (Nat.eqb (List.length missing) 0) && mem_str n names)
                                 then Ok tt else Err KeyError) names;
          Ok (mkMatrix names
                (map (fun i => (i, match dget val_eqb i labelled with Some r => out r | None => map (fun _ => VNull) names end))
                     (dedup_by val_eqb [] ids)))
        else Err ValueError
      end
    end
  end.
