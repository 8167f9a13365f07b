(** Feature definitions: models feature_base/feature_base.py (names, dependencies, depth) and the
    parts of primitives/base/*.py that features rely on. *)
From Coq Require Import DecimalString.
From Verif Require Import Base M_Schema.

Definition string_of_nat (n : nat) : string := NilEmpty.string_of_uint (Nat.to_uint n).

(** entityset/timedelta.py: the part of a Timedelta used by features: its unit/value pairs
    ([times], L55-65) and the function [fun t => t - delta] ([__rsub__], L195-207). *)
Record tdelta : Type := mkTd { td_times : list (string * Z); td_sub : Z -> Z; td_name : string }.

(** timedelta.py L167-171 [has_no_observations] *)
Definition td_no_obs (d : tdelta) : bool := negb (existsb (fun uv => String.eqb (fst uv) "o") (td_times d)).
(** timedelta.py L150-160 [get_value("o")] *)
Definition td_obs (d : tdelta) : res Z :=
  match dget String.eqb "o"%string (td_times d) with Some v => Ok v | None => Err KeyError end.

(** A primitive instance: primitives/base/primitive_base.py L12-43 and the two subclasses.
    Its function is a field, so every statement about features quantifies over all functions.
    [p_trans] and [p_agg] take the calculation time ([None] unless [p_time]) and the input columns;
    [p_trans] returns its output columns, [p_agg] its output values, one per output feature. *)
Record prim : Type := mkPrim {
  p_name : string;                                   (* class name *)
  p_nout : nat;                                      (* number_output_features *)
  p_full : bool;                                     (* uses_full_entity *)
  p_time : bool;                                     (* uses_calc_time *)
  p_default : val;                                   (* default_value *)
  p_count : bool;                                    (* the function is pd.Series.count *)
  p_gen : list string -> string;                     (* TransformPrimitive.generate_name *)
  p_gen_agg : list string -> string -> string -> string -> string -> string;
                                                     (* AggregationPrimitive.generate_name *)
  p_trans : option Z -> list (list val) -> list (list val);
  p_agg : option Z -> list (list val) -> list val
}.

(** feature_base.py L342-820: the six feature classes.  [nm] is the name passed to the constructor
    ([None] when the name is generated).  [FAgg]: [path] holds the relationships of the (backward)
    relationship path, [uniq] is [_path_is_unique] (L504-505).  [FGroup]: [bs] are the base features
    without the groupby feature appended at L691-694. *)
Inductive feat : Type :=
| FIdent (e v : string) (nm : option string)
| FDirect (r : relationship) (b : feat) (nm : option string)
| FAgg (p : prim) (bs : list feat) (path : list relationship) (uniq : bool) (wh : option feat)
       (prev : option tdelta) (nm : option string)
| FTrans (p : prim) (bs : list feat) (nm : option string)
| FGroup (p : prim) (bs : list feat) (g : feat) (nm : option string)
| FSlice (b : feat) (n : nat) (nm : option string).

(** feature_base.py L683-698 [GroupByTransformFeature(base_features, primitive, groupby)] given a list: the caller's list
    after the call (L692 appends to it) and the feature, whose own list is a copy (L650-651) *)
Definition make_groupby (p : prim) (bs : list feat) (g : feat) (nm : option string) : list feat * feat := (bs ++ [g], FGroup p bs g nm).

(** [base_features] *)
Definition fbases (f : feat) : list feat :=
  match f with
  | FIdent _ _ _ => []
  | FDirect _ b _ => [b]
  | FAgg _ bs _ _ _ _ _ => bs
  | FTrans _ bs _ => bs
  | FGroup _ bs g _ => bs ++ [g]
  | FSlice b _ _ => [b]
  end.

(** [where] (L484, L509-513) *)
Definition fwhere (f : feat) : option feat := match f with FAgg _ _ _ _ w _ _ => w | _ => None end.
(** [use_previous] (L487) *)
Definition fprev (f : feat) : option tdelta := match f with FAgg _ _ _ _ _ d _ => d | _ => None end.
(** [groupby] (L689) *)
Definition fgroupby (f : feat) : option feat := match f with FGroup _ _ g _ => Some g | _ => None end.

(** L99-126 [get_dependencies()] with deep=False and nothing ignored *)
Definition fdeps (f : feat) : list feat :=
  fbases f ++ match fwhere f with Some w => [w] | None => [] end.

(** [entity_id]: L41; L349 (identity), L397 (child entity), L527 (parent entity: the first
    relationship of the path starts there, L540), L655 (entity of the first base), L788 (slice) *)
Fixpoint fentity (f : feat) : string :=
  match f with
  | FIdent e _ _ => e
  | FDirect r _ _ => r_ce r
  | FAgg _ _ path _ _ _ _ => match path with r :: _ => r_pe r | [] => ""%string end
  | FTrans _ bs _ => match bs with b :: _ => fentity b | [] => ""%string end
  | FGroup _ bs g _ => match bs with b :: _ => fentity b | [] => fentity g end
  | FSlice b _ _ => fentity b
  end.

(** [relationship_path]: L351, L399, L563, L657, L792 (a slice has the path of its base) *)
Fixpoint fpath (f : feat) : list edge :=
  match f with
  | FIdent _ _ _ => []
  | FDirect r _ _ => [(true, r)]
  | FAgg _ _ path _ _ _ _ => map (fun r => (false, r)) path
  | FTrans _ _ _ => []
  | FGroup _ _ _ _ => []
  | FSlice b _ _ => fpath b
  end.

(** [number_output_features]: L164, L444 (direct), L801 (slice) *)
Fixpoint fnout (f : feat) : nat :=
  match f with
  | FIdent _ _ _ => 1
  | FDirect _ b _ => fnout b
  | FAgg p _ _ _ _ _ _ => p_nout p
  | FTrans p _ _ => p_nout p
  | FGroup p _ _ _ => p_nout p
  | FSlice _ _ _ => 1
  end.

(** [default_value]: L205, L448 (direct); PrimitiveBase.default_value is nan; a slice takes the
    primitive of its base (L790), which is PrimitiveBase for a direct feature *)
Fixpoint fdefault (f : feat) : val :=
  match f with
  | FIdent _ _ _ => VNull
  | FDirect _ b _ => fdefault b
  | FAgg p _ _ _ _ _ _ => p_default p
  | FTrans p _ _ => p_default p
  | FGroup p _ _ _ => p_default p
  | FSlice b _ _ => match b with FDirect _ _ _ => VNull | _ => fdefault b end
  end.

(** the class of a feature, as in [str(f.__class__)] (the common module prefix is dropped: it does
    not change the order) *)
Definition fclass (f : feat) : string :=
  match f with
  | FIdent _ _ _ => "IdentityFeature"
  | FDirect _ _ _ => "DirectFeature"
  | FAgg _ _ _ _ _ _ _ => "AggregationFeature"
  | FTrans _ _ _ => "TransformFeature"
  | FGroup _ _ _ _ => "GroupByTransformFeature"
  | FSlice _ _ _ => "FeatureOutputSlice"
  end%string.

Definition index_suffix (s : string) (i : nat) : string := (s ++ "[" ++ string_of_nat i ++ "]")%string.

(** L81-84: a given name wins unless it is empty *)
Definition or_given (nm : option string) (gen : string) : string :=
  match nm with Some (String a s) => String a s | _ => gen end.

Section Names.
  (** relationships of the entity set the feature belongs to *)
  Variable rels : list relationship.

  (** relationship.py L79-93, 103-112 ([parent_name], [child_name]) as total functions: the assertion
      that the relationship belongs to the entity set is not modelled here (see [rel_parent_name]) *)
  Definition rel_uniqueb (r : relationship) : bool :=
    Nat.eqb (List.length (filter (fun r' => String.eqb (r_pe r') (r_pe r)) (get_forward_relationships rels (r_ce r)))) 1.
  Definition parent_name (r : relationship) : string :=
    if rel_uniqueb r then r_pe r else bracket (r_pe r) (r_cv r).
  Definition child_name (r : relationship) : string :=
    if rel_uniqueb r then r_ce r else bracket (r_ce r) (r_cv r).
  (** relationship.py L119-124 [RelationshipPath.name], L171-175 *)
  Definition edges_name (p : list edge) : string :=
    String.concat "." (map (fun e : edge => if fst e then parent_name (snd e) else child_name (snd e)) p).

  (** L338 [relationship_path_name], L633-637 (aggregation); for a slice, L338 on the path of its base *)
  Definition fpath_name (f : feat) : string :=
    match f with
    | FAgg _ bs _ uniq _ _ _ =>
      if uniq then match bs with b :: _ => fentity b | [] => ""%string end else edges_name (fpath f)
    | _ => edges_name (fpath f)
    end.

  (** L602-607 *)
  Definition prev_str (d : option tdelta) : string :=
    match d with Some d => (", Last " ++ td_name d)%string | None => ""%string end.

  (** L81-94: [get_name] and [get_feature_names], for every class ([generate_name] and
      [generate_names]: L366, L461-466, L609-621, L670-674, L714-725, L797).  Returns (name, names). *)
  Fixpoint fnaming (f : feat) : string * list string :=
    let multi (n : nat) (name gen : string) (gens : list string) : list string :=   (* L86-94 *)
      if Nat.eqb n 1 then [name]
      else if String.eqb name gen then gens
      else map (index_suffix name) (seq 0 (List.length gens)) in
    match f with
    | FIdent _ v nm => let n := or_given nm v in (n, [n])
    | FDirect r b nm =>
      let pre s := (edges_name [(true, r)] ++ "." ++ s)%string in
      let gen := pre (fst (fnaming b)) in
      let n := or_given nm gen in
      (n, multi (fnout b) n gen (map pre (snd (fnaming b))))
    | FAgg p bs path uniq wh prev nm =>
      let gen := p_gen_agg p (map (fun b => fst (fnaming b)) bs)
                   (fpath_name f) (fentity f)
                   (match wh with Some w => (" WHERE " ++ fst (fnaming w))%string | None => ""%string end)
                   (prev_str prev) in
      let n := or_given nm gen in
      (n, multi (p_nout p) n gen (map (index_suffix gen) (seq 0 (p_nout p))))
    | FTrans p bs nm =>
      let gen := p_gen p (map (fun b => fst (fnaming b)) bs) in
      let n := or_given nm gen in
      (n, multi (p_nout p) n gen (map (index_suffix gen) (seq 0 (p_nout p))))
    | FGroup p bs g nm =>
      let by_g s := (s ++ " by " ++ fst (fnaming g))%string in
      let pg := p_gen p (map (fun b => fst (fnaming b)) bs) in
      let gen := by_g pg in
      let n := or_given nm gen in
      (n, multi (p_nout p) n gen (map (fun i => by_g (index_suffix pg i)) (seq 0 (p_nout p))))
    | FSlice b n nm =>
      let nme := or_given nm (nth n (snd (fnaming b)) ""%string) in (nme, [nme])
    end.

  (** L81 [get_name] *)
  Definition fname (f : feat) : string := fst (fnaming f).
  (** L86 [get_feature_names] *)
  Definition fnames (f : feat) : list string := snd (fnaming f).
  (** L335 [unique_name] *)
  Definition funique (f : feat) : string := (fentity f ++ ": " ++ fname f)%string.

  (** L99-126 [get_dependencies(deep=True, ignored)] *)
  Fixpoint deep_deps (ign : list string) (f : feat) : list feat :=
    let sub d := if mem_str (funique d) ign then [] else deep_deps ign d in
    let keep l := filter (fun d => negb (mem_str (funique d) ign)) l in
    match f with
    | FIdent _ _ _ => []
    | FDirect _ b _ => keep [b] ++ sub b
    | FAgg _ bs _ _ wh _ _ =>
      keep (bs ++ match wh with Some w => [w] | None => [] end) ++
      flat_map (fun d => if mem_str (funique d) ign then [] else deep_deps ign d) bs ++
      match wh with Some w => sub w | None => [] end
    | FTrans _ bs _ =>
      keep bs ++ flat_map (fun d => if mem_str (funique d) ign then [] else deep_deps ign d) bs
    | FGroup _ bs g _ =>
      keep (bs ++ [g]) ++
      flat_map (fun d => if mem_str (funique d) ign then [] else deep_deps ign d) bs ++ sub g
    | FSlice b _ _ => keep [b] ++ sub b
    end.

  (** L128-139 [get_depth(stop_at)] and L369 (identity).  [stop] holds the unique names of [stop_at]
      ([None] when not given, L131-135).  The recursion goes through [get_dependencies(deep=True)];
      [fuel] bounds it (it is at most the size of the feature), running out is an error. *)
  Fixpoint depth_fuel (fuel : nat) (stop : option (list string)) (f : feat) : res nat :=
    match f with
    | FIdent _ _ _ => Ok 0
    | _ =>
      match fuel with
      | 0 => Err OutOfFuel
      | S fuel' =>
        let ign := match stop with Some s => s | None => [] end in
        if mem_str (funique f) ign then Ok 0
        else do ds <- mapM (depth_fuel fuel' stop) (deep_deps ign f);
             Ok (S (fold_left Nat.max ds 0))
      end
    end.
End Names.

(** number of nodes of a feature definition (not part of the code; a bound on recursion depth) *)
Fixpoint fsize (f : feat) : nat :=
  match f with
  | FIdent _ _ _ => 1
  | FDirect _ b _ => S (fsize b)
  | FAgg _ bs _ _ wh _ _ =>
    S (list_sum (map fsize bs) + match wh with Some w => fsize w | None => 0 end)
  | FTrans _ bs _ => S (list_sum (map fsize bs))
  | FGroup _ bs g _ => S (list_sum (map fsize bs) + fsize g)
  | FSlice b _ _ => S (fsize b)
  end.

Definition get_depth (rels : list relationship) (stop : option (list string)) (f : feat) : res nat :=
  depth_fuel rels (fsize f) stop f.
