(** Models computational_backends/feature_set.py. *)
From Verif Require Import Base M_Schema M_Trie M_Feature.

(** feature_set.py L89: (needs full entity, full-entity features, other features), as unique names.
    Python sets are kept as duplicate-free lists; iteration order is a parameter of [group_features]. *)
Definition fnode : Type := (bool * list string * list string)%type.
Definition fnode0 : fnode := (false, [], []).
Definition ftrie : Type := trie edge fnode.
Definition atrie : Type := trie edge (list string).

(** set.add / set.remove *)
Definition set_add (s : string) (l : list string) : list string := if mem_str s l then l else l ++ [s].
Definition set_remove (s : string) (l : list string) : list string := filter (fun x => negb (String.eqb s x)) l.

Section FeatureSet.
  Variable rels : list relationship.

  (** L46-56 [features_by_name]: the target features, then (overwriting) every deep dependency *)
  Definition features_by_name (fs : list feat) : list (string * feat) :=
    let init := fold_left (fun d f => dset String.eqb (funique rels f) f d) fs [] in
    fold_left (fun d f =>
      fold_left (fun d dep => dset String.eqb (funique rels dep) dep d) (deep_deps rels [] f) d) fs init.

  (** L48-61 [feature_dependents]: for each name, the names of the features that rely on it *)
  Definition feature_dependents (fs : list feat) : list (string * list string) :=
    let add k v (d : list (string * list string)) :=
      dset String.eqb k (set_add v (match dget String.eqb k d with Some l => l | None => [] end)) d in
    fold_left (fun d f =>
      fold_left (fun d dep =>
        fold_left (fun d sd => add (funique rels sd) (funique rels dep) d) (deep_deps rels [] dep)
          (add (funique rels dep) (funique rels f) d))
        (deep_deps rels [] f) d) fs [].

  (** L192-195 [uses_full_entity] with check_dependents=False *)
  Definition uses_full (f : feat) : bool :=
    match f with
    | FTrans p _ _ => p_full p
    | FGroup p _ _ _ => p_full p
    | _ => false
    end.

  (** L125-128: every node on the path gets needs_full_entity (the last one is the node reached) *)
  Fixpoint mark_full (p : list edge) (t : ftrie) : ftrie :=
    match p with
    | [] => t
    | e :: p' =>
      match t with TNode v ch =>
        TNode v (upd_child edge_eqb fnode0 e
          (fun s => match s with TNode (_, f1, f2) ch' => mark_full p' (TNode (true, f1, f2) ch') end) ch)
      end
    end.

  (** L99-141 [_add_feature_to_trie]; [anc] is ancestor_needs_full_entity.  L138-139: a dependency that
      is a slice is replaced by the feature it slices. *)
  Fixpoint add_feature (f : feat) (t : ftrie) (appr : atrie) (anc : bool) : ftrie :=
    let '(node_full, ff, nf) := tvalue t in
    let needs_full := anc || uses_full f in
    let name := funique rels f in
    if mem_str name (tvalue appr) then t                                             (* L111-112 *)
    else
      let t1 :=
        if needs_full then
          mark_full (fpath f) (TNode (true, set_add name ff, set_remove name nf) (children t))
        else TNode (node_full, ff, if mem_str name ff then nf else set_add name nf) (children t) in
      let sub_appr := get_node edge_eqb [] (fpath f) appr in
      let add_dep d s :=
        match d with
        | FSlice b _ _ => add_feature b s sub_appr needs_full
        | _ => add_feature d s sub_appr needs_full
        end in
      update_at edge_eqb fnode0 (fpath f)
        (fun s =>
           match f with
           | FIdent _ _ _ => s
           | FDirect _ b _ => add_dep b s
           | FAgg _ bs _ _ wh _ _ =>
             let s := fold_left (fun s d => match d with
                        | FSlice b _ _ => add_feature b s sub_appr needs_full
                        | _ => add_feature d s sub_appr needs_full end) bs s in
             match wh with Some w => add_dep w s | None => s end
           | FTrans _ bs _ =>
             fold_left (fun s d => match d with
                        | FSlice b _ _ => add_feature b s sub_appr needs_full
                        | _ => add_feature d s sub_appr needs_full end) bs s
           | FGroup _ bs g _ =>
             let s := fold_left (fun s d => match d with
                        | FSlice b _ _ => add_feature b s sub_appr needs_full
                        | _ => add_feature d s sub_appr needs_full end) bs s in
             add_dep g s
           | FSlice b _ _ => add_dep b s
           end) t1.

  (** L85-97 [_build_feature_trie] *)
  Definition build_feature_trie (fs : list feat) (appr : atrie) : ftrie :=
    fold_left (fun t f => add_feature f t appr false) fs (TNode fnode0 []).

  (** L168-190 [_get_feature_depths]: [order] is a defaultdict(int), [queue] a FIFO list.  Each element
      of the queue is a node of the definition tree of some feature, so the loop ends; [fuel] bounds it
      (see [depths_fuel]). *)
  Definition order_of (order : list (string * Z)) (n : string) : Z :=
    match dget String.eqb n order with Some z => z | None => 0%Z end.

  Definition push_dep (fo : Z) (st : list (string * Z)) (d : feat) : list (string * Z) :=
    dset String.eqb (funique rels d) (Z.min (fo - 1) (order_of st (funique rels d))) st.

  (* L183-188: within one pop, order[f] is read again for each dependency; a feature is not its own
     dependency, but two features may share a unique name, so the re-read is kept *)
  Fixpoint push_deps (n : string) (ds : list feat) (order : list (string * Z)) : list (string * Z) :=
    match ds with
    | [] => order
    | d :: ds' => push_deps n ds' (push_dep (order_of order n) order d)
    end.

  Fixpoint depths_loop (fuel : nat) (queue : list feat) (order depths : list (string * Z))
    : res (list (string * Z)) :=
    match queue with
    | [] => Ok depths
    | f :: queue' =>
      match fuel with
      | 0 => Err OutOfFuel
      | S fuel' =>
        let n := funique rels f in
        let depths := dset String.eqb n (order_of order n) depths in                  (* L180 *)
        match fpath f with
        | [] => depths_loop fuel' (queue' ++ fdeps f) (push_deps n (fdeps f) order) depths
        | _ => depths_loop fuel' queue' order depths                                  (* L183 *)
        end
      end
    end.

  Definition depths_fuel (fs : list feat) : nat := list_sum (map fsize fs).
  Definition feature_depths (fs : list feat) : res (list (string * Z)) :=
    depths_loop (depths_fuel fs) fs [] [].

  (** L151-158 [key_func] and L206-229 *)
  Record gkey : Type := mkKey {
    k_depth : Z; k_path : string; k_class : string; k_unit : string; k_value : Z;
    k_where : string; k_full : bool; k_groupby : string }.

  (** L206-215 [_get_use_previous]: two or more units give the same key as no use_previous *)
  Definition prev_key (f : feat) : string * Z :=
    match fprev f with
    | Some d => match td_times d with
                | [(u, v)] => (u, v)
                | _ => (""%string, (-1)%Z)
                end
    | None => (""%string, (-1)%Z)
    end.

  Definition key_of (depths : list (string * Z)) (f : feat) : gkey :=
    mkKey (order_of depths (funique rels f)) (fpath_name rels f) (fclass f)
          (fst (prev_key f)) (snd (prev_key f))
          (match fwhere f with Some w => funique rels w | None => ""%string end)
          (uses_full f)
          (match fgroupby f with Some g => funique rels g | None => ""%string end).

  (** lexicographic comparison of tuples; False < True *)
  Definition lex (c1 c2 : comparison) : comparison := match c1 with Eq => c2 | _ => c1 end.
  Definition bool_cmp (a b : bool) : comparison :=
    match a, b with false, true => Lt | true, false => Gt | _, _ => Eq end.
  Definition key_cmp (a b : gkey) : comparison :=
    lex (Z.compare (k_depth a) (k_depth b))
    (lex (String.compare (k_path a) (k_path b))
    (lex (String.compare (k_class a) (k_class b))
    (lex (String.compare (k_unit a) (k_unit b))
    (lex (Z.compare (k_value a) (k_value b))
    (lex (String.compare (k_where a) (k_where b))
    (lex (bool_cmp (k_full a) (k_full b))
         (String.compare (k_groupby a) (k_groupby b)))))))).
  Definition key_leb (a b : gkey) : bool := match key_cmp a b with Gt => false | _ => true end.
  Definition key_eqb (a b : gkey) : bool := match key_cmp a b with Eq => true | _ => false end.

  (** itertools.groupby: consecutive elements with equal keys *)
  Fixpoint group_by_key {A} (key : A -> gkey) (l : list A) : list (list A) :=
    match l with
    | [] => []
    | a :: l' =>
      match group_by_key key l' with
      | (b :: g) :: gs => if key_eqb (key a) (key b) then (a :: b :: g) :: gs else [a] :: (b :: g) :: gs
      | gs => [a] :: gs
      end
    end.

  (** L143-166 [group_features]; [names] is the set in its iteration order *)
  Definition group_features (by_name : list (string * feat)) (names : list string) : res (list (list feat)) :=
    do fs <- mapM (fun n => match dget String.eqb n by_name with Some f => Ok f | None => Err KeyError end) names;
    do depths <- feature_depths fs;
    let key := key_of depths in
    Ok (group_by_key key (isort (fun a b => key_leb (key a) (key b)) fs)).
End FeatureSet.
