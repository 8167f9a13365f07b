(** Saving and loading features: models feature_base/features_serializer.py, feature_base/features_deserializer.py, the
    constructors, [get_arguments] and [from_dictionary] of feature_base/feature_base.py, and primitives/utils.py L178-229.
    JSON itself is not modelled: dictionaries go over as they are.  The entity set description is C54. *)
From Verif Require Import Base M_Schema M_Feature M_Types.
Local Open Scope string_scope.
Local Open Scope list_scope.

(** ** Primitive classes, primitives/utils.py L189-229 *)
(** a class: its name, its module and an identity *)
Record cls : Type := mkCls { c_name : string; c_module : string; c_id : nat }.
(** a class with its direct subclasses ([__subclasses__]) *)
Inductive ctree : Type := CNode (c : cls) (subs : list ctree).
(** gen_utils.py L34-45 [find_descendents]: what the generator yields, in order *)
Fixpoint find_descendents (t : ctree) : list cls := match t with CNode c subs => c :: flat_map find_descendents subs end.

Definition ckey : Type := string * string.
Definition ckey_eqb (a b : ckey) : bool := String.eqb (fst a) (fst b) && String.eqb (snd a) (snd b).
Definition key_of (c : cls) : ckey := (c_name c, c_module c).

(** L198-200: the cache and what the generator has left *)
Record pstate : Type := mkPs { ps_cache : list (ckey * cls); ps_rest : list cls }.
Definition ps_new (t : ctree) : pstate := mkPs [] (find_descendents t).
(** L222-229 [_find_class_in_descendants] *)
Fixpoint find_class (key : ckey) (cache : list (ckey * cls)) (rest : list cls) : pstate * option cls :=
  match rest with
  | [] => (mkPs cache [], None)
  | c :: rest => let cache := dset ckey_eqb (key_of c) c cache in
                 if ckey_eqb (key_of c) key then (mkPs cache rest, Some c) else find_class key cache rest
  end.
(** L207-217 *)
Definition get_class (key : ckey) (s : pstate) : pstate * option cls :=
  match dget ckey_eqb key (ps_cache s) with
  | Some c => (s, Some c)
  | None => find_class key (ps_cache s) (ps_rest s)
  end.

Section Serialize.
  (** constructor arguments of primitives; the class and the arguments of a primitive instance (primitive_base.py L85-106
      [get_arguments]); calling a class with keyword arguments *)
  Variable args : Type.
  Variable class_of : prim -> cls.
  Variable args_of : prim -> args.
  Variable construct : cls -> args -> res prim.
  (** Timedelta.get_arguments and Timedelta.from_dictionary *)
  Variable targs : Type.
  Variable td_save : tdelta -> targs.
  Variable td_load : targs -> res tdelta.
  (** class attributes and variable types, see M_Types *)
  Variable p_ret : prim -> option vtyp.
  Variable p_inputs : prim -> option (list (list vtyp)).
  Variable vtypes : string -> string -> option vtyp.
  (** the relationships, the index of each entity and the checks on use_previous (L515-525) of the entity set; loading
      rebuilds it (C54) *)
  Variable rels : list relationship.
  Variable index_of : string -> option string.
  Variable prev_ok : string -> tdelta -> res unit.
  (** the subclasses of PrimitiveBase *)
  Variable classes : ctree.
  Notation ftype := (ftype p_ret vtypes).
  Notation check_types := (check_types p_ret p_inputs vtypes).
  Notation fname := (fname rels).
  Notation funique := (funique rels).

  (** ** Constructors *)
  Definition is_var (e v : string) : bool := match vtypes e v with Some _ => true | None => false end.
  (** L345-353 [IdentityFeature]; entityset[e][v] raises KeyError *)
  Definition mk_ident (e v : string) (nm : option string) : res feat := if is_var e v then Ok (FIdent e v nm) else Err KeyError.
  (** relationship.py L9-35 [Relationship.from_dictionary] *)
  Definition mk_rel (r : relationship) : res relationship :=
    if negb (is_var (r_pe r) (r_pv r) && is_var (r_ce r) (r_cv r)) then Err KeyError
    else match index_of (r_pe r) with Some i => if String.eqb i (r_pv r) then Ok r else Err AttributeError | None => Ok r end.
  (** L390-412 [DirectFeature] with a relationship *)
  Definition mk_direct (r : relationship) (b : feat) (nm : option string) : res feat :=
    if String.eqb (fentity b) (r_pe r) then Ok (FDirect r b nm) else Err AssertionError.
  (** L491-500: one common entity, single outputs *)
  Definition check_bases (bs : list feat) : res unit :=
    match bs with
    | [] => Err AssertionError
    | b :: bs' =>
      if negb (forallb (fun b' => String.eqb (fentity b') (fentity b)) bs') then Err AssertionError
      else if existsb (fun b' => Nat.ltb 1 (fnout b')) bs then Err ValueError else Ok tt
    end.
  (** L489-548 [AggregationFeature] with a relationship path *)
  Definition mk_agg (p : prim) (bs : list feat) (path : list relationship) (wh : option feat) (prev : option tdelta) (nm : option string) : res feat :=
    do _ <- check_bases bs;
    let ce := match bs with b :: _ => fentity b | [] => "" end in
    let pe := match path with r :: _ => r_pe r | [] => "" end in
    match path with
    | [] => Err RuntimeError
    | r0 :: _ =>
      if negb (String.eqb ce (r_ce (last path r0))) then Err AssertionError
      else
        do uniq <- has_unique_forward_path rels ce pe;
        do _ <- match wh with Some w => if String.eqb (fentity w) ce then Ok tt else Err AssertionError | None => Ok tt end;
        do _ <- match prev with Some d => prev_ok ce d | None => Ok tt end;
        if check_types p bs then Ok (FAgg p bs path uniq wh prev nm) else Err AssertionError
    end.
  (** L641-659 [TransformFeature] *)
  Definition mk_trans (p : prim) (bs : list feat) (nm : option string) : res feat :=
    do _ <- check_bases bs;
    if check_types p bs then Ok (FTrans p bs nm) else Err AssertionError.
  (** L685-698 [GroupByTransformFeature] *)
  Definition mk_group (p : prim) (bs : list feat) (g : feat) (nm : option string) : res feat :=
    if negb (issub (ftype g) YDiscrete) then Err AssertionError
    else do _ <- check_bases (bs ++ [g]);
         if check_types p (bs ++ [g]) then Ok (FGroup p bs g nm) else Err AssertionError.
  (** L773-792 [FeatureOutputSlice] *)
  Definition mk_slice (b : feat) (n : nat) (nm : option string) : res feat :=
    if Nat.ltb 1 (fnout b) && Nat.ltb n (fnout b) then Ok (FSlice b n nm) else Err AssertionError.

  (** ** Dictionaries *)
  (** primitives/utils.py L178-186 [serialize_primitive] *)
  Record pdict : Type := mkPd { pd_key : ckey; pd_args : args }.
  Definition serialize_primitive (p : prim) : pdict := mkPd (key_of (class_of p)) (args_of p).

  (** the results of [get_arguments]: L372-377, L468-474, L623-631, L676-681, L727-736, L804-809 *)
  Inductive fargs : Type :=
  | GIdent (name e v : string)
  | GDirect (name base : string) (r : relationship)
  | GAgg (name : string) (bases : list string) (path : list relationship) (p : pdict) (wh : option string) (prev : option targs)
  | GTrans (name : string) (bases : list string) (p : pdict)
  | GGroup (name : string) (bases : list string) (p : pdict) (g : string)
  | GSlice (name base : string) (n : nat).
  Record fdict : Type := mkFd { fd_type : string; fd_deps : list string; fd_args : fargs }.

  (** [self._name]: [unique_name] was called before, so [get_name] has stored the name (L81-84) *)
  Definition get_arguments (f : feat) : fargs :=
    match f with
    | FIdent e v _ => GIdent (fname f) e v
    | FDirect r b _ => GDirect (fname f) (funique b) r
    | FAgg p bs path _ wh prev _ => GAgg (fname f) (map funique bs) path (serialize_primitive p) (option_map funique wh) (option_map td_save prev)
    | FTrans p bs _ => GTrans (fname f) (map funique bs) (serialize_primitive p)
    | FGroup p bs g _ =>
      GGroup (fname f) (filter (fun n => negb (String.eqb n (funique g))) (map funique (bs ++ [g]))) (serialize_primitive p) (funique g)
    | FSlice b n _ => GSlice (fname f) (funique b) n
    end.
  (** L211-216 [to_dictionary] *)
  Definition to_dictionary (f : feat) : fdict := mkFd (fclass f) (map funique (fdeps f)) (get_arguments f).

  (** features_serializer.py L104-115 [_serialize_feature], L95-102 [_feature_definitions]: definitions by unique name *)
  Definition add_def (d : list (string * fdict)) (f : feat) : list (string * fdict) :=
    match dget String.eqb (funique f) d with Some _ => d | None => dset String.eqb (funique f) (to_dictionary f) d end.
  Definition serialize_feature (d : list (string * fdict)) (f : feat) : list (string * fdict) :=
    match dget String.eqb (funique f) d with
    | Some _ => d
    | None => fold_left add_def (deep_deps rels [] f) (dset String.eqb (funique f) (to_dictionary f) d)
    end.
  (** L74-84 [to_dict]: the entity set of the first feature is described *)
  Record saved : Type := mkSaved { sv_list : list string; sv_defs : list (string * fdict) }.
  Definition save_features (fs : list feat) : res saved :=
    match fs with [] => Err IndexError | _ => Ok (mkSaved (map funique fs) (fold_left serialize_feature fs [])) end.

  (** ** Loading *)
  (** features_deserializer.py L79-82; [ds_built] logs the calls of [from_dictionary] that succeeded *)
  Record dstate : Type := mkDs { ds_memo : list (string * feat); ds_built : list string; ds_prims : pstate }.
  Definition deps_get (n : string) (d : list (string * feat)) : res feat := match dget String.eqb n d with Some f => Ok f | None => Err KeyError end.
  (** primitives/utils.py L202-220 [deserialize_primitive] *)
  Definition deserialize_primitive (d : pdict) (s : pstate) : res (pstate * prim) :=
    match get_class (pd_key d) s with
    | (s', Some c) => do p <- construct c (pd_args d); Ok (s', p)
    | (_, None) => Err RuntimeError
    end.
  (** the [from_dictionary] methods: L355-360, L429-437, L568-585, L661-665, L700-705, L811-817, chosen by the type
      (features_deserializer.py L67-76, L117-120; the two abstract classes cannot be loaded) *)
  Definition from_dictionary (ty : string) (a : fargs) (deps : list (string * feat)) (s : pstate) : res (pstate * feat) :=
    if String.eqb ty "IdentityFeature" then
      match a with GIdent name e v => do f <- mk_ident e v (Some name); Ok (s, f) | _ => Err KeyError end
    else if String.eqb ty "DirectFeature" then
      match a with GDirect name b r => do b <- deps_get b deps; do r <- mk_rel r; do f <- mk_direct r b (Some name); Ok (s, f) | _ => Err KeyError end
    else if String.eqb ty "AggregationFeature" then
      match a with
      | GAgg name bs path p wh prev =>
        do bs <- mapM (fun n => deps_get n deps) bs;
        do path <- mapM mk_rel path;
        match path with [] => Err IndexError | _ =>
        do sp <- deserialize_primitive p s;
        do prev <- match prev with Some d => do d <- td_load d; Ok (Some d) | None => Ok None end;
        do wh <- match wh with Some n => do w <- deps_get n deps; Ok (Some w) | None => Ok None end;
        do f <- mk_agg (snd sp) bs path wh prev (Some name); Ok (fst sp, f) end
      | _ => Err KeyError end
    else if String.eqb ty "TransformFeature" then
      match a with
      | GTrans name bs p =>
        do bs <- mapM (fun n => deps_get n deps) bs; do sp <- deserialize_primitive p s;
        do f <- mk_trans (snd sp) bs (Some name); Ok (fst sp, f)
      | _ => Err KeyError end
    else if String.eqb ty "GroupByTransformFeature" then
      match a with
      | GGroup name bs p g =>
        do bs <- mapM (fun n => deps_get n deps) bs; do sp <- deserialize_primitive p s; do g <- deps_get g deps;
        do f <- mk_group (snd sp) bs g (Some name); Ok (fst sp, f)
      | _ => Err KeyError end
    else if String.eqb ty "FeatureOutputSlice" then
      match a with GSlice name b n => do b <- deps_get b deps; do f <- mk_slice b n (Some name); Ok (s, f) | _ => Err KeyError end
    else Err RuntimeError.

  Section Load.
    Variable defs : list (string * fdict).
    (** features_deserializer.py L105-129 [_deserialize_feature]; [fuel] bounds the recursion, running out is an error *)
    Fixpoint deserialize_feature (fuel : nat) (n : string) (s : dstate) : res (dstate * feat) :=
      match dget String.eqb n (ds_memo s) with
      | Some f => Ok (s, f)
      | None =>
        match fuel with
        | 0 => Err OutOfFuel
        | S fuel =>
          match dget String.eqb n defs with
          | None => Err KeyError
          | Some fd =>
            do sd <- foldM (fun (sd : dstate * list (string * feat)) d =>
                              do sf <- deserialize_feature fuel d (fst sd); Ok (fst sf, dset String.eqb d (snd sf) (snd sd)))
                           (fd_deps fd) (s, []);
            do pf <- from_dictionary (fd_type fd) (fd_args fd) (snd sd) (ds_prims (fst sd));
            Ok (mkDs (dset String.eqb n (snd pf) (ds_memo (fst sd))) (ds_built (fst sd) ++ [n]) (fst pf), snd pf)
          end
        end
      end.
    (** L101-103 [to_list] *)
    Fixpoint to_list (fuel : nat) (ns : list string) (s : dstate) : res (dstate * list feat) :=
      match ns with
      | [] => Ok (s, [])
      | n :: ns => do sf <- deserialize_feature fuel n s; do sl <- to_list fuel ns (fst sf); Ok (fst sl, snd sf :: snd sl)
      end.
  End Load.
  (** [load_features]: the features and the log of constructions *)
  Definition load_features (fuel : nat) (sv : saved) : res (list string * list feat) :=
    do sl <- to_list (sv_defs sv) fuel (sv_list sv) (mkDs [] [] (ps_new classes)); Ok (ds_built (fst sl), snd sl).
End Serialize.
