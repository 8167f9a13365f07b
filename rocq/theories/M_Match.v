(** Choosing the inputs of a primitive: models synthesis/deep_feature_synthesis.py L825-964 ([check_transform_stacking],
    [check_stacking], [match]) and primitives/options_utils.py L48-240. *)
From Verif Require Import Base M_Schema M_Feature M_Types.
Local Open Scope string_scope.
Local Open Scope list_scope.

Definition str_leb (a b : string) : bool := match String.compare a b with Gt => false | _ => true end.
(** comparison of lists of strings *)
Fixpoint strs_leb (a b : list string) : bool :=
  match a, b with
  | [], _ => true
  | _ :: _, [] => false
  | x :: a, y :: b => match String.compare x y with Lt => true | Gt => false | Eq => strs_leb a b end
  end.

Fixpoint list_eqb {A} (eqb : A -> A -> bool) (a b : list A) : bool :=
  match a, b with [], [] => true | x :: a, y :: b => eqb x y && list_eqb eqb a b | _, _ => false end.

(** itertools.permutations, in its order *)
Fixpoint picks {A} (l : list A) : list (A * list A) :=
  match l with [] => [] | x :: l => (x, l) :: map (fun p => (fst p, x :: snd p)) (picks l) end.
Fixpoint perms_n {A} (n : nat) (l : list A) : list (list A) :=
  match n with 0 => [[]] | S n => flat_map (fun p => map (cons (fst p)) (perms_n n (snd p))) (picks l) end.
Definition permutations {A} (l : list A) : list (list A) := perms_n (List.length l) l.

Definition is_direct (f : feat) : bool := match f with FDirect _ _ _ => true | _ => false end.
Definition is_agg (f : feat) : bool := match f with FAgg _ _ _ _ _ _ _ => true | _ => false end.
(** [f.primitive]: [None] is a bare PrimitiveBase() (identity L353, direct L409); a slice has the primitive of its base (L790) *)
Fixpoint fprim (f : feat) : option prim :=
  match f with
  | FIdent _ _ _ => None | FDirect _ _ _ => None
  | FAgg p _ _ _ _ _ _ => Some p | FTrans p _ _ => Some p | FGroup p _ _ _ => Some p
  | FSlice b _ _ => fprim b
  end.

(** class attributes used by DFS; classes are numbers, 0 is PrimitiveBase *)
Record pattr : Type := mkPa {
  a_name : string;                    (* name, the key of primitive_options *)
  a_id : nat;                         (* identity of the instance *)
  a_class : nat;
  a_isagg : bool;                     (* AggregationPrimitive; otherwise a TransformPrimitive *)
  a_comm : bool;                      (* commutative *)
  a_self : option bool;               (* stack_on_self *)
  a_on : option (list nat);           (* stack_on *)
  a_on_ex : option (list nat);        (* stack_on_exclude *)
  a_of : option (list nat);           (* base_of *)
  a_of_ex : option (list nat)         (* base_of_exclude *)
}.

(** options of a primitive: options_utils.py L139-159 [_init_option_dict], sets as lists.  [ignore_entities] and
    [ignore_variables] are always present (L155-158); for the others [None] is an absent key *)
Definition edict : Type := list (string * list string).
Record popt : Type := mkPo {
  o_inc_e : option (list string); o_ign_e : list string;
  o_inc_v : option edict; o_ign_v : edict;
  o_inc_ge : option (list string); o_ign_ge : option (list string);
  o_inc_gv : option edict; o_ign_gv : option edict
}.

(** [key in d] and [x in d[key]] *)
Definition opt_mem (x : string) (o : option (list string)) : bool := match o with Some l => mem_str x l | None => false end.

Section Match.
  Variable rels : list relationship.
  Variable p_ret : prim -> option vtyp.
  Variable vtypes : string -> string -> option vtyp.
  Variable attr : prim -> pattr.
  (** [issubclass] on primitive classes *)
  Variable subc : nat -> nat -> bool.
  (** str.lower *)
  Variable lower : string -> string.
  (** the order in which a frozenset of features is iterated *)
  Variable ordF : list feat -> list feat.
  Notation ftype := (ftype p_ret vtypes).
  Notation fname := (fname rels).
  Notation funique := (funique rels).

  (** feature_base.py L170-174: features are hashed by name and entity; [==] on features builds a feature, which is true, so
      in sets two features are one when the strings hashed are equal (collisions of the hash itself are not modelled) *)
  Definition fkey (f : feat) : string := (fname f ++ fentity f)%string.
  Definition feq (a b : feat) : bool := String.eqb (fkey a) (fkey b).
  Definition tuple_eq : list feat -> list feat -> bool := list_eqb feq.
  Definition set_eq (a b : list feat) : bool :=
    Nat.eqb (List.length a) (List.length b) && forallb (fun x => existsb (feq x) b) a.

  (** L877-882 *)
  Definition match_by_type (fs : list feat) (t : vtyp) : list feat := filter (fun f => issub (ftype f) t) fs.
  Definition without (m : feat) (fs : list feat) : list feat := filter (fun c => negb (String.eqb (funique c) (funique m))) fs.
  (** L885-920 [match] with replace=False (the callers never pass it) and commutative=False *)
  Fixpoint match_plain (ts : list vtyp) (fs : list feat) (direct : bool) : list (list feat) :=
    match ts with
    | [] => []
    | [t] => map (fun m => [m]) (filter (fun m => negb direct || is_direct m) (match_by_type fs t))
    | t :: ts => dedup_by tuple_eq []
                   (flat_map (fun m => map (cons m) (match_plain ts (without m fs) (direct && negb (is_direct m)))) (match_by_type fs t))
    end.
  (** L885-920 [match]; only the outer call is commutative (L903); the set of frozensets is deduplicated before it is sorted *)
  Definition name_leb (a b : feat) : bool := str_leb (lower (fname a)) (lower (fname b)).
  Definition match_inputs (ts : list vtyp) (fs : list feat) (comm direct : bool) : res (list (list feat)) :=
    match ts with
    | [] => Err IndexError
    | [t] => Ok (match_plain ts fs direct)
    | t :: ts' =>
      if comm then
        let sets := dedup_by set_eq [] (map (dedup_by feq [])
          (flat_map (fun m => map (cons m) (match_plain ts' (without m fs) (direct && negb (is_direct m)))) (match_by_type fs t))) in
        Ok (dedup_by tuple_eq [] (map (fun s => isort name_leb (ordF s)) sets))
      else Ok (match_plain ts fs direct)
    end.

  (** L825-832 *)
  Definition is_trans_prim (f : feat) : bool := match fprim f with Some q => negb (a_isagg (attr q)) | None => false end.
  Definition check_transform_stacking (inputs : list feat) : bool :=
    forallb (fun f => negb (is_trans_prim f) && match f with FDirect _ b _ => negb (is_trans_prim b) | _ => true end) inputs.

  (** isinstance(f.primitive, class) *)
  Definition fprim_class (f : feat) : nat := match fprim f with Some q => a_class (attr q) | None => 0 end.
  Definition prim_isa (f : feat) (cs : list nat) : bool := existsb (subc (fprim_class f)) cs.
  Definition fprim_of (f : feat) : option (list nat) := match fprim f with Some q => a_of (attr q) | None => None end.
  Definition fprim_of_ex (f : feat) : option (list nat) := match fprim f with Some q => a_of_ex (attr q) | None => None end.
  (** L835-874 [check_stacking].  L855 reads [f.base_of_exclude], an attribute no feature has: AttributeError. *)
  Definition check_stacking (p : prim) (inputs : list feat) : res bool :=
    let a := attr p in
    if (match a_self a with Some false => existsb (fun f => prim_isa f [a_class a]) inputs | _ => false end) then Ok false        (* L838-841 *)
    else if (match a_on_ex a with Some l => existsb (fun f => prim_isa f l) inputs | None => false end) then Ok false             (* L843-846 *)
    else if existsb (fun f => Nat.ltb 1 (fnout f)) inputs then Ok false                                                           (* L849-851 *)
    else if existsb (fun f => match fprim_of_ex f with Some _ => true | None => false end) inputs then Err AttributeError          (* L853-856 *)
    else Ok (forallb (fun f =>                                                                                                    (* L858-872 *)
           (match a_self a with Some true => prim_isa f [a_class a] | _ => false end)
           || match a_on a with None => true | Some l => prim_isa f l
              || match fprim_of f with None => true | Some l => existsb (Nat.eqb (a_class a)) l end end) inputs).

  (** L947-959 *)
  Definition path_eqb (a b : list edge) : bool := list_eqb edge_eqb a b.
  Definition all_direct_and_same_path (fs : list feat) : bool :=
    forallb is_direct fs && match fs with [] => true | f :: fs => forallb (fun g => path_eqb (fpath g) (fpath f)) fs end.
  (** L962-964 *)
  Definition direct_of_entity (f : feat) (e : string) : bool := match f with FDirect r _ _ => String.eqb (r_pe r) e | _ => false end.

  (** ** options_utils.py *)
  (** L162-187 [variable_filter] for one feature of the dependencies *)
  Definition dep_ok (inc_v ign_v : option edict) (inc_e ign_e : option (list string)) (d : feat) : bool :=
    let by_entity := match inc_e with Some l => mem_str (fentity d) l && negb (opt_mem (fentity d) ign_e) | None => negb (opt_mem (fentity d) ign_e) end in
    match d with
    | FIdent e v _ =>
      match match inc_v with Some i => dget String.eqb e i | None => None end with
      | Some vs => mem_str (fname d) vs                                                            (* L173-177 *)
      | None => if opt_mem (fname d) (match ign_v with Some i => dget String.eqb e i | None => None end) then false   (* L178-180 *)
                else by_entity
      end
    | _ => by_entity                                                                               (* L181-186 *)
    end.
  (** L162-187 [variable_filter] *)
  Definition variable_filter (f : feat) (o : popt) (groupby : bool) : bool :=
    if groupby && negb (issub (ftype f) YDiscrete) then false
    else let ok := if groupby then dep_ok (o_inc_gv o) (o_ign_gv o) (o_inc_ge o) (o_ign_ge o)
                   else dep_ok (o_inc_v o) (Some (o_ign_v o)) (o_inc_e o) (Some (o_ign_e o)) in
         forallb ok (deep_deps rels [] f ++ [f]).

  Definition has_key (e : string) (o : option edict) : bool := match o with Some d => match dget String.eqb e d with Some _ => true | None => false end | None => false end.
  (** L190-207 [ignore_entity_for_primitive] *)
  Definition should_ignore_entity (e : string) (groupby : bool) (o : popt) : bool :=
    if groupby && negb (has_key e (o_inc_gv o)) &&
       (match o_inc_ge o with Some l => negb (mem_str e l) | None => false end || opt_mem e (o_ign_ge o)) then true
    else if has_key e (o_inc_v o) then false
    else match o_inc_e o with Some l => if negb (mem_str e l) then true else mem_str e (o_ign_e o) | None => mem_str e (o_ign_e o) end.
  Definition ignore_entity_for_primitive (os : list popt) (e : string) (groupby : bool) : bool := existsb (should_ignore_entity e groupby) os.

  (** zip(match, options) *)
  Fixpoint zip_ok (m : list feat) (os : list popt) (groupby : bool) : bool :=
    match m, os with f :: m, o :: os => variable_filter f o groupby && zip_ok m os groupby | _, _ => true end.
  (** L218-229 [is_valid_match]; an empty list of options fails on options[0] *)
  Definition is_valid_match (os : list popt) (groupby : bool) (m : list feat) : bool :=
    match os with
    | [] => false
    | [o] => forallb (fun f => variable_filter f o groupby) m
    | _ => zip_ok m os groupby
    end.
  (** L216-240 [filter_matches_by_options] *)
  Definition choose_match (os : list popt) (groupby comm : bool) (m : list feat) : list (list feat) :=
    if is_valid_match os groupby m then [m]
    else if comm then match find (is_valid_match os groupby) (permutations m) with Some o => [o] | None => [] end
    else [].
  Definition match_leb (a b : list feat) : bool := strs_leb (map funique a) (map funique b).
  Definition filter_matches_by_options (ms : list (list feat)) (os : list popt) (groupby comm : bool) : res (list (list feat)) :=
    match ms, os with
    | _ :: _, [] => Err IndexError
    | _, _ => Ok (isort match_leb (dedup_by tuple_eq [] (flat_map (choose_match os groupby comm) ms)))
    end.
End Match.

(** ** Options of all primitives, options_utils.py L48-136 *)
(** keys of primitive_options: a primitive instance, or a name (a class is replaced by its name, L127-128) *)
Inductive okey : Type := KInst (i : nat) | KName (n : string).
Definition okey_eqb (a b : okey) : bool :=
  match a, b with KInst i, KInst j => Nat.eqb i j | KName n, KName m => String.eqb n m | _, _ => false end.
(** what the user wrote: a group of keys, then one dict for all inputs ([inl]) or one per input ([inr]) *)
Definition uopts : Type := list (list okey * (popt + list popt)).

Section Options.
  Variable attr : prim -> pattr.
  (** number of inputs of the primitive a key stands for, [None] when there is no such primitive *)
  Variable arity_of : okey -> option nat.

  (** L100-136 [_init_primitive_options].  The type checks of the values (L24-45, L143-149) are not modelled.  All keys of
      one group share one list object in the code; the update of L73-92 is idempotent, so each key gets its own copy here. *)
  Definition init_group (acc : list (okey * list popt)) (g : list okey * (popt + list popt)) : res (list (okey * list popt)) :=
    do os <- match snd g with
             | inl o => Ok [o]
             | inr os =>
               do _ <- mapM (fun k => match arity_of k with None => Err ValueError | Some n => if Nat.eqb n (List.length os) then Ok tt else Err AssertionError end) (fst g);
               Ok os
             end;
    foldM (fun acc k => match dget okey_eqb k acc with Some _ => Err KeyError | None => Ok (dset okey_eqb k os acc) end) (fst g) acc.
  Definition init_primitive_options (u : uopts) : res (list (okey * list popt)) := foldM init_group u [].

  Definition prim_key (acc : list (okey * list popt)) (p : prim) : option okey :=
    if match dget okey_eqb (KInst (a_id (attr p))) acc with Some _ => true | None => false end then Some (KInst (a_id (attr p)))
    else if match dget okey_eqb (KName (a_name (attr p))) acc with Some _ => true | None => false end then Some (KName (a_name (attr p)))
    else None.
  (** L68-71 *)
  Definition included_entities (os : list popt) : list string :=
    flat_map (fun o => (match o_inc_e o with Some l => l | None => [] end) ++ (match o_inc_v o with Some d => map fst d | None => [] end)) os.
  Definition diff (a b : list string) : list string := filter (fun x => negb (mem_str x b)) a.
  Definition dd_get (e : string) (d : edict) : list string := match dget String.eqb e d with Some l => l | None => [] end.
  (** L79-92, for one option dict *)
  Definition add_globals (inc ign_e : list string) (ign_v : edict) (o : popt) : popt :=
    let vs := fold_left (fun (d : edict) (ev : string * list string) =>
                match dget String.eqb (fst ev) d with
                | Some l => dset String.eqb (fst ev) (l ++ snd ev) d
                | None => if mem_str (fst ev) inc then d else dset String.eqb (fst ev) (snd ev) d
                end) ign_v (o_ign_v o) in
    mkPo (o_inc_e o) (o_ign_e o ++ diff ign_e inc) (o_inc_v o) vs (o_inc_ge o) (o_ign_ge o) (o_inc_gv o) (o_ign_gv o).
  (** L73-78 *)
  Definition unignore (d : edict) (o : popt) : edict :=
    match o_inc_v o with None => d | Some i => fold_left (fun d ev => dset String.eqb (fst ev) (diff (dd_get (fst ev) d) (snd ev)) d) i d end.
  (** L48-97 [generate_all_primitive_options]: the options, and the entities and variables still ignored everywhere *)
  Record gopts : Type := mkGo { g_opts : list (okey * list popt); g_ign_e : list string; g_ign_v : edict }.
  Definition gen_step (ign_e : list string) (ign_v : edict) (s : gopts) (p : prim) : gopts :=
    match prim_key (g_opts s) p with
    | Some k =>
      let os := match dget okey_eqb k (g_opts s) with Some os => os | None => [] end in
      let inc := included_entities os in
      mkGo (dset okey_eqb k (map (add_globals inc ign_e ign_v) os) (g_opts s)) (diff (g_ign_e s) inc) (fold_left unignore os (g_ign_v s))
    | None => mkGo (dset okey_eqb (KInst (a_id (attr p))) [mkPo None ign_e None ign_v None None None None] (g_opts s)) (g_ign_e s) (g_ign_v s)
    end.
  Definition generate_all_primitive_options (prims : list prim) (u : uopts) (ign_e : list string) (ign_v : edict) : res gopts :=
    do os <- init_primitive_options u;
    Ok (fold_left (gen_step ign_e ign_v) prims (mkGo os ign_e ign_v)).
  (** deep_feature_synthesis.py L576-578: options for a primitive *)
  Definition options_of (os : list (okey * list popt)) (p : prim) : list popt :=
    match dget okey_eqb (KInst (a_id (attr p))) os with
    | Some l => l
    | None => match dget okey_eqb (KName (a_name (attr p))) os with Some l => l | None => [] end
    end.
End Options.
