(** Building and changing entity sets.
    Models entityset/entityset.py (creation, relationships, normalize_entity, concat, equality, metadata cache),
    entityset/entity.py, utils/entity_utils.py, utils/wrangle.py L102-155, entityset/serialize.py L20-77 and
    entityset/deserialize.py L45-125 (without a path: the schema part).
    Calls that fail part of the way keep the changes made so far, so every operation is a state transformer that returns
    the new state together with a result.  Pandas frames only; warnings are not modelled. *)
From Verif Require Import Base M_Schema M_Table M_LastTime.
Local Open Scope string_scope.
Local Open Scope list_scope.

(** ** State and errors *)
Definition ST (S A : Type) : Type := S -> S * res A.
Definition sret {S A} (a : A) : ST S A := fun s => (s, Ok a).
Definition sfail {S A} (e : err) : ST S A := fun s => (s, Err e).
Definition slift {S A} (r : res A) : ST S A := fun s => (s, r).
Definition sbind {S A B} (x : ST S A) (f : A -> ST S B) : ST S B :=
  fun s => match x s with (s', Ok a) => f a s' | (s', Err e) => (s', Err e) end.
Definition sget {S} : ST S S := fun s => (s, Ok s).
Definition sput {S} (s' : S) : ST S unit := fun _ => (s', Ok tt).
Definition smod {S} (f : S -> S) : ST S unit := fun s => (f s, Ok tt).
Definition sguard {S} (b : bool) (e : err) : ST S unit := fun s => (s, if b then Ok tt else Err e).
Notation "x <~ e ;; f" := (sbind e (fun x => f)) (at level 61, e at next level, right associativity).
Notation "e ;;; f" := (sbind e (fun _ => f)) (at level 61, right associativity).
Fixpoint siter {S A} (f : A -> ST S unit) (l : list A) : ST S unit :=
  match l with [] => sret tt | a :: l => f a ;;; siter f l end.

(** ** Variables and tables *)
(** variable_types/variable.py L139-430; the remaining classes are [TNamed] *)
Inductive vtype : Type :=
  TIndex | TId | TCategorical | TOrdinal | TNumeric | TDatetime | TNumericTimeIndex | TDatetimeTimeIndex | TBoolean | TNamed (s : string).
Definition vtype_eq_dec (a b : vtype) : {a = b} + {a <> b}.
Proof. decide equality. apply String.string_dec. Defined.
Definition vtype_eqb (a b : vtype) : bool := if vtype_eq_dec a b then true else false.

Inductive dtype : Type := DInt | DFloat | DBool | DObj | DDate | DOther (s : string).
Definition dtype_eq_dec (a b : dtype) : {a = b} + {a <> b}.
Proof. decide equality. apply String.string_dec. Defined.
Definition dtype_eqb (a b : dtype) : bool := if dtype_eq_dec a b then true else false.
Definition numeric_dtype (d : dtype) : bool := match d with DInt | DFloat => true | _ => false end.

(** the two classes of time types: NumericTimeIndex and DatetimeTimeIndex *)
Inductive tkind : Type := KNum | KDate.
Definition tkind_eqb (a b : tkind) : bool := match a, b with KNum, KNum | KDate, KDate => true | _, _ => false end.

(** variable.py L17-136 [Variable]; the display name is always the id here *)
Record variable : Type := mkVar { v_id : string; v_type : vtype; v_values : list val; v_desc : option string }.

(** a frame with the dtype of each column *)
Record table : Type := mkTab { t_cols : list (string * dtype); t_rows : list row }.
Definition t_names (t : table) : list string := map fst (t_cols t).
Definition t_dtype (t : table) (c : string) : res dtype := match dget String.eqb c (t_cols t) with Some d => Ok d | None => Err KeyError end.
Definition t_column (t : table) (c : string) : list val := map (cell c) (t_rows t).
(** df[columns] *)
Definition t_select (t : table) (cs : list string) : res table :=
  do ds <- mapM (fun c => do d <- t_dtype t c; Ok (c, d)) cs;
  Ok (mkTab ds (map (fun r => map (fun c => (c, cell c r)) cs) (t_rows t))).
(** df[c] = values *)
Definition t_set (t : table) (c : string) (d : dtype) (vs : list val) : table :=
  mkTab (dset String.eqb c d (t_cols t)) (map (fun rv => dset String.eqb c (snd rv) (fst rv)) (combine (t_rows t) vs)).
(** df.rename(columns={a: b}) *)
Definition t_rename (a b : string) (t : table) : table :=
  let rn := fun c : string => if String.eqb c a then b else c in
  mkTab (map (fun cd => (rn (fst cd), snd cd)) (t_cols t)) (map (map (fun cv => (rn (fst cv), snd cv))) (t_rows t)).
(** df.drop(cs, axis=1) after the check that they exist *)
Definition t_drop (cs : list string) (t : table) : table :=
  mkTab (filter (fun cd => negb (mem_str (fst cd) cs)) (t_cols t)) (map (filter (fun cv => negb (mem_str (fst cv) cs))) (t_rows t)).

(** drop_duplicates(c, keep='first') and keep='last' *)
Fixpoint first_by (key : row -> list val) (seen : list (list val)) (rs : list row) : list row :=
  match rs with
  | [] => []
  | r :: rs => if existsb (fun k => if list_eq_dec val_eq_dec (key r) k then true else false) seen then first_by key seen rs
               else r :: first_by key (key r :: seen) rs
  end.
Definition first_rows (cs : list string) (rs : list row) : list row := first_by (fun r => map (fun c => cell c r) cs) [] rs.
Definition last_rows (cs : list string) (rs : list row) : list row := rev (first_rows cs (rev rs)).

(** sort_values([time, index]): by time, then by index, missing values last *)
Definition row_leb (t i : string) (a b : row) : bool :=
  if val_eqb (cell t a) (cell t b) then val_leb (cell i a) (cell i b) else val_leb (cell t a) (cell t b).

(** entity.py L39-82 [Entity] *)
Record ent : Type := mkEnt {
  n_id : string; n_tab : table; n_vars : list variable; n_index : string; n_time : option string;
  n_sec : list (string * list string); n_lti : option (list (val * val)); n_created : option string }.
Definition with_tab (t : table) (e : ent) : ent := mkEnt (n_id e) t (n_vars e) (n_index e) (n_time e) (n_sec e) (n_lti e) (n_created e).
Definition with_vars (vs : list variable) (e : ent) : ent := mkEnt (n_id e) (n_tab e) vs (n_index e) (n_time e) (n_sec e) (n_lti e) (n_created e).
Definition with_index (i : string) (e : ent) : ent := mkEnt (n_id e) (n_tab e) (n_vars e) i (n_time e) (n_sec e) (n_lti e) (n_created e).
Definition with_time (t : option string) (e : ent) : ent := mkEnt (n_id e) (n_tab e) (n_vars e) (n_index e) t (n_sec e) (n_lti e) (n_created e).
Definition with_sec (s : list (string * list string)) (e : ent) : ent := mkEnt (n_id e) (n_tab e) (n_vars e) (n_index e) (n_time e) s (n_lti e) (n_created e).
Definition with_lti (l : option (list (val * val))) (e : ent) : ent := mkEnt (n_id e) (n_tab e) (n_vars e) (n_index e) (n_time e) (n_sec e) l (n_created e).

(** serialize.py L20-55: the description of an entity (without the data) *)
Record edescr : Type := mkED {
  d_id : string; d_index : string; d_time : option string; d_sec : list (string * list string); d_lti : bool;
  d_vars : list variable; d_dtypes : list (string * dtype) }.
(** serialize.py L58-77 *)
Record descr : Type := mkD { d_name : string; d_ents : list edescr; d_rels : list relationship }.

(** entityset.py L52-104 [EntitySet]; [s_meta] is [_data_description], kept as the description it was built from *)
Record eset : Type := mkSet {
  s_id : string; s_ents : list (string * ent); s_rels : list relationship; s_kind : option tkind; s_meta : option descr }.
Definition with_ents (x : list (string * ent)) (s : eset) : eset := mkSet (s_id s) x (s_rels s) (s_kind s) (s_meta s).
Definition with_rels (x : list relationship) (s : eset) : eset := mkSet (s_id s) (s_ents s) x (s_kind s) (s_meta s).
Definition with_kind (x : option tkind) (s : eset) : eset := mkSet (s_id s) (s_ents s) (s_rels s) x (s_meta s).
Definition with_meta (x : option descr) (s : eset) : eset := mkSet (s_id s) (s_ents s) (s_rels s) (s_kind s) x.
Definition empty_set (name : string) : eset := mkSet name [] [] None None.
(** entityset.py L159 [reset_data_description] *)
Definition reset_meta : ST eset unit := smod (with_meta None).

(** entityset.py L128-141 [__getitem__] *)
Definition sent (eid : string) (s : eset) : res ent := match dget String.eqb eid (s_ents s) with Some e => Ok e | None => Err KeyError end.
(** entity.py L156-175 [_get_variable] *)
Definition get_var (id : string) (vs : list variable) : res variable :=
  match find (fun v => String.eqb (v_id v) id) vs with Some v => Ok v | None => Err KeyError end.

Section Ops.
  (** pandas.to_numeric and pandas.to_datetime on a column *)
  Variables to_numeric to_datetime : list val -> res (dtype * list val).
  (** how Python classifies a value of a column that is neither numeric nor datetime *)
  Variable obj_kind : val -> res (option tkind).
  (** entity_utils.py L14-90 [infer_variable_types] for one column *)
  Variable infer : table -> string -> vtype.
  (** add_last_time_indexes, modelled in M_LastTime: the entities it touches, and the new series *)
  Variable touched : list relationship -> list string -> list string.
  Variable last_times : eset -> string -> list (val * val).

  (** ** Entities.  The state is the time type of the entity set and the entity. *)
  Definition EST : Type -> Type := ST (option tkind * ent).
  Definition eget : EST ent := fun s => (s, Ok (snd s)).
  Definition emod (f : ent -> ent) : EST unit := fun s => ((fst s, f (snd s)), Ok tt).

  Definition is_numeric_type (t : vtype) : bool := match t with TNumeric | TNumericTimeIndex => true | _ => false end.
  Definition is_datetime_type (t : vtype) : bool := match t with TDatetime | TDatetimeTimeIndex => true | _ => false end.
  Definition is_discrete_type (t : vtype) : bool := match t with TId | TCategorical | TOrdinal => true | _ => false end.

  (** entity_utils.py L131-177 [convert_variable_data] *)
  Definition convert_variable_data (t : table) (c : string) (ty : vtype) : res table :=
    do _ <- t_dtype t c;
    match t_rows t with
    | [] => Ok t
    | _ =>
      if vtype_eqb ty TNumeric then do dv <- to_numeric (t_column t c); Ok (t_set t c (fst dv) (snd dv))
      else if is_datetime_type ty then do dv <- to_datetime (t_column t c); Ok (t_set t c (fst dv) (snd dv))
      else if vtype_eqb ty TBoolean || is_discrete_type ty then Ok t
      else Err RuntimeError
    end.
  (** L93-128 [convert_all_variable_data]; the LatLong case is left out *)
  Definition convert_one (t : table) (cty : string * vtype) : res table :=
    let '(c, ty) := cty in
    do d <- t_dtype t c;
    if is_numeric_type ty && negb (numeric_dtype d) then convert_variable_data t c ty
    else if is_datetime_type ty && negb (dtype_eqb d DDate) then convert_variable_data t c ty
    else Ok t.
  Definition convert_all (t : table) (tys : list (string * vtype)) : res table := foldM convert_one tys t.

  (** wrangle.py L102-112 [_check_time_type] on the first value, or on the default value of the variable's class *)
  Definition value_kind (d : dtype) (v : val) : res (option tkind) :=
    match d with DDate => Ok (Some KDate) | DInt | DFloat => Ok (Some KNum) | _ => obj_kind v end.
  Definition default_kind (ty : vtype) : res (option tkind) :=
    match ty with
    | TDatetime | TDatetimeTimeIndex => Ok (Some KDate)
    | TNumeric | TNumericTimeIndex | TId | TIndex | TOrdinal | TBoolean => Ok (Some KNum)
    | _ => Err TypeError
    end.
  Definition column_kind (e : ent) (c : string) : res (option tkind) :=
    match t_rows (n_tab e) with
    | [] => do v <- get_var c (n_vars e); default_kind (v_type v)
    | r :: _ => do d <- t_dtype (n_tab e) c; value_kind d (cell c r)
    end.

  (** variable.py L76-89 [create_from]: the values and the description are not copied *)
  Fixpoint replace_first (id : string) (v' : variable) (vs : list variable) : list variable :=
    match vs with [] => [] | v :: vs => if String.eqb (v_id v) id then v' :: vs else v :: replace_first id v' vs end.
  (** entity.py L182-211 [convert_variable_type] *)
  Definition convert_variable_type (id : string) (ty : vtype) (data : bool) : EST unit :=
    e <~ eget ;;
    (if data then t <~ slift (convert_variable_data (n_tab e) id ty) ;; emod (with_tab t) else sret tt) ;;;
    v <~ slift (get_var id (n_vars e)) ;;
    emod (with_vars (replace_first id (mkVar (v_id v) ty [] None) (n_vars e))).

  Fixpoint nodup_vals (l : list val) : bool := match l with [] => true | v :: l => negb (mem_val v l) && nodup_vals l end.

  (** entity.py L408-422 [set_index] *)
  Definition set_index (id : string) (unique : bool) : EST unit :=
    e <~ eget ;;
    _ <~ slift (t_dtype (n_tab e) id) ;;
    sguard (negb unique || nodup_vals (t_column (n_tab e) id)) AssertionError ;;;
    convert_variable_type id TIndex false ;;;
    emod (with_index id).

  (** L382-391: the time type of the entity set is set by the first time index *)
  Definition claim_kind (k : tkind) : EST unit :=
    fun s => match fst s with
             | None => ((Some k, snd s), Ok tt)
             | Some k' => (s, if tkind_eqb k k' then Ok tt else Err TypeError)
             end.
  Definition known_kind (k : option tkind) : EST tkind := match k with Some k => sret k | None => sfail TypeError end.

  (** entity.py L372-406 [set_time_index] *)
  Definition set_time_index (id : string) (already_sorted : bool) : EST unit :=
    e <~ eget ;;
    ok <~ slift (column_kind e id) ;;
    k <~ known_kind ok ;;
    claim_kind k ;;;
    d <~ slift (t_dtype (n_tab e) id) ;;
    let date := dtype_eqb d DDate || (match t_rows (n_tab e) with [] => false | _ => tkind_eqb k KDate end) in
    (if already_sorted then sret tt
     else emod (with_tab (mkTab (t_cols (n_tab e)) (isort (row_leb id (n_index e)) (t_rows (n_tab e)))))) ;;;
    convert_variable_type id (if date then TDatetimeTimeIndex else TNumericTimeIndex) false ;;;
    emod (with_time (Some id)).

  (** entity.py L424-441 [set_secondary_time_index]; the lists of the caller's dictionary are extended in place: the
      second component is the caller's dictionary after the call *)
  Fixpoint secondary_go (done sec : list (string * list string)) : EST (list (string * list string)) :=
    match sec with
    | [] => sret done
    | (ti, cs) :: sec =>
      e <~ eget ;;
      ok <~ slift (column_kind e ti) ;;
      k <~ known_kind ok ;;
      (fun s => match fst s with Some k' => (s, if tkind_eqb k k' then Ok tt else Err TypeError) | None => (s, Err TypeError) end) ;;;
      secondary_go (done ++ [(ti, if mem_str ti cs then cs else cs ++ [ti])]) sec
    end.
  Definition set_secondary_time_index (sec : list (string * list string)) : EST unit :=
    sec' <~ secondary_go [] sec ;; emod (with_sec sec').

  (** entity.py L478-487 [_validate_entity_params] and L444-475 [_create_index]: the created index, the index and the frame;
      the new column is inserted into the caller's frame *)
  Fixpoint nodup_str (l : list string) : bool := match l with [] => true | a :: l => negb (mem_str a l) && nodup_str l end.
  Definition create_index (index : option string) (make_index : bool) (t : table) : res (option string * string * table) :=
    match index with
    | None => if make_index then Err AssertionError else match t_names t with c :: _ => Ok (None, c, t) | [] => Err IndexError end
    | Some i =>
      if make_index && mem_str i (t_names t) then Err RuntimeError
      else if mem_str i (t_names t) then Ok (None, i, t)
      else Ok (Some i, i, mkTab ((i, DInt) :: t_cols t)
                 (map (fun kr => (i, VNum (Z.of_nat (fst kr))) :: snd kr) (combine (seq 0 (List.length (t_rows t))) (t_rows t))))
    end.

  (** entity.py L213-266 [_create_variables]: inferred types of the other columns first, then the given ones *)
  Definition all_types (t : table) (given : list (string * vtype)) (index : string) : list (string * vtype) :=
    let given := if mem_str index (map fst given) then given else given ++ [(index, TIndex)] in
    map (fun c => (c, infer t c)) (filter (fun c => negb (mem_str c (map fst given))) (t_names t)) ++ given.
  Definition create_variables (t : table) (given : list (string * vtype)) (index : string) : res (list variable * table) :=
    let tys := all_types t given index in
    do t' <- convert_all t tys;
    let vs := map (fun ct => mkVar (fst ct) (snd ct) [] None) tys in
    match filter (fun v => String.eqb (v_id v) index) vs with
    | [] => Err IndexError
    | iv :: _ => Ok (iv :: filter (fun v => negb (String.eqb (v_id v) index)) vs, t')
    end.

  (** entity.py L39-82 [Entity.__init__], on the time type of the entity set; [tt] is the caller's frame after the call *)
  Definition new_entity (id : string) (t : table) (index : option string) (given : list (string * vtype)) (make_index : bool)
      (time : option string) (sec : list (string * list string)) (already_sorted : bool) : ST (option tkind) ent :=
    sguard (nodup_str (t_names t)) AssertionError ;;;
    sguard (match time with Some ti => mem_str ti (t_names t) | None => true end) KeyError ;;;
    cit <~ slift (create_index index make_index t) ;;
    let '(created, i, t1) := cit in
    vt <~ slift (create_variables t1 given i) ;;
    t2 <~ slift (t_select (snd vt) (map v_id (fst vt))) ;;
    (fun k =>
       let init : EST unit :=
         set_index i true ;;;
         (match time with Some ti => set_time_index ti already_sorted | None => sret tt end) ;;;
         set_secondary_time_index sec in
       match init (k, mkEnt id t2 (fst vt) i None [] None created) with
       | ((k', e), Ok _) => (k', Ok e)
       | ((k', _), Err x) => (k', Err x)
       end).

  (** the caller's frame and secondary_time_index objects after the call: the index column is inserted into
      the frame (entity.py L470) and columns are converted in place (entity_utils.py L150-177; when a conversion fails the
      frame is taken as it was before the conversions); the lists of secondary_time_index are extended (entity.py L438).
      The dictionary variable_types is in [M_Args]. *)
  Definition caller_frame (t : table) (index : option string) (given : list (string * vtype)) (make_index : bool) : table :=
    match create_index index make_index t with
    | Ok (_, i, t1) => match create_variables t1 given i with Ok vt => snd vt | Err _ => t1 end
    | Err _ => t
    end.
  Definition caller_secondary (sec : list (string * list string)) : list (string * list string) :=
    map (fun tc => (fst tc, if mem_str (fst tc) (snd tc) then snd tc else snd tc ++ [fst tc])) sec.

  (** ** Entity sets *)
  (** an entity method called on the entity of an entity set; changes stay even if the call fails *)
  Definition on_entity {A} (eid : string) (m : EST A) : ST eset A :=
    fun s => match sent eid s with
             | Err x => (s, Err x)
             | Ok e => match m (s_kind s, e) with ((k, e'), r) => (with_kind k (with_ents (dset String.eqb eid e' (s_ents s)) s), r) end
             end.

  (** entityset.py L436-526 [entity_from_dataframe] *)
  Definition entity_from_dataframe (id : string) (t : table) (index : option string) (given : list (string * vtype)) (make_index : bool)
      (time : option string) (sec : list (string * list string)) (already_sorted : bool) : ST eset unit :=
    sguard (match time, index with Some a, Some b => negb (String.eqb a b) | _, _ => true end) ValueError ;;;
    sguard (match time with Some _ => true | None => forallb (fun ct => negb (vtype_eqb (snd ct) TDatetimeTimeIndex)) given end) ValueError ;;;
    e <~ (fun s => match new_entity id t index given make_index time sec already_sorted (s_kind s) with (k, r) => (with_kind k s, r) end) ;;
    smod (fun s => with_ents (dset String.eqb id e (s_ents s)) s) ;;;
    reset_meta.

  (** relationship.py L8-33: creating a relationship between two existing variables *)
  Definition make_relationship (r : relationship) : ST eset unit :=
    s <~ sget ;;
    pe <~ slift (sent (r_pe r) s) ;;
    _ <~ slift (get_var (r_pv r) (n_vars pe)) ;;
    ce <~ slift (sent (r_ce r) s) ;;
    _ <~ slift (get_var (r_cv r) (n_vars ce)) ;;
    sguard (String.eqb (r_pv r) (n_index pe)) AttributeError.

  (** entityset.py L242-292 [add_relationship] *)
  Definition ensure_type (eid vid : string) (ty : vtype) : ST eset unit :=
    s <~ sget ;;
    e <~ slift (sent eid s) ;;
    v <~ slift (get_var vid (n_vars e)) ;;
    if vtype_eqb (v_type v) ty then sret tt else on_entity eid (convert_variable_type vid ty false).
  Definition add_relationship (r : relationship) : ST eset unit :=
    s <~ sget ;;
    if existsb (rel_eqb r) (s_rels s) then sret tt
    else
      ce <~ slift (sent (r_ce r) s) ;;
      sguard (negb (String.eqb (n_index ce) (r_cv r))) ValueError ;;;
      _ <~ slift (sent (r_pe r) s) ;;
      ensure_type (r_ce r) (r_cv r) TId ;;;
      ensure_type (r_pe r) (r_pv r) TIndex ;;;
      s <~ sget ;;
      ce <~ slift (sent (r_ce r) s) ;;
      cd <~ slift (t_dtype (n_tab ce) (r_cv r)) ;;
      pe <~ slift (sent (r_pe r) s) ;;
      pd <~ slift (t_dtype (n_tab pe) (r_pv r)) ;;
      let fix_empty := match t_rows (n_tab ce) with [] => dtype_eqb cd DObj && numeric_dtype pd | _ => false end in
      (if fix_empty then on_entity (r_ce r) (emod (with_tab (mkTab (dset String.eqb (r_cv r) DInt (t_cols (n_tab ce))) []))) else sret tt) ;;;
      let cd := if fix_empty then DInt else cd in
      sguard (dtype_eqb pd cd) ValueError ;;;
      smod (fun s => with_rels (s_rels s ++ [r]) s) ;;;
      reset_meta.
  (** Relationship(...) followed by add_relationship *)
  Definition relate (r : relationship) : ST eset unit := make_relationship r ;;; add_relationship r.

  (** entity.py L350-370 [delete_variables] *)
  Fixpoint remove_first (id : string) (vs : list variable) : list variable :=
    match vs with [] => [] | v :: vs => if String.eqb (v_id v) id then vs else v :: remove_first id vs end.
  Definition delete_variables (ids : list string) : EST unit :=
    match ids with
    | [] => sret tt
    | _ =>
      e <~ eget ;;
      sguard (forallb (fun c => mem_str c (t_names (n_tab e))) ids) KeyError ;;;
      emod (with_tab (t_drop ids (n_tab e))) ;;;
      siter (fun id => e <~ eget ;; _ <~ slift (get_var id (n_vars e)) ;; emod (with_vars (remove_first id (n_vars e)))) ids
    end.

  (** entityset.py L763-906, see M_LastTime; no updated entities means all of them *)
  Definition add_last_time_indexes (updated : list string) : ST eset unit :=
    s <~ sget ;;
    let ids := match updated with [] => map fst (s_ents s) | _ => touched (s_rels s) updated end in
    smod (with_ents (map (fun ie => if mem_str (fst ie) ids then (fst ie, with_lti (Some (last_times s (fst ie))) (snd ie)) else ie) (s_ents s))) ;;;
    reset_meta.

  (** entity.py L268-290 [update_data] *)
  Definition update_data (eid : string) (t : table) (already_sorted recalculate : bool) : ST eset unit :=
    on_entity eid (
      e <~ eget ;;
      sguard (List.length (t_cols t) =? List.length (n_vars e))%nat ValueError ;;;
      sguard (forallb (fun v => mem_str (v_id v) (t_names t)) (n_vars e)) ValueError ;;;
      t' <~ slift (t_select t (map v_id (n_vars e))) ;;
      emod (with_tab t') ;;;
      set_index (n_index e) true ;;;
      (match n_time e with Some ti => set_time_index ti already_sorted | None => sret tt end) ;;;
      set_secondary_time_index (n_sec e)) ;;;
    s <~ sget ;;
    e <~ slift (sent eid s) ;;
    (if recalculate then match n_lti e with Some _ => add_last_time_indexes [eid] | None => sret tt end else sret tt) ;;;
    reset_meta.

  (** entity.py L292-348 [add_interesting_values], with the chosen values as an argument *)
  Definition add_interesting_values (eid : string) (vals : string -> list val) : ST eset unit :=
    on_entity eid (emod (fun e => with_vars (map (fun v => if is_discrete_type (v_type v) then mkVar (v_id v) (v_type v) (vals (v_id v)) (v_desc v) else v) (n_vars e)) e)) ;;;
    reset_meta.

  (** ** normalize_entity, entityset.py L528-705 *)
  Inductive mti : Type := MtiNone | MtiTrue | MtiFalse | MtiVar (v : string).
  Record norm_args : Type := mkNorm {
    a_base : string; a_new : string; a_index : string; a_add : list string;
    a_mti : mti; a_sec : option (string * list string); a_time : option string; a_sec_name : option string }.

  (** L596-609: the types carried over *)
  Definition transfer (ty : vtype) : vtype := match ty with TDatetimeTimeIndex => TDatetime | TNumericTimeIndex => TNumeric | _ => ty end.
  (** join(on=index) with the last rows: [cols] are appended *)
  Definition join_on (idx : string) (cols : list string) (right : list row) (r : row) : row :=
    r ++ map (fun c => (c, match find (fun q => val_eqb (cell idx q) (cell idx r)) right with Some q => cell c q | None => VNull end)) cols.

  (** L569-690 up to the creation of the new entity.  The state is the list [copy_variables]: the caller's list object,
      unless it was empty (L570-571).  Returns the new frame, its secondary time index, the variable types, the time index and
      whether the rows are sorted. *)
  Definition NST : Type -> Type := ST (list string).
  Definition get_copy : NST (list string) := fun l => (l, Ok l).
  Definition add_copy (v : string) : NST unit := fun l => (l ++ [v], Ok tt).
  Record prepared : Type := mkPrep {
    p_df : table; p_sec : list (string * list string); p_types : list (string * vtype); p_time : option string; p_sorted : bool }.

  Definition normalize_check (a : norm_args) (base : ent) : NST (list (string * vtype)) :=
    copy <~ get_copy ;;
    (* L574-579 *)
    (match n_time base with
     | Some ti => v <~ slift (get_var ti (n_vars base)) ;;
                  sguard (vtype_eqb (v_type v) TNumericTimeIndex || vtype_eqb (v_type v) TDatetimeTimeIndex) TypeError
     | None => sret tt end) ;;;
    (* L581-602 *)
    sguard (nodup_str (a_add a)) ValueError ;;;
    sguard (nodup_str copy) ValueError ;;;
    sguard (negb (mem_str (a_index a) (a_add a ++ copy))) ValueError ;;;
    sguard (match n_time base with Some ti => negb (mem_str ti (a_add a)) | None => true end) ValueError ;;;
    (* L604-610 *)
    (match a_mti a with
     | MtiVar v => sguard (mem_str v (t_names (n_tab base))) ValueError ;;; sguard (mem_str v (a_add a ++ copy)) ValueError
     | _ => sret tt end) ;;;
    sguard (negb (String.eqb (a_index a) (n_index base))) ValueError ;;;
    (* L612-620 *)
    _ <~ slift (get_var (a_index a) (n_vars base)) ;;
    slift (mapM (fun c => do v <- get_var c (n_vars base); Ok (c, transfer (v_type v))) (a_add a ++ copy)).

  (** L625-657: the base time index and its new name, whether the rows are sorted already, the types *)
  Definition normalize_time (a : norm_args) (base : ent) (types : list (string * vtype)) : NST (option (string * string) * bool * list (string * vtype)) :=
    match (match a_mti a with MtiNone => match n_time base with Some _ => MtiTrue | None => MtiFalse end | m => m end) with
    | MtiVar v => sret (Some (v, v), match n_time base with Some ti => String.eqb v ti | None => false end, types)
    | MtiTrue =>
      match n_time base with
      | None => sfail AssertionError
      | Some ti =>
        let nt := match a_time a with Some n => n | None => ("first_" ++ n_id base ++ "_time")%string end in
        (if mem_str ti (a_add a) then sret tt else add_copy ti) ;;;
        v <~ slift (get_var ti (n_vars base)) ;;
        sret (Some (ti, nt), true, dset String.eqb nt (v_type v) types)
      end
    | _ => sret (None, false, types)
    end.

  (** L660-668: the first row of each value of the index, selected columns, the time index renamed *)
  Definition normalize_first (a : norm_args) (base : ent) (copy : list string) (times : option (string * string)) : res table :=
    do sel <- t_select (mkTab (t_cols (n_tab base)) (first_rows [a_index a] (t_rows (n_tab base)))) (a_index a :: a_add a ++ copy);
    Ok (match times with Some (bt, nt) => t_rename bt nt sel | None => sel end).
  (** L669-685: the secondary time index and its variables from the last row of each value of the index *)
  Definition normalize_second (a : norm_args) (base : ent) (df2 : table) : res (table * list (string * list string)) :=
    match a_sec a with
    | None => Ok (df2, [])
    | Some (sti, scols) =>
      do sdf <- t_select (mkTab (t_cols (n_tab base)) (last_rows [a_index a] (t_rows (n_tab base)))) (a_index a :: sti :: scols);
      let name := match a_sec_name a with Some n => n | None => sti end in
      (* L676-681: set_index fails when the index column is there twice, or was renamed *)
      if mem_str (a_index a) (name :: sti :: scols) then Err ValueError else
      let sdf := t_rename sti name sdf in
      let cols := filter (fun cd => negb (String.eqb (fst cd) (a_index a))) (t_cols sdf) in
      if existsb (fun c => mem_str c (t_names df2)) (map fst cols) then Err ValueError
      else Ok (mkTab (t_cols df2 ++ cols) (map (join_on (a_index a) (map fst cols) (t_rows sdf)) (t_rows df2)),
               [(name, map (fun c => if String.eqb c sti then name else c) scols)])
    end.

  Definition normalize_prepare (a : norm_args) (base : ent) : NST prepared :=
    types <~ normalize_check a base ;;
    tim <~ normalize_time a base types ;;
    sguard (match fst (fst tim) with Some (_, nt) => negb (String.eqb nt (a_index a)) | None => true end) ValueError ;;;
    copy <~ get_copy ;;
    df2 <~ slift (normalize_first a base copy (fst (fst tim))) ;;
    df3 <~ slift (normalize_second a base df2) ;;
    sret (mkPrep (fst df3) (snd df3) (dset String.eqb (a_index a) TCategorical (snd tim))
                 (match fst (fst tim) with Some (_, nt) => Some nt | None => None end) (snd (fst tim))).

  (** L687-705 *)
  Definition normalize_commit (a : norm_args) (p : prepared) : ST eset unit :=
    entity_from_dataframe (a_new a) (p_df p) (Some (a_index a)) (p_types p) false (p_time p) (p_sec p) (p_sorted p) ;;;
    on_entity (a_base a) (delete_variables (a_add a)) ;;;
    (* L700: base_entity is the object fetched at the start *)
    (if String.eqb (a_new a) (a_base a) then sret tt else on_entity (a_base a) (convert_variable_type (a_index a) TId false)) ;;;
    relate (mkRel (a_new a) (a_index a) (a_base a) (a_index a)) ;;;
    reset_meta.

  (** entityset.py L528-705 [normalize_entity]: the entity set and the caller's list [copy_variables] after the call *)
  Definition normalize_entity (a : norm_args) (given : list string) (s : eset) : eset * list string * res unit :=
    match sent (a_base a) s with
    | Err x => (s, given, Err x)
    | Ok base =>
      match normalize_prepare a base given with
      | (copy, r) =>
        let after := match given with [] => [] | _ => copy end in
        match r with
        | Err x => (s, after, Err x)
        | Ok p => match normalize_commit a p s with (s', r) => (s', after, r) end
        end
      end
    end.

  (** ** Equality *)
  (** variable.py L59-68 through ==: Python asks the subclass first, so only variables of one class are equal *)
  Definition var_eqb (eid1 eid2 : string) (a b : variable) : bool :=
    vtype_eqb (v_type a) (v_type b) && String.eqb (v_id a) (v_id b) && String.eqb eid1 eid2.
  (** equality of dictionaries *)
  Definition strs_eqb (a b : list string) : bool := if list_eq_dec String.string_dec a b then true else false.
  Definition dict_eqb (a b : list (string * list string)) : bool :=
    (List.length a =? List.length b)%nat &&
    forallb (fun kv => match dget String.eqb (fst kv) b with Some v => strs_eqb (snd kv) v | None => false end) a.
  Definition opt_str_eqb (a b : option string) : bool := match a, b with Some a, Some b => String.eqb a b | None, None => true | _, _ => false end.
  (** the set of the variables of one entity; the variables of an entity have different ids *)
  Definition vars_eqb (a b : ent) : bool :=
    (List.length (n_vars a) =? List.length (n_vars b))%nat &&
    forallb (fun v => existsb (var_eqb (n_id a) (n_id b) v) (n_vars b)) (n_vars a) &&
    forallb (fun v => existsb (fun w => var_eqb (n_id a) (n_id b) w v) (n_vars a)) (n_vars b).
  (** entity.py L101-111 *)
  Definition ent_eqb (a b : ent) : bool :=
    String.eqb (n_index a) (n_index b) && opt_str_eqb (n_time a) (n_time b) && dict_eqb (n_sec a) (n_sec b) && vars_eqb a b.
  (** wrangle.py L115-155 [_dataframes_equal]: "empty" is true when there are rows, and where both cells are missing or both
      are present the comparison is overwritten by True.  Tuples are left out. *)
  Definition tables_eqb (a b : table) : bool :=
    let a_empty := match t_rows a with [] => false | _ => true end in
    let b_empty := match t_rows b with [] => false | _ => true end in
    if xorb a_empty b_empty then false
    else if negb a_empty && negb b_empty then
      forallb (fun c => mem_str c (t_names b)) (t_names a) && forallb (fun c => mem_str c (t_names a)) (t_names b) &&
      forallb (fun c => forallb (fun xy => Bool.eqb (is_null (fst xy)) (is_null (snd xy)) || val_eqb (fst xy) (snd xy))
                          (combine (t_column a c) (t_column b c))) (t_names a)
    else true.
  Definition series_eqb (a b : option (list (val * val))) : bool :=
    match a, b with
    | None, None => true
    | Some a, Some b => (List.length a =? List.length b)%nat && forallb (fun xy => val_eqb (fst (fst xy)) (fst (snd xy)) && val_eqb (snd (fst xy)) (snd (snd xy))) (combine a b)
    | _, _ => false
    end.
  (** entity.py L112-128; interesting values are compared as sets *)
  Definition ent_deep_eqb (a b : ent) : bool :=
    ent_eqb a b && series_eqb (n_lti a) (n_lti b) && tables_eqb (n_tab a) (n_tab b) &&
    forallb (fun v => match find (var_eqb (n_id a) (n_id b) v) (n_vars b) with
                      | Some w => forallb (fun x => mem_val x (v_values w)) (v_values v) && forallb (fun x => mem_val x (v_values v)) (v_values w)
                      | None => false end) (n_vars a).
  (** entityset.py L112-123 [__eq__] *)
  Definition eset_eqb_with (eq : ent -> ent -> bool) (a b : eset) : bool :=
    (List.length (s_ents a) =? List.length (s_ents b))%nat &&
    forallb (fun ie => match dget String.eqb (fst ie) (s_ents b) with Some e => eq (snd ie) e | None => false end) (s_ents a) &&
    forallb (fun r => existsb (rel_eqb r) (s_rels b)) (s_rels a).
  Definition eset_eqb : eset -> eset -> bool := eset_eqb_with ent_eqb.
  Definition eset_deep_eqb : eset -> eset -> bool := eset_eqb_with ent_deep_eqb.

  (** ** concat, entityset.py L711-758.  The state is the entity set that receives the rows: a copy, or the receiver itself
      when [inplace]. *)
  Definition rels_eqb (a b : list relationship) : bool :=
    (List.length a =? List.length b)%nat && forallb (fun xy => rel_eqb (fst xy) (snd xy)) (combine a b).
  Definition index_leb (i : string) (a b : row) : bool := val_leb (cell i a) (cell i b).
  (** L731-747 for one entity *)
  Definition concat_table (e o : ent) : table :=
    let names := t_names (n_tab e) in
    let both := t_rows (n_tab e) ++ map (fun r => map (fun c => (c, cell c r)) names) (t_rows (n_tab o)) in
    (* the condition on the columns is always true *)
    let by_cols := match n_created e with Some c => if String.eqb c (n_index e) then names else [n_index e] | None => [n_index e] end in
    let once := first_rows by_cols both in
    mkTab (t_cols (n_tab e))
          (match n_time e with Some ti => isort (row_leb ti (n_index e)) once | None => isort (index_leb (n_index e)) once end).
  Definition concat (self other : eset) : ST eset unit :=
    sguard (eset_eqb self other && rels_eqb (s_rels self) (s_rels other)) AssertionError ;;;
    siter (fun ie => o <~ slift (sent (fst ie) other) ;; update_data (fst ie) (concat_table (snd ie) o) false false) (s_ents self) ;;;
    add_last_time_indexes
      (map fst (filter (fun ie => match n_lti (snd ie), sent (fst ie) other with
                                  | Some _, _ => true
                                  | None, Ok o => match n_lti o with Some _ => true | None => false end
                                  | _, _ => false end) (s_ents self))).

  (** ** Descriptions *)
  (** serialize.py L20-55 [entity_to_description] *)
  Definition describe_entity (e : ent) : edescr :=
    mkED (n_id e) (n_index e) (n_time e) (n_sec e) (match n_lti e with Some _ => true | None => false end) (n_vars e)
         (filter (fun cd => mem_str (fst cd) (map v_id (n_vars e))) (t_cols (n_tab e))).
  Definition str_leb (a b : string) : bool := match String.compare a b with Gt => false | _ => true end.
  (** serialize.py L58-77 [entityset_to_description]: entities sorted by id *)
  Definition describe (s : eset) : descr :=
    mkD (s_id s) (map describe_entity (isort (fun a b => str_leb (n_id a) (n_id b)) (map snd (s_ents s)))) (s_rels s).

  (** deserialize.py L45-77 [description_to_entity] without a path: an empty frame of the described dtypes (L107-119); the
      values and descriptions of the variables are restored.  A missing dtype is object. *)
  Definition empty_frame (d : edescr) : table :=
    mkTab (map (fun v => (v_id v, match dget String.eqb (v_id v) (d_dtypes d) with Some x => x | None => DObj end)) (d_vars d)) [].
  Definition restore_values (vs : list variable) (v : variable) : variable :=
    match find (fun w => String.eqb (v_id w) (v_id v)) vs with Some w => mkVar (v_id v) (v_type v) (v_values w) (v_desc w) | None => v end.
  Definition rebuild_entity (d : edescr) : ST eset unit :=
    entity_from_dataframe (d_id d) (empty_frame d) (Some (d_index d)) (map (fun v => (v_id v, v_type v)) (d_vars d)) false (d_time d) (d_sec d) false ;;;
    on_entity (d_id d) (emod (fun e => with_vars (map (restore_values (d_vars d)) (n_vars e)) e)).
  (** deserialize.py L80-111 [description_to_entityset] *)
  Definition rebuild (d : descr) : ST eset unit :=
    siter rebuild_entity (d_ents d) ;;;
    siter relate (d_rels d) ;;;
    match map d_id (filter d_lti (d_ents d)) with [] => sret tt | l => add_last_time_indexes l end.
  Definition description_to_entityset (d : descr) : res eset :=
    match rebuild d (empty_set (d_name d)) with (s, Ok _) => Ok s | (_, Err x) => Err x end.

  (** entityset.py L147-154 [metadata]: the cached description is reused; nothing is cached when building fails *)
  Definition metadata : ST eset eset :=
    s <~ sget ;;
    match s_meta s with
    | Some d => slift (description_to_entityset d)
    | None => m <~ slift (description_to_entityset (describe s)) ;; smod (with_meta (Some (describe s))) ;;; sret m
    end.
End Ops.
