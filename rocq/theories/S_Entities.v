(** What a user expects of entity sets: small definitions used by the theorems on entity set operations. *)
From Verif Require Import Base M_Schema M_Table M_LastTime M_Entities.

(** dictionaries have one entry per key *)
Definition dicts (s : eset) : Prop :=
  NoDup (map fst (s_ents s)) /\ forall id e, In (id, e) (s_ents s) -> n_id e = id /\ NoDup (map fst (n_sec e)) /\ NoDup (map v_id (n_vars e)).

(** two entities with the same schema *)
Definition same_entity (a b : ent) : Prop :=
  n_index a = n_index b /\ n_time a = n_time b /\
  (forall k, dget String.eqb k (n_sec a) = dget String.eqb k (n_sec b)) /\
  (forall id ty, (exists v, In v (n_vars a) /\ v_id v = id /\ v_type v = ty) <-> (exists v, In v (n_vars b) /\ v_id v = id /\ v_type v = ty)).

(** the same entities, by id *)
Definition same_entities (a b : eset) : Prop :=
  forall id, match dget String.eqb id (s_ents a), dget String.eqb id (s_ents b) with
             | Some x, Some y => same_entity x y
             | None, None => True
             | _, _ => False
             end.

(** the same data in every entity *)
Definition same_data (a b : eset) : Prop :=
  forall id x y, dget String.eqb id (s_ents a) = Some x -> dget String.eqb id (s_ents b) = Some y -> t_rows (n_tab x) = t_rows (n_tab y).

(** ** relationships *)
(** a relationship joins a variable of the child, not its index, to the index of the parent; both columns have one dtype *)
Definition linked (s : eset) (r : relationship) : Prop :=
  exists ce pe d, dget String.eqb (r_ce r) (s_ents s) = Some ce /\ dget String.eqb (r_pe r) (s_ents s) = Some pe /\
    r_pv r = n_index pe /\ r_cv r <> n_index ce /\ t_dtype (n_tab ce) (r_cv r) = Ok d /\ t_dtype (n_tab pe) (r_pv r) = Ok d.
Definition good_rels (s : eset) : Prop := NoDup (s_rels s) /\ Forall (linked s) (s_rels s).
(** every entity has rows *)
Definition all_have_rows (s : eset) : Prop := forall id e, dget String.eqb id (s_ents s) = Some e -> t_rows (n_tab e) <> [].
(** the two states differ at most in the types recorded for variables *)
Definition types_only (s s' : eset) : Prop :=
  s_id s' = s_id s /\ s_rels s' = s_rels s /\ s_kind s' = s_kind s /\ s_meta s' = s_meta s /\
  forall id, match dget String.eqb id (s_ents s), dget String.eqb id (s_ents s') with
             | Some e, Some e' => n_id e' = n_id e /\ n_tab e' = n_tab e /\ n_index e' = n_index e /\ n_time e' = n_time e /\
                                  n_sec e' = n_sec e /\ n_lti e' = n_lti e /\ map v_id (n_vars e') = map v_id (n_vars e)
             | None, None => True
             | _, _ => False
             end.
(** what a new relationship must satisfy *)
Definition acceptable (s : eset) (r : relationship) : Prop :=
  linked s r /\ (exists ce v, dget String.eqb (r_ce r) (s_ents s) = Some ce /\ In v (n_vars ce) /\ v_id v = r_cv r) /\
  (exists pe v, dget String.eqb (r_pe r) (s_ents s) = Some pe /\ In v (n_vars pe) /\ v_id v = r_pv r).

(** ** tables *)
(** the index is a column without repeated values *)
Definition indexed (e : ent) : Prop := In (n_index e) (t_names (n_tab e)) /\ NoDup (t_column (n_tab e) (n_index e)).
(** the values of column [c] are datetimes when the entity set is a datetime one, and numbers when it is numeric *)
Definition column_of_kind (e : ent) (c : string) (k : tkind) : Prop :=
  forall d, t_rows (n_tab e) <> [] -> t_dtype (n_tab e) c = Ok d -> (d = DDate -> k = KDate) /\ (d = DInt \/ d = DFloat -> k = KNum).
(** rows in the order of time, rows of the same time in the order of the index *)
Definition in_order (ti i : string) (rs : list row) : Prop :=
  Sorted.StronglySorted (fun a b => (cell ti a <> cell ti b /\ val_leb (cell ti a) (cell ti b) = true) \/
                             (cell ti a = cell ti b /\ val_leb (cell i a) (cell i b) = true)) rs.

(** ** normalisation *)
(** numeric variables are stored as numbers and datetime variables as datetimes *)
Definition well_typed (e : ent) : Prop :=
  forall v d, In v (n_vars e) -> t_dtype (n_tab e) (v_id v) = Ok d ->
    (v_type v = TNumeric \/ v_type v = TNumericTimeIndex -> d = DInt \/ d = DFloat) /\
    (v_type v = TDatetime \/ v_type v = TDatetimeTimeIndex -> d = DDate).
(** the first row with value [v] in column [c] *)
Definition first_with (c : string) (v : val) (rs : list row) : option row := find (fun r => val_eqb (cell c r) v) rs.
(** the last row with that value *)
Definition last_with (c : string) (v : val) (rs : list row) : option row := first_with c v (rev rs).
(** the type of a variable *)
Definition vtype_of (e : ent) (c : string) : option vtype := option_map v_type (find (fun v => String.eqb (v_id v) c) (n_vars e)).
(** a variable that was a time index is an ordinary date or number in another entity *)
Definition ordinary (ty : vtype) : vtype :=
  if vtype_eqb ty TDatetimeTimeIndex then TDatetime else if vtype_eqb ty TNumericTimeIndex then TNumeric else ty.
(** the values of the columns [cs] depend on the value of [c] only *)
Definition determines (c : string) (cs : list string) (rs : list row) : Prop :=
  forall r1 r2 x, In r1 rs -> In r2 rs -> cell c r1 = cell c r2 -> In x cs -> cell x r1 = cell x r2.

(** ** combination *)
(** two rows with the same values in the columns [cs] *)
Definition same_on (cs : list string) (q r : row) : Prop := forall c, In c cs -> cell c q = cell c r.
(** [c] is a time column of kind [k], in the data and by its declared type *)
Definition timed (k : tkind) (e : ent) (c : string) : Prop :=
  (exists d, t_dtype (n_tab e) c = Ok d /\ (d = DDate /\ k = KDate \/ (d = DInt \/ d = DFloat) /\ k = KNum)) /\
  exists v, In v (n_vars e) /\ v_id v = c /\
    (k = KDate /\ (v_type v = TDatetime \/ v_type v = TDatetimeTimeIndex) \/ k = KNum /\ (v_type v = TNumeric \/ v_type v = TNumericTimeIndex)).
(** the variables are the columns, the index is one of them, and the time columns are of the kind of the entity set *)
Definition sound (k : option tkind) (e : ent) : Prop :=
  NoDup (map v_id (n_vars e)) /\ List.length (t_cols (n_tab e)) = List.length (n_vars e) /\ incl (map v_id (n_vars e)) (t_names (n_tab e)) /\
  In (n_index e) (map v_id (n_vars e)) /\
  forall c, n_time e = Some c \/ In c (map fst (n_sec e)) -> c <> n_index e /\ exists k', k = Some k' /\ timed k' e c.

(** ** descriptions *)
(** what every entity made through the API satisfies as long as variable types are not converted by hand *)
Definition time_typed (k : option tkind) (ty : vtype) : Prop :=
  k = Some KDate /\ (ty = TDatetime \/ ty = TDatetimeTimeIndex) \/ k = Some KNum /\ (ty = TNumeric \/ ty = TNumericTimeIndex).
Definition describable (k : option tkind) (e : ent) : Prop :=
  NoDup (map v_id (n_vars e)) /\ (forall v, In v (n_vars e) -> exists d, t_dtype (n_tab e) (v_id v) = Ok d) /\
  (exists v, In v (n_vars e) /\ v_id v = n_index e /\ v_type v = TIndex) /\
  (forall ti, n_time e = Some ti -> ti <> n_index e /\ exists v d, In v (n_vars e) /\ v_id v = ti /\ t_dtype (n_tab e) ti = Ok d /\
     (d = DDate /\ v_type v = TDatetimeTimeIndex /\ k = Some KDate \/ d <> DDate /\ v_type v = TNumericTimeIndex /\ k = Some KNum)) /\
  (n_time e = None -> n_sec e = [] /\ forall v, In v (n_vars e) -> v_type v <> TDatetimeTimeIndex) /\
  (forall c cs, In (c, cs) (n_sec e) -> In c cs /\ exists v, In v (n_vars e) /\ v_id v = c /\ time_typed k (v_type v)).
(** a relationship whose link is a variable of type Id *)
Definition link_typed (s : eset) (r : relationship) : Prop :=
  linked s r /\ exists ce v, dget String.eqb (r_ce r) (s_ents s) = Some ce /\ In v (n_vars ce) /\ v_id v = r_cv r /\ v_type v = TId.
(** the same schema: everything but the data and the last time indexes; variables may be listed in another order *)
Definition same_schema (e e' : ent) : Prop :=
  n_id e' = n_id e /\ n_index e' = n_index e /\ n_time e' = n_time e /\ n_sec e' = n_sec e /\ Sorting.Permutation.Permutation (n_vars e) (n_vars e') /\
  forall v, In v (n_vars e) -> t_dtype (n_tab e') (v_id v) = t_dtype (n_tab e) (v_id v).
