(** Data frames, entities and entity sets (the data part).
    pandas operations are written as list functions; see DESIGN.md for the trusted reading. *)
From Verif Require Import Base M_Schema.

(** A row: column name -> cell, in column order. *)
Definition row : Type := list (string * val).

(** pandas.DataFrame: ordered column names and rows. *)
Record df : Type := mkDf { cols : list string; rows : list row }.

(** cell access; rows of a well-formed frame have all its columns *)
Definition cell (c : string) (r : row) : val :=
  match dget String.eqb c r with Some v => v | None => VNull end.

(** df[c] raises KeyError when the column does not exist *)
Definition check_col (d : df) (c : string) : res unit :=
  if mem_str c (cols d) then Ok tt else Err KeyError.

(** df[columns] *)
Definition select_cols (d : df) (cs : list string) : res df :=
  do _ <- mapM (check_col d) cs;
  Ok (mkDf cs (map (fun r => map (fun c => (c, cell c r)) cs) (rows d))).

(** df[mask] with a row predicate *)
Definition filter_df (f : row -> bool) (d : df) : df := mkDf (cols d) (filter f (rows d)).

(** entityset/entity.py L39-82: the data-related attributes of an Entity.
    [e_lti] is [last_time_index]: None, or a series from index value to time (null = NaT). *)
Record entity : Type := mkEntity {
  e_id : string;
  e_index : string;
  e_time : option string;
  e_sec : list (string * list string);     (* secondary_time_index: {time column: columns} *)
  e_lti : option (list (val * val));
  e_df : df
}.

(** entityset/entityset.py L52-104: entities by id, relationships. *)
Record entityset : Type := mkES { es_ents : list entity; es_rels : list relationship }.

(** entityset.py L128-141 [EntitySet.__getitem__] *)
Definition es_get (es : entityset) (eid : string) : res entity :=
  match find (fun e => String.eqb (e_id e) eid) (es_ents es) with
  | Some e => Ok e
  | None => Err KeyError
  end.

(** Well-formed frame: columns distinct, every row has exactly the columns, in order. *)
Definition wf_df (d : df) : Prop :=
  NoDup (cols d) /\ forall r, In r (rows d) -> map fst r = cols d.

(** Well-formed entity: the declared columns exist, index values are distinct. *)
Definition wf_entity (e : entity) : Prop :=
  wf_df (e_df e) /\
  In (e_index e) (cols (e_df e)) /\
  (forall t, e_time e = Some t -> In t (cols (e_df e))) /\
  (forall s cs, In (s, cs) (e_sec e) -> In s (cols (e_df e)) /\ In s cs /\ incl cs (cols (e_df e))) /\
  NoDup (map (cell (e_index e)) (rows (e_df e))).
