(** Saving an entity set with its data to a directory and reading it back.
    Models entityset/serialize.py L80-181 (write_entity_data, write_data_description, dump_data_description) and
    entityset/deserialize.py L45-125, L128-250 (description_to_entity with a path, read_entity_data, read_data_description,
    read_entityset).  Pandas frames and local directories only: S3, URLs, archives, Dask and Koalas are left out, and so is
    the LatLong parsing of L176-199.  The options encoding, engine and compression are taken to be the same when reading. *)
From Coq Require Import DecimalString.
From Verif Require Import Base M_Schema M_Table M_LastTime M_Time M_Entities.
Local Open Scope string_scope.
Local Open Scope list_scope.

(** ** Columns and frames as pandas stores them *)
(** a frame from its columns *)
Definition from_columns (n : nat) (cs : list (string * (dtype * list val))) : table :=
  mkTab (map (fun c => (fst c, fst (snd c))) cs)
        (map (fun k => map (fun c => (fst c, nth k (snd (snd c)) VNull)) cs) (seq 0 n)).

(** Series.astype(d) of a column of dtype [d0].  A missing number becomes True as a boolean and is refused as an integer.
    Simplified: texts are never turned into numbers or dates (read_csv has recognised the numbers, and a date is written as
    the number that stands for it in the model). *)
Definition cast_value (d : dtype) (v : val) : res val :=
  match d, v with
  | DInt, VNum z => Ok (VNum z) | DInt, VBool b => Ok (VNum (if b then 1 else 0)%Z) | DInt, _ => Err ValueError
  | DFloat, VStr _ => Err ValueError | DFloat, VBool b => Ok (VNum (if b then 1 else 0)%Z) | DFloat, v => Ok v
  | DDate, VStr _ => Err ValueError | DDate, v => Ok v
  | DBool, VBool b => Ok (VBool b) | DBool, VNum z => Ok (VBool (negb (Z.eqb z 0))) | DBool, VNull => Ok (VBool true) | DBool, VStr s => Ok (VBool (negb (String.eqb s "")))
  | _, v => Ok v
  end.
Definition cast (d d0 : dtype) (vs : list val) : res (list val) := if dtype_eqb d d0 then Ok vs else mapM (cast_value d) vs.

(** deserialize.py L174 dataframe.astype(dtypes): every column named must be there *)
Definition astype (ds : list (string * dtype)) (t : table) : res table :=
  if forallb (fun cd => mem_str (fst cd) (t_names t)) ds then
    do cs <- mapM (fun cd => match dget String.eqb (fst cd) ds with
                             | Some d => do vs <- cast d (snd cd) (t_column t (fst cd)); Ok (fst cd, (d, vs))
                             | None => Ok (fst cd, (snd cd, t_column t (fst cd)))
                             end) (t_cols t);
    Ok (from_columns (List.length (t_rows t)) cs)
  else Err KeyError.

(** to_csv of one cell *)
Definition show_cell (v : val) : string :=
  match v with VNull => "" | VNum z => string_of_Z z | VBool b => if b then "True" else "False" | VStr s => s end.
(** the texts pandas.read_csv takes for missing values *)
Definition na_words : list string :=
  [""; "#N/A"; "#N/A N/A"; "#NA"; "-1.#IND"; "-1.#QNAN"; "-NaN"; "-nan"; "1.#IND"; "1.#QNAN"; "<NA>"; "N/A"; "NA"; "NULL"; "NaN"; "n/a"; "nan"; "null"].
(** the texts it takes for whole numbers *)
Definition read_Z (s : string) : option Z := match NilEmpty.int_of_string s with Some (Decimal.Pos Decimal.Nil) | Some (Decimal.Neg Decimal.Nil) | None => None | Some i => Some (Z.of_int i) end.
Definition read_bool (s : string) : option bool := if String.eqb s "True" then Some true else if String.eqb s "False" then Some false else None.
(** read_csv of one column: numbers if every field that is not missing is one, else booleans, else texts.  Fractions, dates
    and other spellings of booleans are left out. *)
Definition read_column (fields : list string) : dtype * list val :=
  let there := filter (fun f => negb (mem_str f na_words)) fields in
  let hole := existsb (fun f => mem_str f na_words) fields in
  let fill (g : string -> val) := map (fun f => if mem_str f na_words then VNull else g f) fields in
  if forallb (fun f => match read_Z f with Some _ => true | None => false end) there then
    (if hole then DFloat else DInt, fill (fun f => match read_Z f with Some z => VNum z | None => VNull end))
  else if forallb (fun f => match read_bool f with Some _ => true | None => false end) there then
    (if hole then DObj else DBool, fill (fun f => match read_bool f with Some b => VBool b | None => VNull end))
  else (DObj, fill VStr).

(** Series.astype(str) of an object column (serialize.py L118-119); a missing value is taken to be held as nan *)
Definition as_text (v : val) : val :=
  VStr (match v with VNull => "nan" | VNum z => string_of_Z z | VBool b => if b then "True" else "False" | VStr s => s end).

(** ** Files *)
Inductive format : Type := Csv (sep : string) | Parquet | Pickle.
Definition extension (f : format) : string := match f with Csv _ => "csv" | Parquet => "parquet" | Pickle => "pickle" end.
(** serialize.py L128: the description of an entity with its location, type and parameters *)
Record stored : Type := mkStored { st_descr : edescr; st_location : string; st_format : format }.
Inductive file : Type :=
| FDescription (name : string) (ents : list stored) (rels : list relationship)
| FCsv (sep : string) (header : list string) (lines : list (list string))
| FParquet (t : table)
| FPickle (t : table)
| FTorn.                                      (* the process stopped while the file was being written *)
(** a directory; opening a file for writing replaces it *)
Definition dir : Type := list (string * file).
Definition write (d : dir) (pf : string * file) : dir := dset String.eqb (fst pf) (snd pf) d.
Definition write_all (d : dir) (ops : list (string * file)) : dir := fold_left write ops d.

(** serialize.py L92-97 *)
Definition location (f : format) (id : string) : string := ("data/" ++ id ++ "." ++ extension f)%string.
Definition description_file : string := "data_description.json".
(** L80-128 [write_entity_data] *)
Definition entity_file (f : format) (t : table) : file :=
  match f with
  | Csv sep => FCsv sep (t_names t) (map (fun r => map (fun c => show_cell (cell c r)) (t_names t)) (t_rows t))
  | Parquet => FParquet (from_columns (List.length (t_rows t))
                           (map (fun cd => (fst cd, (snd cd, if dtype_eqb (snd cd) DObj then map as_text (t_column t (fst cd)) else t_column t (fst cd)))) (t_cols t)))
  | Pickle => FPickle t
  end.
(** L155-163 [dump_data_description]: the files that are written, in order; the description comes last.  Nothing is removed
    from the directory first (L152-153, [makedirs(exist_ok=True)]). *)
Definition saves (f : format) (s : eset) : list (string * file) :=
  map (fun ie => (location f (n_id (snd ie)), entity_file f (n_tab (snd ie)))) (s_ents s) ++
  [(description_file, FDescription (d_name (describe s)) (map (fun d => mkStored d (location f (d_id d)) f) (d_ents (describe s))) (d_rels (describe s)))].
Definition save (f : format) (s : eset) (d : dir) : dir := write_all d (saves f s).

(** the directory when the process stops during the sequence of writes: after some of them, perhaps within the next one *)
Definition stopped (ops : list (string * file)) (d d' : dir) : Prop :=
  exists n, (n < List.length ops)%nat /\
    (d' = write_all d (firstn n ops) \/ exists p f, nth_error ops n = Some (p, f) /\ d' = write (write_all d (firstn n ops)) (p, FTorn)).

(** read_csv is not told the separator (deserialize.py L154-160): a file written with another one has a single column.
    Simplified: commas inside the fields of such a file are not looked at. *)
Definition read_csv (sep : string) (header : list string) (lines : list (list string)) : table :=
  let '(header, lines) := if String.eqb sep "," then (header, lines) else ([String.concat sep header], map (fun l => [String.concat sep l]) lines) in
  from_columns (List.length lines)
    (map (fun c => (c, read_column (map (fun l => match dget String.eqb c (combine header l) with Some f => f | None => "" end) lines))) header).

(** deserialize.py L128-201 [read_entity_data]; FileNotFoundError and an unreadable file are RuntimeError *)
Definition read_entity_data (d : dir) (st : stored) : res table :=
  do t <- match st_format st, dget String.eqb (st_location st) d with
          | Csv _, Some (FCsv sep h ls) => Ok (read_csv sep h ls)
          | Parquet, Some (FParquet t) => Ok t
          | Pickle, Some (FPickle t) => Ok t
          | _, _ => Err RuntimeError
          end;
  astype (d_dtypes (st_descr st)) t.

Section Read.
  Variables to_numeric to_datetime : list val -> res (dtype * list val).
  Variable obj_kind : val -> res (option tkind).
  Variable infer : table -> string -> vtype.
  Variable touched : list relationship -> list string -> list string.
  Variable last_times : eset -> string -> list (val * val).

  (** deserialize.py L43-77 [description_to_entity] with a path *)
  Definition load_frame (d : edescr) (t : table) : ST eset unit :=
    entity_from_dataframe to_numeric to_datetime obj_kind infer (d_id d) t (Some (d_index d)) (map (fun v => (v_id v, v_type v)) (d_vars d)) false (d_time d) (d_sec d) false ;;;
    on_entity (d_id d) (emod (fun e => with_vars (map (restore_values (d_vars d)) (n_vars e)) e)).
  Definition load_entity (d : dir) (st : stored) : ST eset unit :=
    t <~ slift (read_entity_data d st) ;;
    load_frame (st_descr st) t.

  (** L80-111 [description_to_entityset] *)
  Definition load (d : dir) (ents : list stored) (rels : list relationship) : ST eset unit :=
    siter (load_entity d) ents ;;;
    siter (relate to_numeric to_datetime) rels ;;;
    match map d_id (filter d_lti (map st_descr ents)) with [] => sret tt | l => add_last_time_indexes touched last_times l end.

  (** L204-222, L225-250 [read_data_description], [read_entityset] *)
  Definition read_entityset (d : dir) : res eset :=
    match dget String.eqb description_file d with
    | Some (FDescription name ents rels) =>
      match load d ents rels (empty_set name) with (s, Ok _) => Ok s | (_, Err x) => Err x end
    | _ => Err RuntimeError
    end.
End Read.
