(** What it means for an entity set to come back from a directory unchanged. *)
From Coq Require Import Sorting.Permutation DecimalString.
From Verif Require Import Base M_Schema M_Table M_Entities S_Entities M_Files.
Local Open Scope string_scope.
Local Open Scope list_scope.

(** every row of the frame has its columns, in order *)
Definition framed (t : table) : Prop := NoDup (t_names t) /\ forall r, In r (t_rows t) -> map fst r = t_names t.
(** the columns of an entity are its variables, the index has no value twice, and the data has the type the variable says *)
Definition storable (k : option tkind) (e : ent) : Prop :=
  describable k e /\ Permutation (map v_id (n_vars e)) (t_names (n_tab e)) /\ framed (n_tab e) /\ NoDup (t_column (n_tab e) (n_index e)) /\
  forall v d, In v (n_vars e) -> t_dtype (n_tab e) (v_id v) = Ok d ->
    (v_type v = TNumeric \/ v_type v = TNumericTimeIndex -> d = DInt \/ d = DFloat) /\ (v_type v = TDatetime \/ v_type v = TDatetimeTimeIndex -> d = DDate).
Definition ordered (e : ent) : Prop := match n_time e with Some ti => in_order ti (n_index e) (t_rows (n_tab e)) | None => True end.
(** the same values in every column, row by row *)
Definition same_data (e e' : ent) : Prop :=
  List.length (t_rows (n_tab e')) = List.length (t_rows (n_tab e)) /\
  forall v, In v (n_vars e) -> t_column (n_tab e') (v_id v) = t_column (n_tab e) (v_id v).
(** the same rows, in the order of the time index and then of the index *)
Definition same_rows_sorted (e e' : ent) : Prop :=
  exists rs, Permutation rs (t_rows (n_tab e)) /\ (forall ti, n_time e = Some ti -> in_order ti (n_index e) rs) /\
    List.length (t_rows (n_tab e')) = List.length rs /\ forall v, In v (n_vars e) -> t_column (n_tab e') (v_id v) = map (cell (v_id v)) rs.

(** a text that is a whole number: digits, perhaps after a minus sign *)
Definition numeral (s : string) : Prop := exists i, i <> Decimal.Pos Decimal.Nil /\ i <> Decimal.Neg Decimal.Nil /\ NilEmpty.string_of_int i = s.
(** columns whose values are the same after writing them as text and reading the text back *)
Definition csv_safe (d : dtype) (col : list val) : Prop :=
  (d = DInt /\ forall v, In v col -> exists z, v = VNum z) \/
  ((d = DFloat \/ d = DDate) /\ forall v, In v col -> v = VNull \/ exists z, v = VNum z) \/
  (d = DBool /\ forall v, In v col -> exists b, v = VBool b) \/
  (d = DObj /\ (forall v, In v col -> v = VNull \/ exists s, v = VStr s /\ ~ In s na_words) /\
     (exists s, In (VStr s) col /\ ~ numeral s) /\ exists s, In (VStr s) col /\ s <> "True" /\ s <> "False").
Definition parquet_safe (d : dtype) (col : list val) : Prop := d = DObj -> forall v, In v col -> exists s, v = VStr s.
Definition safe (f : format) (e : ent) : Prop :=
  match f with
  | Pickle => True
  | Parquet => forall c d, t_dtype (n_tab e) c = Ok d -> parquet_safe d (t_column (n_tab e) c)
  | Csv sep => sep = "," /\ forall c d, t_dtype (n_tab e) c = Ok d -> csv_safe d (t_column (n_tab e) c)
  end.
