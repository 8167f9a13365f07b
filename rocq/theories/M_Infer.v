(** Inferring variable types from a dataframe: utils/entity_utils.py L15-96 [infer_variable_types] and L204-226 [col_is_datetime].
    Simplifications: pandas dataframes only; whether a value can be read as a number or as a date is decided value by value
    (pd.to_numeric, pd.to_datetime); the lengths of texts are whole numbers and their mean is compared exactly; dtypes are the
    classes that the code tells apart. *)
From Verif Require Import Base M_Types.
Local Open Scope Z_scope.

(** dtypes: object; bool; category; numbers; datetime64; StringDtype (its name contains "str"); any other (timedelta64, period, ...) *)
Inductive dkind : Type := KObject | KBool | KCategory | KNumber | KDatetime | KString | KOther.
Definition dkind_eqb (a b : dkind) : bool :=
  match a, b with KObject, KObject | KBool, KBool | KCategory, KCategory | KNumber, KNumber | KDatetime, KDatetime | KString, KString | KOther, KOther => true | _, _ => false end.

Section Infer.
  (** values: equality of [unique], missing values, datetime objects, readable as a number, readable as a date, [len] where there is one *)
  Variable cellv : Type.
  Variable same : cellv -> cellv -> bool.
  Variable missing is_datetime numeric_text date_text : cellv -> bool.
  Variable len : cellv -> option Z.
  (** whether a column of objects has the .str accessor (else AttributeError) *)
  Variable has_str : list cellv -> bool.
  (** Series.sample(n) *)
  Variable sample : nat -> list cellv -> list cellv.
  Record icol : Type := mkIcol { o_name : string; o_dtype : dkind; o_vals : list cellv }.

  (** L204-226 *)
  Definition col_is_datetime (c : icol) : bool :=
    if dkind_eqb (o_dtype c) KDatetime || match o_vals c with v :: _ => is_datetime v | [] => false end then true
    else
      let known := filter (fun v => negb (missing v)) (o_vals c) in
      if forallb numeric_text known then false
      else if dkind_eqb (o_dtype c) KString || dkind_eqb (o_dtype c) KObject then forallb date_text known
      else false.

  (** L64, L80: min(10000, len) values *)
  Definition drawn (c : icol) : list cellv := sample (Nat.min 10000 (List.length (o_vals c))) (o_vals c).
  (** L68-69: sample.str.len().mean() > 50, the mean of nothing being NaN *)
  Definition long_texts (vs : list cellv) : bool :=
    let ls := flat_map (fun v => match len v with Some n => [n] | None => [] end) vs in
    Z.ltb (50 * Z.of_nat (List.length ls)) (fold_right Z.add 0 ls).
  (** L81-84: n_unique / size < .05 *)
  Definition few_values (vs : list cellv) : bool := Z.ltb (20 * Z.of_nat (List.length (dedup_by same [] vs))) (Z.of_nat (List.length vs)).

  (** L35-94 for one column; [prev] is what inferred_type holds from the column before *)
  Definition infer_one (assumed links : list string) (prev : vtyp) (c : icol) : vtyp :=
    if mem_str (o_name c) assumed then if col_is_datetime c then YDatetime else YNumeric
    else if mem_str (o_name c) links then YCategorical
    else match o_dtype c with
    | KObject =>
      match o_vals c with
      | [] => YCategorical
      | _ =>
        if col_is_datetime c then YDatetime
        else if has_str (drawn c) && long_texts (drawn c) then YNaturalLanguage else YCategorical
      end
    | KBool => YBoolean
    | KCategory => YCategorical
    | KNumber => YNumeric
    | _ =>
      if col_is_datetime c then YDatetime
      else match o_vals c with
      | [] => prev
      | _ => if few_values (drawn c) then YCategorical else YNumeric
      end
    end.

  (** L31-34: the time index and the first secondary time index *)
  Definition assumed_datetime (time_index : option string) (secondary : list string) : list string :=
    match time_index with Some t => [t] | None => [] end ++ match secondary with s :: _ => [s] | [] => [] end.
  Fixpoint infer_from (assumed links given : list string) (prev : vtyp) (cs : list icol) : list (string * vtyp) :=
    match cs with
    | [] => []
    | c :: cs =>
      if mem_str (o_name c) given then infer_from assumed links given prev cs
      else let t := infer_one assumed links prev c in (o_name c, t) :: infer_from assumed links given t cs
    end.
  Definition infer_variable_types (cs : list icol) (links given : list string) (time_index : option string) (secondary : list string) : list (string * vtyp) :=
    infer_from (assumed_datetime time_index secondary) links given YUnknown cs.
End Infer.
