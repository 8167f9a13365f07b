(** Which type a column should be given, in words: vocabulary of C77. *)
From Coq Require Import Permutation.
From Verif Require Import Base M_Types M_Infer.
Local Open Scope Z_scope.

Section Spec.
  Variable cellv : Type.
  Variable same : cellv -> cellv -> bool.
  Variable missing is_datetime numeric_text date_text : cellv -> bool.
  Variable len : cellv -> option Z.
  Notation icol := (icol cellv).

  (** the column holds dates: by its dtype, by its first value, or because its texts can be read as dates and not all as numbers *)
  Inductive dates (c : icol) : Prop :=
  | dates_dtype : o_dtype _ c = KDatetime -> dates c
  | dates_first v vs : o_vals _ c = v :: vs -> is_datetime v = true -> dates c
  | dates_text : o_dtype _ c = KString \/ o_dtype _ c = KObject -> (exists v, In v (o_vals _ c) /\ missing v = false /\ numeric_text v = false) ->
      (forall v, In v (o_vals _ c) -> missing v = false -> date_text v = true) -> dates c.
  (** the texts of a list of values are longer than 50 characters on average; [ls] are the lengths, of the values that have one *)
  Definition long (vs : list cellv) : Prop :=
    exists ls, Permutation (map Some ls) (filter (fun o => match o with Some _ => true | None => false end) (map len vs)) /\ 50 * Z.of_nat (List.length ls) < fold_right Z.add 0 ls.
  (** fewer than one in twenty values are different *)
  Definition repetitive (vs : list cellv) : Prop :=
    exists us, (forall u, In u us -> In u vs) /\ (forall v, In v vs -> exists u, In u us /\ same v u = true) /\ ForallOrdPairs (fun a b => same a b = false) us /\ 20 * Z.of_nat (List.length us) < Z.of_nat (List.length vs).

  (** the type of a column, by its role and its values *)
  Inductive deserves (assumed links : list string) (c : icol) : vtyp -> Prop :=
  | d_time_date : In (o_name _ c) assumed -> dates c -> deserves assumed links c YDatetime
  | d_time_number : In (o_name _ c) assumed -> ~ dates c -> deserves assumed links c YNumeric
  | d_link : ~ In (o_name _ c) assumed -> In (o_name _ c) links -> deserves assumed links c YCategorical
  | d_bool : ~ In (o_name _ c) assumed -> ~ In (o_name _ c) links -> o_dtype _ c = KBool -> deserves assumed links c YBoolean
  | d_category : ~ In (o_name _ c) assumed -> ~ In (o_name _ c) links -> o_dtype _ c = KCategory -> deserves assumed links c YCategorical
  | d_number : ~ In (o_name _ c) assumed -> ~ In (o_name _ c) links -> o_dtype _ c = KNumber -> deserves assumed links c YNumeric
  | d_object_empty : ~ In (o_name _ c) assumed -> ~ In (o_name _ c) links -> o_dtype _ c = KObject -> o_vals _ c = [] -> deserves assumed links c YCategorical
  | d_date : ~ In (o_name _ c) assumed -> ~ In (o_name _ c) links -> In (o_dtype _ c) [KObject; KDatetime; KString; KOther] -> (o_dtype _ c = KObject -> o_vals _ c <> []) -> dates c -> deserves assumed links c YDatetime
  | d_text : ~ In (o_name _ c) assumed -> ~ In (o_name _ c) links -> o_dtype _ c = KObject -> o_vals _ c <> [] -> ~ dates c -> long (o_vals _ c) -> deserves assumed links c YNaturalLanguage
  | d_word : ~ In (o_name _ c) assumed -> ~ In (o_name _ c) links -> o_dtype _ c = KObject -> o_vals _ c <> [] -> ~ dates c -> ~ long (o_vals _ c) -> deserves assumed links c YCategorical
  | d_few : ~ In (o_name _ c) assumed -> ~ In (o_name _ c) links -> In (o_dtype _ c) [KString; KOther] -> o_vals _ c <> [] -> ~ dates c -> repetitive (o_vals _ c) -> deserves assumed links c YCategorical
  | d_many : ~ In (o_name _ c) assumed -> ~ In (o_name _ c) links -> In (o_dtype _ c) [KString; KOther] -> o_vals _ c <> [] -> ~ dates c -> ~ repetitive (o_vals _ c) -> deserves assumed links c YNumeric.
End Spec.

