(** Variable types and the types of features: models variable_types/variable.py (the class hierarchy) and
    feature_base.py L141-202 ([_check_input_types], [variable_type]). *)
From Verif Require Import Base M_Schema M_Feature.

(** variable_types/variable.py L17-427: the classes.  [YNone] stands for a missing variable. *)
Inductive vtyp : Type :=
| YVariable | YUnknown | YDiscrete | YBoolean | YCategorical | YId | YOrdinal | YNumeric | YIndex | YDatetime | YTimeIndex
| YNumericTimeIndex | YDatetimeTimeIndex | YTimedelta | YNaturalLanguage | YText | YLatLong | YZIPCode | YIPAddress | YFullName
| YEmailAddress | YURL | YPhoneNumber | YDateOfBirth | YCountryCode | YSubRegionCode | YFilePath.

Definition vtyp_eq_dec (a b : vtyp) : {a = b} + {a <> b}.
Proof. decide equality. Defined.
Definition vtyp_eqb (a b : vtyp) : bool := if vtyp_eq_dec a b then true else false.

(** the direct base classes *)
Definition parents (t : vtyp) : list vtyp :=
  match t with
  | YVariable => []
  | YCategorical | YOrdinal => [YDiscrete]
  | YId | YZIPCode | YCountryCode | YSubRegionCode => [YCategorical]
  | YNumericTimeIndex => [YTimeIndex; YNumeric]
  | YDatetimeTimeIndex => [YTimeIndex; YDatetime]
  | YDateOfBirth => [YDatetime]
  | YText => [YNaturalLanguage]
  | _ => [YVariable]
  end.
(** [issubclass(a, b)]; the hierarchy is at most four classes deep *)
Fixpoint sub_fuel (n : nat) (a b : vtyp) : bool :=
  vtyp_eqb a b || match n with 0 => false | S n => existsb (fun p => sub_fuel n p b) (parents a) end.
Definition issub (a b : vtyp) : bool := sub_fuel 4 a b.

Section Types.
  (** class attributes of a primitive: [return_type], [input_types] (a list of alternatives, L147-148), [commutative] etc.
      are read by type, not by the functions of [prim] *)
  Variable p_ret : prim -> option vtyp.
  Variable p_inputs : prim -> option (list (list vtyp)).
  (** the type of a variable of the entity set, [None] when there is no such variable *)
  Variable vtypes : string -> string -> option vtyp.

  (** feature_base.py L186-198 *)
  Definition weaken (t : vtyp) : vtyp :=
    match t with YDatetimeTimeIndex => YDatetime | YNumericTimeIndex => YNumeric | YIndex | YId => YCategorical | t => t end.

  (** feature_base.py L176-202 [variable_type], L380, L458.  A base feature's type is never None, so the loop runs once. *)
  Fixpoint ftype (f : feat) : vtyp :=
    match f with
    | FIdent e v _ => match vtypes e v with Some t => t | None => YVariable end
    | FDirect _ b _ => ftype b
    | FAgg p bs _ _ _ _ _ => match p_ret p with Some t => t | None => match bs with b :: _ => weaken (ftype b) | [] => YVariable end end
    | FTrans p bs _ => match p_ret p with Some t => t | None => match bs with b :: _ => weaken (ftype b) | [] => YVariable end end
    | FGroup p bs g _ => match p_ret p with Some t => t | None => match bs with b :: _ => weaken (ftype b) | [] => weaken (ftype g) end end
    | FSlice b _ _ =>
      (* L790: the primitive of the base, PrimitiveBase for a direct feature *)
      match (match b with FAgg p _ _ _ _ _ _ => p_ret p | FTrans p _ _ => p_ret p | FGroup p _ _ _ => p_ret p | _ => None end) with
      | Some t => t | None => weaken (ftype b) end
    end.

  (** [zip(t, base_features)] all match *)
  Fixpoint zip_sub (ts : list vtyp) (fs : list feat) : bool :=
    match ts, fs with
    | t :: ts, f :: fs => issub (ftype f) t && zip_sub ts fs
    | _, _ => true
    end.
  (** feature_base.py L141-156 [_check_input_types] *)
  Definition check_types (p : prim) (fs : list feat) : bool :=
    match fs with
    | [] => true
    | _ => match p_inputs p with None => true | Some ts => existsb (fun t => zip_sub t fs) ts end
    end.
End Types.
