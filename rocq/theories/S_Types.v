(** Specification of variable types and of the types of features. *)
From Verif Require Import Base M_Schema M_Feature M_Types.
From Coq Require Import Relations.

(** the documented kinds of variables: which kind is a special case of which *)
Inductive extends : vtyp -> vtyp -> Prop :=
| ex_top t : In t [YUnknown; YDiscrete; YBoolean; YNumeric; YIndex; YDatetime; YTimeIndex; YTimedelta; YNaturalLanguage; YLatLong; YIPAddress; YFullName; YEmailAddress; YURL; YPhoneNumber; YFilePath] -> extends t YVariable
| ex_discrete t : In t [YCategorical; YOrdinal] -> extends t YDiscrete
| ex_categorical t : In t [YId; YZIPCode; YCountryCode; YSubRegionCode] -> extends t YCategorical
| ex_time t : In t [YNumericTimeIndex; YDatetimeTimeIndex] -> extends t YTimeIndex
| ex_numeric : extends YNumericTimeIndex YNumeric
| ex_datetime t : In t [YDatetimeTimeIndex; YDateOfBirth] -> extends t YDatetime
| ex_text : extends YText YNaturalLanguage.
Definition kind_of : vtyp -> vtyp -> Prop := clos_refl_trans vtyp extends.

(** a value taken out of the column it identified or ordered no longer does so *)
Inductive demoted : vtyp -> vtyp -> Prop :=
| dem_dt : demoted YDatetimeTimeIndex YDatetime
| dem_num : demoted YNumericTimeIndex YNumeric
| dem_index : demoted YIndex YCategorical
| dem_id : demoted YId YCategorical
| dem_other t : ~ In t [YDatetimeTimeIndex; YNumericTimeIndex; YIndex; YId] -> demoted t t.

Section Typed.
  Variables (p_ret : prim -> option vtyp) (vtypes : string -> string -> option vtyp).
  (** the primitive of a feature *)
  Definition prim_of (f : feat) : option prim :=
    match f with FAgg p _ _ _ _ _ _ => Some p | FTrans p _ _ => Some p | FGroup p _ _ _ => Some p
               | FSlice (FAgg p _ _ _ _ _ _) _ _ | FSlice (FTrans p _ _) _ _ | FSlice (FGroup p _ _ _) _ _ => Some p | _ => None end.
  (** [typed f t]: a variable has its own type, a value of a parent keeps its type, a result has the type its primitive declares
      or, if it declares none, the demoted type of the first input *)
  Inductive typed : feat -> vtyp -> Prop :=
  | ty_ident e v nm t : vtypes e v = Some t -> typed (FIdent e v nm) t
  | ty_direct r b nm t : typed b t -> typed (FDirect r b nm) t
  | ty_declared f p t : prim_of f = Some p -> p_ret p = Some t -> typed f t
  | ty_inherited f p b t t' : prim_of f = Some p -> p_ret p = None -> hd_error (fbases f) = Some b -> typed b t -> demoted t t' -> typed f t'.
  (** every feature inside [f] has inputs, every variable exists and parts are taken of results only *)
  Definition formed (f : feat) : Prop :=
    match f with
    | FIdent e v _ => vtypes e v <> None
    | FDirect _ _ _ => True
    | FSlice (FAgg _ _ _ _ _ _ _) _ _ | FSlice (FTrans _ _ _) _ _ | FSlice (FGroup _ _ _ _) _ _ => True
    | FSlice _ _ _ => False
    | _ => fbases f <> []
    end.
End Typed.
