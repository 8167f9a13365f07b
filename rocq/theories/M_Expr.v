(** Arithmetic, comparison and logic on features: models the operator methods of feature_base/feature_base.py and the
    primitives of primitives/standard/binary_transform.py and transform_primitive.py they use.
    Not modelled: division (its results are not integers) and the check of input types (L56-58, but for one case of [mul]), so more expressions are
    accepted here than in the code.  Python's own evaluation of an operator on two constants is left out (an error here). *)
From Coq Require Import DecimalString.
From Verif Require Import Base M_Feature M_Prims.
Local Open Scope string_scope.
Local Open Scope list_scope.

(** str(value) of a constant *)
Definition const_str (v : val) : string :=
  match v with
  | VNum z => NilEmpty.string_of_int (Z.to_int z)
  | VStr s => s
  | VBool true => "True" | VBool false => "False"
  | VNull => "None"
  end.

(** primitives that work element by element *)
Definition unary (cls : string) (gen : string -> string) (g : val -> val) : prim :=
  mkPrim cls 1 false false VNull false (fun ns => gen (hd "" ns)) (fun _ _ _ _ _ => "") (fun _ cs => [map g (hd [] cs)]) (fun _ _ => []).
Definition binary (cls op : string) (g : val -> val -> val) : prim :=
  mkPrim cls 1 false false VNull false (fun ns => match ns with [a; b] => (a ++ op ++ b)%string | _ => "" end) (fun _ _ _ _ _ => "")
    (fun _ cs => match cs with [a; b] => [map (fun xy => g (fst xy) (snd xy)) (combine a b)] | _ => [[]] end) (fun _ _ => []).

(** numpy on numeric columns: NaN in, NaN out; a comparison with NaN is False *)
Definition arith (f : Z -> Z -> Z) (a b : val) : val :=
  match as_num a, as_num b with Some x, Some y => VNum (f x y) | _, _ => VNull end.
Definition compare (f : Z -> Z -> bool) (a b : val) : val :=
  VBool (match as_num a, as_num b with Some x, Some y => f x y | _, _ => false end).
(** Series.eq: NaN equals nothing *)
Definition cell_eq (a b : val) : bool :=
  match a, b with
  | VStr s, VStr t => String.eqb s t
  | _, _ => match as_num a, as_num b with Some x, Some y => Z.eqb x y | _, _ => false end
  end.
(** np.mod: the sign of the divisor; by zero: NaN *)
Definition modulo (a b : val) : val := if cell_eq b (VNum 0) then VNull else arith Z.modulo a b.
(** np.logical_*: truth values of the cells (NaN is true) *)
Definition truthy (v : val) : bool :=
  match v with VBool b => b | VNum z => negb (Z.eqb z 0) | VNull => true | VStr s => negb (String.eqb s "") end.

(** binary_transform.py L18-43, L82-107, L146-171, L210-235, L274-306, L339-371, L404-430, L463-495, L562-592, L708-733 (two columns) *)
Definition GreaterThan := binary "GreaterThan" " > " (compare Z.gtb).
Definition GreaterThanEqualTo := binary "GreaterThanEqualTo" " >= " (compare Z.geb).
Definition LessThan := binary "LessThan" " < " (compare Z.ltb).
Definition LessThanEqualTo := binary "LessThanEqualTo" " <= " (compare Z.leb).
Definition Equal := binary "Equal" " = " (fun a b => VBool (cell_eq a b)).
Definition NotEqual := binary "NotEqual" " != " (fun a b => VBool (negb (cell_eq a b))).
Definition AddNumeric := binary "AddNumeric" " + " (arith Z.add).
Definition SubtractNumeric := binary "SubtractNumeric" " - " (arith Z.sub).
Definition MultiplyNumeric := binary "MultiplyNumeric" " * " (arith Z.mul).
Definition ModuloNumeric := binary "ModuloNumeric" " % " modulo.
(** L595-620: np.bitwise_and of two boolean columns *)
Definition MultiplyBoolean := binary "MultiplyBoolean" " * "
  (fun a b => match a, b with VBool x, VBool y => VBool (x && y) | _, _ => VNull end).
(** L790-850 *)
Definition And := mkPrim "And" 1 false false VNull false (fun ns => match ns with [a; b] => ("AND(" ++ a ++ ", " ++ b ++ ")")%string | _ => "" end)
  (fun _ _ _ _ _ => "") (p_trans (binary "And" "" (fun a b => VBool (truthy a && truthy b)))) (fun _ _ => []).
Definition Or := mkPrim "Or" 1 false false VNull false (fun ns => match ns with [a; b] => ("OR(" ++ a ++ ", " ++ b ++ ")")%string | _ => "" end)
  (fun _ _ _ _ _ => "") (p_trans (binary "Or" "" (fun a b => VBool (truthy a || truthy b)))) (fun _ _ => []).

(** the same with a constant, and a constant on the left (L46-79, ..., L765-787) *)
Definition scalar (cls op : string) (g : val -> val -> val) (c : val) : prim := unary cls (fun a => (a ++ op ++ const_str c)%string) (fun v => g v c).
Definition by_feature (cls op : string) (g : val -> val -> val) (c : val) : prim := unary cls (fun a => (const_str c ++ op ++ a)%string) (fun v => g c v).
Definition GreaterThanScalar := scalar "GreaterThanScalar" " > " (compare Z.gtb).
Definition GreaterThanEqualToScalar := scalar "GreaterThanEqualToScalar" " >= " (compare Z.geb).
Definition LessThanScalar := scalar "LessThanScalar" " < " (compare Z.ltb).
Definition LessThanEqualToScalar := scalar "LessThanEqualToScalar" " <= " (compare Z.leb).
Definition EqualScalar := scalar "EqualScalar" " = " (fun a b => VBool (cell_eq a b)).
Definition NotEqualScalar := scalar "NotEqualScalar" " != " (fun a b => VBool (negb (cell_eq a b))).
Definition AddNumericScalar := scalar "AddNumericScalar" " + " (arith Z.add).
Definition SubtractNumericScalar := scalar "SubtractNumericScalar" " - " (arith Z.sub).
Definition ScalarSubtractNumericFeature := by_feature "ScalarSubtractNumericFeature" " - " (arith Z.sub).
Definition MultiplyNumericScalar := scalar "MultiplyNumericScalar" " * " (arith Z.mul).
Definition ModuloNumericScalar := scalar "ModuloNumericScalar" " % " modulo.
Definition ModuloByFeature := by_feature "ModuloByFeature" " % " modulo.

(** transform_primitive.py L24-41, L44-59, L422-451, L482-502, L505-523 *)
Definition IsNull := unary "IsNull" (fun a => ("IS_NULL(" ++ a ++ ")")%string) (fun v => VBool (is_null v)).
Definition Absolute := unary "Absolute" (fun a => ("ABSOLUTE(" ++ a ++ ")")%string) (fun v => of_num (option_map Z.abs (as_num v))).
Definition Negate := unary "Negate" (fun a => ("-(" ++ a ++ ")")%string) (fun v => arith Z.mul v (VNum (-1))).
Definition Not := unary "Not" (fun a => ("NOT(" ++ a ++ ")")%string) (fun v => VBool (negb (truthy v))).
(** str(list): the list's repr is not modelled (an empty pair of brackets here) *)
Definition IsIn (l : list val) := unary "IsIn" (fun a => (a ++ ".isin([])")%string)
  (fun v => VBool (existsb (fun x => cell_eq v x || (is_null v && is_null x)) l)).

(** ** feature_base.py *)
Inductive operand : Type := OFeat (f : feat) | OConst (v : val).
Inductive binop : Type := OpEq | OpNe | OpGt | OpGe | OpLt | OpLe | OpAdd | OpSub | OpMul | OpMod | OpAnd | OpOr.

Section Methods.
  (** [variable_type == Boolean] (L275-279) *)
  Variable is_bool : feat -> bool.

  (** L640-660 [TransformFeature.__init__] on a list of features *)
  Definition make_trans (p : prim) (bs : list feat) : res feat :=
    match bs with
    | [] => Err AssertionError
    | b :: _ =>
      if forallb (fun x => String.eqb (fentity x) (fentity b)) bs then
        if existsb (fun x => Nat.ltb 1 (fnout x)) bs then Err ValueError else Ok (FTrans p bs None)
      else Err AssertionError
    end.
  (** L838-844 [_check_feature]: raises Exception for a constant *)
  Definition check_feature (o : operand) : res feat := match o with OFeat f => Ok f | OConst _ => Err RuntimeError end.

  (** L218-222 [_handle_binary_comparision] *)
  Definition handle_binary (self : feat) (other : operand) (P : prim) (PS : val -> prim) : res feat :=
    match other with OFeat g => make_trans P [self; g] | OConst v => make_trans (PS v) [self] end.

  (** L313-319 [AND], [OR] *)
  Definition logical (p : prim) (a b : operand) : res feat :=
    do f <- check_feature a; do g <- check_feature b; make_trans p [f; g].

  (** L275-280 [__mul__] *)
  Definition mul (self : feat) (other : operand) : res feat :=
    match other with
    | OFeat g => if is_bool self && is_bool g then make_trans MultiplyBoolean [self; g] else handle_binary self other MultiplyNumeric MultiplyNumericScalar
    | OConst _ => if is_bool self then Err AssertionError     (* L56-58: MultiplyNumericScalar takes numbers *)
                  else handle_binary self other MultiplyNumeric MultiplyNumericScalar
    end.

  (** L224-302: the method of the left operand *)
  Definition method (op : binop) (self : feat) (other : operand) : res feat :=
    match op with
    | OpEq => handle_binary self other Equal EqualScalar
    | OpNe => handle_binary self other NotEqual NotEqualScalar
    | OpGt => handle_binary self other GreaterThan GreaterThanScalar
    | OpGe => handle_binary self other GreaterThanEqualTo GreaterThanEqualToScalar
    | OpLt => handle_binary self other LessThan LessThanScalar
    | OpLe => handle_binary self other LessThanEqualTo LessThanEqualToScalar
    | OpAdd => handle_binary self other AddNumeric AddNumericScalar
    | OpSub => handle_binary self other SubtractNumeric SubtractNumericScalar
    | OpMul => mul self other
    | OpMod => handle_binary self other ModuloNumeric ModuloNumericScalar
    | OpAnd => logical And (OFeat self) other
    | OpOr => logical Or (OFeat self) other
    end.
  (** L252-302: the method of the right operand, when the left one is a constant; Python turns c < f into f > c, and so on *)
  Definition reflected (op : binop) (self : feat) (c : val) : res feat :=
    match op with
    | OpEq => method OpEq self (OConst c)
    | OpNe => method OpNe self (OConst c)
    | OpGt => method OpLt self (OConst c)
    | OpGe => method OpLe self (OConst c)
    | OpLt => method OpGt self (OConst c)
    | OpLe => method OpGe self (OConst c)
    | OpAdd => method OpAdd self (OConst c)                                   (* L252-253 *)
    | OpSub => make_trans (ScalarSubtractNumericFeature c) [self]             (* L259-260 *)
    | OpMul => method OpMul self (OConst c)                                   (* L282-283 *)
    | OpMod => match c with VStr _ => Err TypeError | _ => make_trans (ModuloByFeature c) [self] end   (* L289-290; a string formats itself *)
    | OpAnd => logical And (OConst c) (OFeat self)                            (* L295-296 *)
    | OpOr => logical Or (OConst c) (OFeat self)                              (* L301-302 *)
    end.
  Definition py_binary (op : binop) (a b : operand) : res operand :=
    match a, b with
    | OFeat f, _ => do g <- method op f b; Ok (OFeat g)
    | OConst c, OFeat f => do g <- reflected op f c; Ok (OFeat g)
    | OConst _, OConst _ => Err TypeError
    end.
  (** L304-333 *)
  Definition py_unary (p : prim) (a : operand) : res operand :=
    match a with OFeat f => do g <- make_trans p [f]; Ok (OFeat g) | OConst _ => Err TypeError end.

  (** a Python expression over features and constants *)
  Inductive expr : Type :=
  | EFeat (f : feat) | EConst (v : val) | EBin (op : binop) (a b : expr)
  | ENeg (a : expr) | EAbs (a : expr) | ENot (a : expr) | EIsNull (a : expr) | EIsIn (a : expr) (l : list val).
  Fixpoint build (e : expr) : res operand :=
    match e with
    | EFeat f => Ok (OFeat f)
    | EConst v => Ok (OConst v)
    | EBin op a b => do x <- build a; do y <- build b; py_binary op x y
    | ENeg a => do x <- build a; py_unary Negate x
    | EAbs a => do x <- build a; py_unary Absolute x
    | ENot a => do x <- build a; py_unary Not x
    | EIsNull a => do x <- build a; py_unary IsNull x
    | EIsIn a l => do x <- build a; py_unary (IsIn l) x
    end.
End Methods.
