(** The value of an expression over features, where ordinary arithmetic settles it. *)
From Verif Require Import Base M_Feature M_Expr.
Local Open Scope string_scope.
Local Open Scope list_scope.

(** missing if an operand is missing *)
Definition arithmetic (f : Z -> Z -> Z) (a b : val) : option val :=
  match a, b with
  | VNum x, VNum y => Some (VNum (f x y))
  | VNum _, VNull | VNull, VNum _ | VNull, VNull => Some VNull
  | _, _ => None
  end.
(** false if an operand is missing *)
Definition ordering (f : Z -> Z -> bool) (a b : val) : option val :=
  match a, b with
  | VNum x, VNum y => Some (VBool (f x y))
  | VNum _, VNull | VNull, VNum _ | VNull, VNull => Some (VBool false)
  | _, _ => None
  end.
Definition same (a b : val) : option bool :=
  match a, b with
  | VNum x, VNum y => Some (Z.eqb x y)
  | VStr x, VStr y => Some (String.eqb x y)
  | VBool x, VBool y => Some (Bool.eqb x y)
  | VNull, _ | _, VNull => Some false
  | _, _ => None
  end.
Definition logic (f : bool -> bool -> bool) (a b : val) : option val :=
  match a, b with VBool x, VBool y => Some (VBool (f x y)) | _, _ => None end.

Definition apply (op : binop) (a b : val) : option val :=
  match op with
  | OpEq => option_map VBool (same a b)
  | OpNe => option_map (fun x => VBool (negb x)) (same a b)
  | OpGt => ordering (fun x y => Z.ltb y x) a b
  | OpGe => ordering (fun x y => Z.leb y x) a b
  | OpLt => ordering Z.ltb a b
  | OpLe => ordering Z.leb a b
  | OpAdd => arithmetic Z.add a b
  | OpSub => arithmetic Z.sub a b
  | OpMul => match a, b with
             | VBool x, VBool y => Some (VBool (x && y))
             | VBool x, VNum y => Some (VNum (if x then y else 0))
             | VNum x, VBool y => Some (VNum (if y then x else 0))
             | _, _ => arithmetic Z.mul a b
             end
  | OpMod => match a, b with
             | VNum _, VNum 0 | VNull, VNum 0 => Some VNull                   (* the remainder by zero is missing *)
             | _, _ => arithmetic Z.modulo a b
             end
  | OpAnd => logic andb a b
  | OpOr => logic orb a b
  end.

(** [leaf f] is the value of feature [f] *)
Fixpoint value (leaf : feat -> val) (e : expr) : option val :=
  let on a (k : val -> option val) := match value leaf a with Some v => k v | None => None end in
  match e with
  | EFeat f => Some (leaf f)
  | EConst v => Some v
  | EBin op a b => on a (fun x => on b (fun y => apply op x y))
  | ENeg a => on a (fun x => match x with VNum z => Some (VNum (- z)) | VNull => Some VNull | _ => None end)
  | EAbs a => on a (fun x => match x with VNum z => Some (VNum (Z.abs z)) | VNull => Some VNull | _ => None end)
  | ENot a => on a (fun x => match x with VBool b => Some (VBool (negb b)) | _ => None end)
  | EIsNull a => on a (fun x => Some (VBool (is_null x)))
  | EIsIn a l => on a (fun x => match x with
                                | VNum _ | VStr _ => if existsb (fun y => match y with VBool _ => true | _ => false end) l then None
                                                     else Some (VBool (existsb (val_eqb x) l))
                                | _ => None
                                end)
  end.

(** the parts of an expression, itself included *)
Fixpoint parts (e : expr) : list expr :=
  e :: match e with
       | EFeat _ | EConst _ => []
       | EBin _ a b => parts a ++ parts b
       | ENeg a | EAbs a | ENot a | EIsNull a | EIsIn a _ => parts a
       end.
Definition leaves (e : expr) : list feat := flat_map (fun x => match x with EFeat f => [f] | _ => [] end) (parts e).

(** how an operation on two operands is written in a name: like the operation, without brackets; an operation on a constant and
    a feature that can be turned round has the feature first *)
Local Open Scope string_scope.
Definition sign (op : binop) : string :=
  match op with OpEq => " = " | OpNe => " != " | OpGt => " > " | OpGe => " >= " | OpLt => " < " | OpLe => " <= "
              | OpAdd => " + " | OpSub => " - " | OpMul => " * " | OpMod => " % " | OpAnd => "AND" | OpOr => "OR" end.
Definition turned (op : binop) : option binop :=
  match op with OpGt => Some OpLt | OpGe => Some OpLe | OpLt => Some OpGt | OpLe => Some OpGe | OpSub | OpMod => None | _ => Some op end.
Definition written (op : binop) (a b : operand) (name : feat -> string) : string :=
  match op, a, b with
  | OpAnd, OFeat f, OFeat g | OpOr, OFeat f, OFeat g => sign op ++ "(" ++ name f ++ ", " ++ name g ++ ")"
  | _, OFeat f, OFeat g => name f ++ sign op ++ name g
  | _, OFeat f, OConst c => name f ++ sign op ++ const_str c
  | _, OConst c, OFeat f => match turned op with Some op' => name f ++ sign op' ++ const_str c | None => const_str c ++ sign op ++ name f end
  | _, _, _ => ""
  end.
