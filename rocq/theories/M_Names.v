(** How the standard primitives build feature names: primitives/base/*_primitive_base.py and
    primitives/standard/{aggregation_primitives,transform_primitive,binary_transform}.py.
    Simplification: [str(value)] of a constructor argument is given as a string. *)
From Verif Require Import Base M_Feature.
Local Open Scope string_scope.

(** primitive_base.py L71-83 [get_args_string] for the "name=value" texts of the arguments that differ from their defaults *)
Definition args_string (args : list string) : string :=
  match args with [] => "" | _ => ", " ++ String.concat ", " args end.

(** transform_primitive_base.py L16-21; [name] is the primitive's name in upper case *)
Definition call_name (name : string) (args : list string) (bases : list string) : string :=
  name ++ "(" ++ String.concat ", " bases ++ args_string args ++ ")".

(** aggregation_primitive_base.py L16-26 *)
Definition call_name_agg (name : string) (args : list string) (bases : list string) (path parent where_str prev : string) : string :=
  name ++ "(" ++ path ++ "." ++ String.concat ", " bases ++ where_str ++ prev ++ args_string args ++ ")".

(** aggregation_primitives.py L46-49 Count *)
Definition count_name (bases : list string) (path parent where_str prev : string) : string :=
  "COUNT(" ++ path ++ where_str ++ prev ++ ")".

(** binary_transform.py L70-71, L127-128, L184-185, L241-242, L306-307, L371-372, L428-429, L492-493, L584-585, L676-677, L764-765:
    a feature and a scalar *)
Definition scalar_name (op value : string) (bases : list string) : string :=
  List.nth 0 bases "" ++ " " ++ op ++ " " ++ value.

(** binary_transform.py L39-40, L96-97, L153-154, L210-211, L276-277, L341-342, L398-399, L462-463, L554-555, L612-613, L646-647,
    L733-734: two features *)
Definition infix_name (op : string) (bases : list string) : string :=
  List.nth 0 bases "" ++ " " ++ op ++ " " ++ List.nth 1 bases "".

(** the elementwise arithmetic of two columns; [None] is NaN *)
Definition zip_num (f : Z -> Z -> Z) (a b : list val) : list val :=
  map (fun xy : val * val => match xy with (VNum x, VNum y) => VNum (f x y) | _ => VNull end) (combine a b).
Definition binary_numeric (cls op : string) (f : Z -> Z -> Z) : prim :=
  mkPrim cls 1 false false VNull false (infix_name op) (fun _ _ _ _ _ => "")
    (fun _ cs => [zip_num f (List.nth 0 cs []) (List.nth 1 cs [])]) (fun _ _ => []).
(** binary_transform.py L432-463 *)
Definition SubtractNumeric : prim := binary_numeric "SubtractNumeric" "-" Z.sub.
(** binary_transform.py L375-399 *)
Definition AddNumeric : prim := binary_numeric "AddNumeric" "+" Z.add.
(** binary_transform.py L280-307 EqualScalar(value); str(value) of a number is its numeral, of a string the string itself *)
Definition EqualScalar (value : val) (shown : string) : prim :=
  mkPrim "EqualScalar" 1 false false VNull false (scalar_name "=" shown) (fun _ _ _ _ _ => "")
    (fun _ cs => [map (fun v => VBool (val_eqb v value)) (hd [] cs)]) (fun _ _ => []).
(** aggregation_primitives.py L24-49 Count: pd.Series.count *)
Definition Count : prim :=
  mkPrim "Count" 1 false false (VNum 0) true (fun _ => "") count_name
    (fun _ _ => []) (fun _ cs => [VNum (Z.of_nat (List.length (filter (fun v => negb (is_null v)) (hd [] cs))))]).
