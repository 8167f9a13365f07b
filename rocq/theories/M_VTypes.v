(** Names of variable types: utils/gen_utils.py L34-46, L111-113, variable_types/utils.py L12-25, variable_types/variable.py L9-14,
    and how they are used in entityset/entity.py L227-239 and entityset/deserialize.py L28-33.
    Simplified: class names are ASCII; a class is its identity, its name and its subclasses. *)
From Coq Require Import String Ascii List Bool.
From Verif Require Import Base.
Import ListNotations.
Local Open Scope string_scope.
Local Open Scope list_scope.

Definition code_in (lo hi : nat) (a : ascii) : bool := Nat.leb lo (nat_of_ascii a) && Nat.leb (nat_of_ascii a) hi.
Definition is_upper (a : ascii) : bool := code_in 65 90 a.       (* [A-Z] *)
Definition is_lower (a : ascii) : bool := code_in 97 122 a.      (* [a-z] *)
Definition is_digit (a : ascii) : bool := code_in 48 57 a.       (* [0-9] *)
Definition to_lower (a : ascii) : ascii := if is_upper a then ascii_of_nat (nat_of_ascii a + 32) else a.
Definition slower (s : string) : string := string_of_list_ascii (map to_lower (list_ascii_of_string s)).
Definition starts (p : ascii -> bool) (s : string) : bool := match s with String a _ => p a | EmptyString => false end.
(** gen_utils.py L112: re.sub('(.)([A-Z][a-z]+)', r'\1_\2', s), from left to right without overlaps; [copying] is inside [a-z]+ *)
Fixpoint sub_words (copying : bool) (s : string) : string :=
  match s with
  | EmptyString => EmptyString
  | String c t =>
    if copying && is_lower c then String c (sub_words true t)
    else match t with
         | String u r => if is_upper u && starts is_lower r then String c (String "_" (String u (sub_words true r))) else String c (sub_words false t)
         | EmptyString => String c EmptyString
         end
  end.
(** L113: re.sub('([a-z0-9])([A-Z])', r'\1_\2', s) *)
Fixpoint sub_caps (s : string) : string :=
  match s with
  | EmptyString => EmptyString
  | String c t =>
    match t with
    | String u r => if (is_lower c || is_digit c) && is_upper u then String c (String "_" (String u (sub_caps r))) else String c (sub_caps t)
    | EmptyString => String c EmptyString
    end
  end.
(** L111-113 [camel_to_snake] *)
Definition camel_to_snake (s : string) : string := slower (sub_caps (sub_words false s)).

(** ** Classes *)
Inductive vclass : Type := VClass (id : nat) (name : string) (subs : list vclass).
Definition v_id (c : vclass) : nat := match c with VClass i _ _ => i end.
Definition v_name (c : vclass) : string := match c with VClass _ n _ => n end.
(** variable.py L9-14: the type string of a class *)
Definition type_string (c : vclass) : string := camel_to_snake (v_name c).
(** gen_utils.py L34-46 [find_descendents] *)
Fixpoint find_descendents (c : vclass) : list vclass := c :: match c with VClass _ _ subs => flat_map find_descendents subs end.
(** variable_types/utils.py L12-25 [find_variable_types]; [root] is Variable, [text] the identity of Text *)
Definition find_variable_types (root : vclass) (text : nat) : list (string * vclass) :=
  fold_left (fun d c => dset String.eqb (type_string c) c d)
    (filter (fun c => negb (Nat.eqb (v_id c) (v_id root)) && negb (Nat.eqb (v_id c) text)) (find_descendents root)) [].
(** variable_types/utils.py L28-46 [list_variable_types]: the columns name and type_string, row by row; descriptions are left out *)
Definition list_variable_types (root : vclass) (text : nat) : list (string * string) :=
  map (fun kv => (v_name (snd kv), fst kv)) (find_variable_types root text).
(** entity.py L227-239: the class for a type given as text to an entity, and whether there is a warning *)
Definition class_for (root : vclass) (text : vclass) (s : string) : res (vclass * bool) :=
  let types := dset String.eqb (type_string text) text (find_variable_types root (v_id text)) in
  match dget String.eqb s types with
  | Some c => Ok (c, false)
  | None => match dget String.eqb "unknown" types with Some c => Ok (c, true) | None => Err KeyError end
  end.
(** deserialize.py L28-33: the class for a type in a saved description; [None] is called and fails when there is no 'unknown' *)
Definition class_read (root : vclass) (text : vclass) (s : string) : res vclass :=
  let types := find_variable_types root (v_id text) in
  match dget String.eqb s types with
  | Some c => Ok c
  | None => match dget String.eqb "unknown" types with Some c => Ok c | None => Err TypeError end
  end.
