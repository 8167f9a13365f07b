(** Cleaning a dataframe for Koalas: utils/koalas_utils.py L5-41.
    Simplified: column names are distinct; numbers are integers; a categorical column holds no tuples or lists. *)
From Coq Require Import String Ascii List Bool ZArith.
From Verif Require Import Base.
Import ListNotations.

(** members of a tuple or list *)
Inductive item : Type := INum (z : Z) | INaN | IText (s : string).
Inductive kcell : Type := KNum (z : Z) | KMissing | KText (s : string) | KTuple (xs : list item) | KList (xs : list item).
(** the dtype matters only when it is a category: of integers, or of something else *)
Inductive kdtype : Type := Plain | IntCategory | Category.
Record kcolumn : Type := mkColumn { k_name : string; k_dtype : kdtype; k_cells : list kcell }.
Definition kframe : Type := list kcolumn.

(** list(x) *)
Definition to_list (x : kcell) : res kcell :=
  match x with
  | KTuple xs | KList xs => Ok (KList xs)
  | KText s => Ok (KList (map (fun a => IText (String a EmptyString)) (list_ascii_of_string s)))
  | KNum _ | KMissing => Err TypeError
  end.
(** L5-12 [replace_tuple_columns]: the first row tells the kind of the column *)
Definition replace_tuple (c : kcolumn) : res kcolumn :=
  match k_cells c with
  | [] => Err IndexError
  | KTuple _ :: _ => do cells <- mapM to_list (k_cells c); Ok (mkColumn (k_name c) Plain cells)
  | _ => Ok c
  end.
(** L19: flag if np.isnan(x) else x *)
Definition flag_item (flag : Z) (x : item) : res item :=
  match x with INaN => Ok (INum flag) | INum z => Ok (INum z) | IText _ => Err TypeError end.
Definition flag_cell (flag : Z) (x : kcell) : res kcell :=
  match x with
  | KTuple xs | KList xs => do ys <- mapM (flag_item flag) xs; Ok (KList ys)
  | KText EmptyString => Ok (KList [])
  | KText _ | KNum _ | KMissing => Err TypeError
  end.
(** L15-22 [replace_nan_with_flag] *)
Definition replace_nan (flag : Z) (c : kcolumn) : res kcolumn :=
  match k_cells c with
  | [] => Err IndexError
  | KList _ :: _ => do cells <- mapM (flag_cell flag) (k_cells c); Ok (mkColumn (k_name c) Plain cells)
  | _ => Ok c
  end.
(** L25-33 [replace_categorical_columns]: the column takes the dtype of its categories; integers cannot be missing *)
Definition replace_category (c : kcolumn) : res kcolumn :=
  match k_dtype c with
  | Plain => Ok c
  | Category => Ok (mkColumn (k_name c) Plain (k_cells c))
  | IntCategory => if existsb (fun x => match x with KMissing => true | _ => false end) (k_cells c) then Err ValueError else Ok (mkColumn (k_name c) Plain (k_cells c))
  end.
(** L36-41 [pd_to_ks_clean] *)
Definition pd_to_ks_clean (df : kframe) : res kframe :=
  do df1 <- mapM replace_tuple df; do df2 <- mapM (replace_nan (-1)) df1; mapM replace_category df2.
