(** Listing primitives and loading them from files: primitives/utils.py.
    Simplified: a class is a record of the attributes that are read; the order in which a python set is iterated is a function
    ([ordC] for classes, [ordS] for strings) that the theorems let be any permutation; [str.lower] is a parameter. *)
From Coq Require Import String Ascii List Bool.
From Verif Require Import Base.
Import ListNotations.
Local Open Scope string_scope.
Local Open Scope list_scope.

(** entries of [input_types]: a variable type (its [__name__]) or a list of alternatives *)
Inductive itype : Type := IName (n : string) | IList (l : list itype).
Record pclass : Type := mkPc {
  c_id : nat;                     (* identity of the class *)
  c_prim : bool;                  (* issubclass PrimitiveBase *)
  c_agg : bool; c_trans : bool;   (* issubclass AggregationPrimitive, TransformPrimitive *)
  c_name : option string;         (* the attribute [name] *)
  c_doc : option string;          (* [__doc__] *)
  c_inputs : list itype;
  c_ret : option string;          (* getattr(return_type, '__name__', None) *)
  c_dask : bool; c_koalas : bool }.
(** the attributes of a module: [None] is anything that is not a class *)
Definition pymodule : Type := list (string * option pclass).
Record lrow : Type := mkRow { l_name : string; l_type : string; l_dask : bool; l_koalas : bool; l_desc : string; l_inputs : string; l_ret : option string }.

Section Listing.
  Variable lower : string -> string.
  Variable ordC : list pclass -> list pclass.
  Variable ordS : list string -> list string.

  (** [if attribute.name]: neither None nor empty *)
  Definition has_name (c : pclass) : bool := match c_name c with Some n => negb (String.eqb n "") | None => false end.
  Definition key_of (c : pclass) : string := lower (match c_name c with Some n => n | None => "" end).
  (** L17-26 [get_aggregation_primitives] and L29-39 [get_transform_primitives]; [want] is the issubclass test *)
  Definition get_primitives (want : pclass -> bool) (m : pymodule) : list (string * pclass) :=
    let classes := flat_map (fun a : string * option pclass => match snd a with Some c => [c] | None => [] end) m in
    let found := dedup_by (fun c d => Nat.eqb (c_id c) (c_id d)) [] (filter (fun c => want c && has_name c) classes) in
    fold_left (fun d c => dset String.eqb (key_of c) c d) (ordC found) [].

  (** L96-103 [_get_descriptions]: [__doc__.split("\n")[0]] *)
  Fixpoint first_line (s : string) : string :=
    match s with
    | EmptyString => EmptyString
    | String a s => if Ascii.eqb a "010"%char then EmptyString else String a (first_line s)
    end.
  Definition description (c : pclass) : string := match c_doc c with Some d => first_line d | None => "" end.
  (** L120-127 [_get_names_valid_inputs] *)
  Fixpoint input_names (t : itype) : list string := match t with IName n => [n] | IList l => flat_map input_names l end.
  Definition valid_inputs (ts : list itype) : list string := dedup_by String.eqb [] (flat_map input_names ts).
  (** L106-117 [_get_names_primitives], with the columns of L45-60 *)
  Definition make_row (ty : string) (kc : string * pclass) : lrow :=
    mkRow (fst kc) ty (c_dask (snd kc)) (c_koalas (snd kc)) (description (snd kc)) (String.concat ", " (ordS (valid_inputs (c_inputs (snd kc))))) (c_ret (snd kc)).
  (** L42-66 [list_primitives] *)
  Definition list_primitives (m : pymodule) : list lrow :=
    map (make_row "aggregation") (get_primitives c_agg m) ++ map (make_row "transform") (get_primitives c_trans m).
End Listing.

(** ** Files *)
(** os.path.basename: what follows the last '/' *)
Fixpoint basename (s : string) : string :=
  match s with
  | EmptyString => EmptyString
  | String a t => if existsb (Ascii.eqb "/") (list_ascii_of_string s) then basename t else s
  end.
Fixpoint sdrop (n : nat) (s : string) : string := match n, s with S n, String _ s => sdrop n s | _, _ => s end.
Fixpoint stake (n : nat) (s : string) : string := match n, s with S n, String a s => String a (stake n s) | _, _ => EmptyString end.
(** L141-150 [check_valid_primitive_path]; [isdir] answers for paths from the current directory *)
Definition check_valid_primitive_path (isdir : string -> bool) (path : string) : res bool :=
  if isdir path then Ok false
  else
    let f := basename path in
    if String.eqb (stake 2 f) "__" then Ok false
    else match f with
         | EmptyString => Err IndexError
         | String a _ => if Ascii.eqb a "." then Ok false
                         else Ok (String.eqb (sdrop (String.length f - 3) f) ".py")
         end.
(** L130-138 [list_primitive_files]; [files] is os.listdir(directory); [directory] does not end with '/' *)
Definition list_primitive_files (isdir : string -> bool) (directory : string) (files : list string) : res (list string) :=
  foldM (fun keep path => do ok <- check_valid_primitive_path isdir path; Ok (if ok then keep ++ [(directory ++ "/" ++ path)%string] else keep)) files [].
(** L153-174 [load_primitive_from_file], after the file has run; [agg] and [trans] are the identities of the two base classes *)
Definition load_primitive (agg trans : nat) (vars : pymodule) : res (string * pclass) :=
  let found := flat_map (fun a : string * option pclass => match snd a with
      | Some c => if c_prim c && negb (Nat.eqb (c_id c) agg || Nat.eqb (c_id c) trans) then [(fst a, c)] else []
      | None => [] end) vars in
  match found with
  | [] => Err RuntimeError
  | [x] => Ok x
  | _ => Err RuntimeError
  end.
