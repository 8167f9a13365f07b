(** Models synthesis/encode_features.py L13-175 and the primitives it uses.  The matrix is a list of named columns. *)
From Verif Require Import Base M_Schema M_Feature M_Time M_Select.
Local Open Scope string_scope.
Local Open Scope list_scope.

(** str(value) *)
Definition str_val (v : val) : string :=
  match v with VNull => "nan" | VNum z => string_of_Z z | VBool b => if b then "True" else "False" | VStr s => s end.

(** primitives/standard/binary_transform.py L280-307 [EqualScalar] *)
Definition p_eq (l : val) : prim := mkPrim "EqualScalar" 1 false false VNull false
  (fun bs => (nth 0 bs "" ++ " = " ++ str_val l)%string) (fun _ _ _ _ _ => "")
  (fun _ cs => [map (fun v => VBool (negb (is_null v) && val_eqb v l)) (nth 0 cs [])]) (fun _ _ => []).
(** primitives/standard/transform_primitive.py L422-451 [IsIn]; str(list) in the name is simplified to the joined items *)
Definition p_isin (ls : list val) : prim := mkPrim "IsIn" 1 false false VNull false
  (fun bs => (nth 0 bs "" ++ ".isin([" ++ String.concat ", " (map str_val ls) ++ "])")%string) (fun _ _ _ _ _ => "")
  (fun _ cs => [map (fun v => VBool (mem_val v ls)) (nth 0 cs [])]) (fun _ _ => []).
(** L505-523 [Not] *)
Definition p_not : prim := mkPrim "Not" 1 false false VNull false
  (fun bs => ("NOT(" ++ nth 0 bs "" ++ ")")%string) (fun _ _ _ _ _ => "")
  (fun _ cs => [map (fun v => match v with VBool b => VBool (negb b) | v => v end) (nth 0 cs [])]) (fun _ _ => []).

(** feature_base.py L220-228 [f == label]; L329 [isin], L325 [NOT], L74 [rename] *)
Definition f_equals (f : feat) (l : val) : feat := FTrans (p_eq l) [f] None.
Definition f_unknown (f : feat) (ls : list val) (name : string) : feat := FTrans p_not [FTrans (p_isin ls) [f] None] (Some name).

(** [Series.value_counts()]: the different non-null values with their counts *)
Definition value_counts (col : list val) : list (val * nat) :=
  map (fun v => (v, List.length (filter (val_eqb v) col))) (dedup_by val_eqb [] (filter (fun v => negb (is_null v)) col)).

(** [head(n)]: for a negative [n] all but the last [-n] *)
Definition head {A} (n : Z) (l : list A) : list A :=
  if (0 <=? n)%Z then firstn (Z.to_nat n) l else firstn (List.length l - Z.to_nat (- n)) l.

Inductive top_n_arg : Type := TopInt (n : Z) | TopDict (d : list (string * Z)).

Section Encode.
  Variable rels : list relationship.
  (** issubclass(f.variable_type, Discrete) *)
  Variable discrete : feat -> bool.
  (** the order of the values of a column *)
  Variable vleb : val -> val -> bool.

  (** L121-133: sorted by count, then value, descending *)
  Definition count_geb (a b : val * nat) : bool :=
    if (snd a =? snd b)%nat then vleb (fst b) (fst a) else (snd b <=? snd a)%nat.
  Definition ordered_values (col : list val) : list val := map fst (isort count_geb (value_counts col)).

  (** L134-140; min(int, dict) raises TypeError *)
  Definition select_n (top : top_n_arg) (drop_first : bool) (name : string) (len : nat) : res Z :=
    if drop_first then
      match top with
      | TopInt n => Ok (Z.max (Z.min (Z.of_nat len) n - 1) 1)
      | TopDict _ => Err TypeError
      end
    else match top with
         | TopInt n => Ok n
         | TopDict d => Ok (match dget String.eqb name d with Some n => n | None => 10%Z end)
         end.

  Definition tget (n : string) (X : fmatrix) : res (list val) :=
    match dget String.eqb n X with Some c => Ok c | None => Err KeyError end.

  (** L114-119: whether the feature is left as it is *)
  Definition not_encoded (to_encode : option (list string)) (f : feat) : bool :=
    (1 <? fnout f)%nat || negb (discrete f) ||
    match to_encode with Some l => negb (mem_str (fname rels f) l) | None => false end.

  (** L104-159: one feature.  [X[f.get_name()]] is read again for each label; the columns added in between have longer
      names, so it is read once here. *)
  Record enc : Type := mkEnc { e_X : fmatrix; e_feats : list feat; e_cols : list string }.
  Definition encode_one (top : top_n_arg) (unknown drop_first : bool) (to_encode : option (list string)) (s : enc) (f : feat) : res enc :=
    let n := fname rels f in
    if not_encoded to_encode f then Ok (mkEnc (e_X s) (e_feats s ++ [f]) (e_cols s ++ fnames rels f))
    else
      do col <- tget n (e_X s);
      do k <- select_n top drop_first n (List.length (value_counts col));
      let unique := head k (ordered_values col) in
      let X1 := fold_left (fun X l => dset String.eqb (fname rels (f_equals f l)) (map (fun v => VBool (negb (is_null v) && val_eqb v l)) col) X) unique (e_X s) in
      let un := (n ++ " is unknown")%string in
      let X2 := if unknown then dset String.eqb un (map (fun v => VBool (negb (mem_val v unique))) col) X1 else X1 in
      Ok (mkEnc (filter (fun c => negb (String.eqb (fst c) n)) X2)
                (e_feats s ++ map (f_equals f) unique ++ (if unknown then [f_unknown f unique un] else []))
                (e_cols s ++ map (fun l => fname rels (f_equals f l)) unique ++ (if unknown then [un] else []))).

  (** L77-175.  [X[new_columns]] raises KeyError for a missing column.  The to_numeric pass leaves booleans alone. *)
  Definition encode_features (top : top_n_arg) (unknown drop_first : bool) (to_encode : option (list string))
      (m : fmatrix) (fs : list feat) : res (fmatrix * list feat) :=
    if negb (forallb (fun n => mem_str n (map fst m)) (flat_map (fnames rels) fs)) then Err AssertionError
    else
      let pass := filter (fun c => negb (mem_str c (flat_map (fnames rels) fs))) (map fst m) in
      do s <- foldM (encode_one top unknown drop_first to_encode) fs (mkEnc m [] []);
      let cols := e_cols s ++ pass in
      if forallb (fun n => mem_str n (map fst (e_X s))) cols then Ok (select cols (e_X s), e_feats s) else Err KeyError.
End Encode.
