(** What one-hot encoding should do. *)
From Verif Require Import Base M_Schema M_Feature M_Select M_Encode.

Section Spec.
  Variables (rels : list relationship) (discrete : feat -> bool).

  (** features that are encoded: one column, categorical, and asked for *)
  Definition is_encoded (to_encode : option (list string)) (f : feat) : Prop :=
    fnout f <= 1 /\ discrete f = true /\ forall l, to_encode = Some l -> In (fname rels f) l.

  (** the different values of a column, nulls excluded *)
  Definition values (col : list val) : list val := dedup_by val_eqb [] (filter (fun v => negb (is_null v)) col).
  Definition occurrences (v : val) (col : list val) : nat := List.length (filter (val_eqb v) col).

  Definition column (m : fmatrix) (n : string) : list val := match dget String.eqb n m with Some c => c | None => [] end.
  Definition label_name (f : feat) (l : val) : string := (fname rels f ++ " = " ++ str_val l)%string.
  Definition unknown_name (f : feat) : string := (fname rels f ++ " is unknown")%string.

  (** all the names that encoding [f] may use *)
  Definition new_names (m : fmatrix) (f : feat) : list string :=
    map (label_name f) (values (column m (fname rels f))) ++ [unknown_name f].

  (** columns have different names, features have different columns, and the new names are new and different *)
  Definition clear_names (to_encode : option (list string)) (m : fmatrix) (fs : list feat) : Prop :=
    NoDup (flat_map (fnames rels) fs) /\
    NoDup (map fst m ++ flat_map (new_names m) (filter (fun f => negb (not_encoded rels discrete to_encode f)) fs)).

  Definition true_count (row : list val) : nat := List.length (filter (fun v => val_eqb v (VBool true)) row).

  (** the columns a feature definition gives on the data of a matrix: stored columns, or a transform of computed ones *)
  Inductive computes (m : fmatrix) : feat -> list (list val) -> Prop :=
  | comp_stored f cs : Forall2 (fun n c => dget String.eqb n m = Some c) (fnames rels f) cs -> computes m f cs
  | comp_transform p bs nm css : Forall2 (fun b c => computes m b [c]) bs css -> computes m (FTrans p bs nm) (p_trans p None css).
End Spec.
