(** encode_features with its argument [inplace], synthesis/encode_features.py L77-175: the caller's matrix after the call.
    Without [inplace] the work is done on a copy (L83-84); with it, columns are added to and dropped from the caller's matrix
    (L145, L154, L156), also when the call fails later.  The result is a selection of columns (L158-159), a new frame. *)
From Verif Require Import Base M_Schema M_Feature M_Select M_Encode.
Local Open Scope string_scope.

Section Inplace.
  Variable rels : list relationship.
  Variable discrete : feat -> bool.
  Variable vleb : val -> val -> bool.
  (** L104-156: the loop over the features, with the matrix as far as it got.  [encode_one] fails before it changes the matrix:
      at L121 (no such column) or L138 (min of an int and a dict). *)
  Fixpoint encode_go (top : top_n_arg) (unknown drop_first : bool) (to_encode : option (list string)) (s : enc) (fs : list feat) : enc * res unit :=
    match fs with
    | [] => (s, Ok tt)
    | f :: fs => match encode_one rels discrete vleb top unknown drop_first to_encode s f with
                 | Ok s' => encode_go top unknown drop_first to_encode s' fs
                 | Err e => (s, Err e)
                 end
    end.
  (** L77-175: the caller's matrix after the call, and the result *)
  Definition encode_call (inplace : bool) (top : top_n_arg) (unknown drop_first : bool) (to_encode : option (list string))
      (m : fmatrix) (fs : list feat) : fmatrix * res (fmatrix * list feat) :=
    if negb (forallb (fun n => mem_str n (map fst m)) (flat_map (fnames rels) fs)) then (m, Err AssertionError)
    else
      let pass := filter (fun c => negb (mem_str c (flat_map (fnames rels) fs))) (map fst m) in
      match encode_go top unknown drop_first to_encode (mkEnc m [] []) fs with
      | (s, r) =>
        (if inplace then e_X s else m,
         do _ <- r;
         if forallb (fun n => mem_str n (map fst (e_X s))) (e_cols s ++ pass) then Ok (select (e_cols s ++ pass) (e_X s), e_feats s) else Err KeyError)
      end.
End Inplace.
