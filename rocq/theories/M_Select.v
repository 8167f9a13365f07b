(** Models selection/selection.py.  A feature matrix is a list of named columns. *)
From Coq Require Import QArith.
From Verif Require Import Base M_Schema M_Feature.
Local Close Scope Q_scope.

Definition fmatrix : Type := list (string * list val).

(** [feature_matrix[keep]]: for each name all the columns of that name, in the order of [keep] *)
Definition select (keep : list string) (m : fmatrix) : fmatrix :=
  flat_map (fun k => filter (fun c => String.eqb (fst c) k) m) keep.

(** [Series.to_dict()] of a per-column result: with repeated names the last one wins *)
Definition to_dict {V} (g : list val -> V) (m : fmatrix) : list (string * V) :=
  fold_left (fun d c => dset String.eqb (fst c) (g (snd c)) d) m [].

(** [Series.nunique(dropna)] *)
Definition nunique (dropna : bool) (col : list val) : nat :=
  List.length (dedup_by val_eqb [] (if dropna then filter (fun v => negb (is_null v)) col else col)).

(** [isnull().mean()] of a column; NaN ([None]) without rows *)
Definition null_mean (col : list val) : option Q :=
  match List.length col with
  | 0 => None
  | S k => Some (Qmake (Z.of_nat (List.length (filter is_null col))) (Pos.of_succ_nat k))
  end.
(** comparisons with NaN are false *)
Definition mean_le (p : option Q) (t : Q) : bool := match p with Some p => Qle_bool p t | None => false end.
Definition mean_lt (p : option Q) (t : Q) : bool := match p with Some p => negb (Qle_bool t p) | None => false end.

Section Selection.
  Variable rels : list relationship.

  (** L153-172 [_apply_feature_selection]; [f[i]] is FeatureOutputSlice(f, i) *)
  Definition select_features (names : list string) (fs : list feat) : list feat :=
    flat_map (fun f =>
      if (1 <? fnout f)%nat then
        let slices := filter (fun s => mem_str (fname rels s) names) (map (fun i => FSlice f i None) (seq 0 (fnout f))) in
        if (List.length slices =? fnout f)%nat then [f] else slices
      else if mem_str (fname rels f) names then [f] else []) fs.
  Definition apply_selection (keep : list string) (m : fmatrix) (fs : list feat) : fmatrix * list feat :=
    let m' := select keep m in (m', select_features (map fst m') fs).

  (** L4-23 [remove_low_information_features] *)
  Definition remove_low_information (m : fmatrix) (fs : list feat) : fmatrix * list feat :=
    let keep := map fst (filter (fun c => (1 <? nunique false (snd c))%nat &&
                                          (0 <? List.length (filter (fun v => negb (is_null v)) (snd c)))%nat) m) in
    let m' := select keep m in (m', filter (fun f => mem_str (fname rels f) (map fst m')) fs).

  (** L26-53 [remove_highly_null_features] *)
  Definition remove_highly_null (t : Q) (m : fmatrix) (fs : list feat) : res (fmatrix * list feat) :=
    if (negb (Qle_bool 0 t) || negb (Qle_bool t 1))%bool then Err ValueError
    else
      let pct := to_dict null_mean m in
      let keep := map fst (filter (fun np => if Qeq_bool t 0 then mean_le (snd np) t else mean_lt (snd np) t) pct) in
      Ok (apply_selection keep m fs).

  (** L56-77 [remove_single_value_features] *)
  Definition remove_single_value (count_nan : bool) (m : fmatrix) (fs : list feat) : fmatrix * list feat :=
    let counts := to_dict (nunique (negb count_nan)) m in
    apply_selection (map fst (filter (fun nc => (1 <? snd nc)%nat) counts)) m fs.

  (** L124-150: [numeric]: select_dtypes keeps the column; [corr]: the absolute value of [Series.corr], [None] for NaN.
      [earlier] are the columns to the left, nearest first. *)
  Variable numeric : list val -> bool.
  Variable corr : list val -> list val -> option Q.
  Definition high (t : Q) (a b : list val) : bool := match corr a b with Some c => Qle_bool t c | None => false end.
  Fixpoint dropped_go (t : Q) (earlier_reversed : fmatrix) : list string :=
    match earlier_reversed with
    | [] => []
    | c :: rest => (if existsb (fun c' => high t (snd c) (snd c')) rest then [fst c] else []) ++ dropped_go t rest
    end.
  Definition dropped (t : Q) (m : fmatrix) : list string := dropped_go t (rev m).

  (** L80-150 [remove_highly_correlated_features]; [check] and [keep_always] are features_to_check and
      features_to_keep ([None]: not given).  A name twice in features_to_check makes corr fail (not modelled). *)
  Definition remove_highly_correlated (t : Q) (check keep_always : option (list string)) (m : fmatrix) (fs : list feat) :
      res (fmatrix * list feat) :=
    if (negb (Qle_bool 0 t) || negb (Qle_bool t 1))%bool then Err ValueError
    else
      do chk <- match check with
                | None => Ok (map fst m)
                | Some l => if forallb (fun n => mem_str n (map fst m)) l then Ok l else Err AssertionError
                end;
      let ka := match keep_always with Some l => l | None => [] end in
      let d := dropped t (filter (fun c => numeric (snd c)) (select chk m)) in
      Ok (apply_selection (filter (fun n => mem_str n ka || negb (mem_str n d)) (map fst m)) m fs).
End Selection.
