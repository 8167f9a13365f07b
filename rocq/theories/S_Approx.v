(** The meaning of features when the values of some of them are given: [given f = Some g] says that feature [f] has the
    values [g r] for row [r]; every other feature has its usual meaning (S_Sem.v) in terms of its inputs. *)
From Verif Require Import Base M_Schema M_Table M_Query M_Feature M_FeatureSet S_Calc S_Plan S_Sem.

Section SemWith.
  Variables (es : entityset) (T : Z) (tw : option window) (incl : bool) (given : feat -> option (row -> list val)).
  Notation rows_at := (rows_at es T tw incl).

  Fixpoint sem_with (f : feat) (r : row) : list val :=
    match given f with
    | Some g => g r
    | None =>
      match f with
      | FIdent _ v _ => [cell v r]
      | FDirect rel b _ =>
        match row_with (r_pv rel) (cell (r_cv rel) r) (rows_at (r_pe rel)) with
        | Some pr => map (or_default (fdefault b)) (sem_with b pr)
        | None => repeat (fdefault b) (fnout b)
        end
      | FTrans p bs _ =>
        let rs := rows_at (fentity f) in
        let idx := index_of es (fentity f) in
        let outs := p_trans p (time_arg T p) (map (fun b => map (fun r' => hd VNull (sem_with b r')) rs) bs) in
        map (at_row idx rs (cell idx r)) outs
      | FGroup p bs g _ =>
        let key := hd VNull (sem_with g r) in
        if is_null key then repeat (p_default p) (p_nout p)
        else
          let rs := filter (fun r' => val_eqb (hd VNull (sem_with g r')) key) (rows_at (fentity f)) in
          let idx := index_of es (fentity f) in
          let outs := p_trans p (time_arg T p) (map (fun b => map (fun r' => hd VNull (sem_with b r')) rs) bs) in
          map (fun c => or_default (p_default p) (at_row idx rs (cell idx r) c)) outs
      | FAgg p bs path _ wh prev _ =>
        let ce := match bs with b :: _ => fentity b | [] => ""%string end in
        let mine := filter (fun c => val_eqb (owner es T tw incl path c) (cell (index_of es (fentity f)) r)) (rows_at ce) in
        let kept := match wh with
                    | Some w => filter (fun c => match hd VNull (sem_with w c) with VBool b => b | _ => false end) mine
                    | None => mine
                    end in
        match previous T prev (time_of es ce) kept with
        | [] => repeat (p_default p) (p_nout p)
        | rs => map (or_default (p_default p))
                  (p_agg p (time_arg T p) (map (fun b => map (fun c => hd VNull (sem_with b c)) rs) bs))
        end
      | FSlice b n _ => [nth n (sem_with b r) VNull]
      end
    end.
End SemWith.

Definition is_aggregation (f : feat) : Prop := match f with FAgg _ _ _ _ _ _ _ => True | _ => False end.

(** the values of feature [f] for instance [i] of its entity, as [value_of] in S_Sem.v *)
Definition value_with (es : entityset) (T : Z) (tw : option window) (incl : bool) (given : feat -> option (row -> list val)) (f : feat) (i : val) : list val :=
  match row_with (index_of es (fentity f)) i (rows_at es T tw incl (fentity f)) with
  | Some r => sem_with es T tw incl given f r
  | None => repeat (fdefault f) (fnout f)
  end.

(** [leads f p a]: [f] copies [a] from the entity at the end of path [p], through a chain of direct features; [a] itself is
    not a copy *)
Inductive leads : feat -> list edge -> feat -> Prop :=
| leads_one r b nm : (forall r' b' nm', b <> FDirect r' b' nm') -> leads (FDirect r b nm) [(true, r)] b
| leads_more r b nm p a : leads b p a -> leads (FDirect r b nm) ((true, r) :: p) a.

(** which features may be approximated, and where: aggregations of ancestor entities that a requested feature copies, unless
    that feature is used by a feature that needs the full entity (docstring of calculate_feature_matrix: "approximate ... will
    approximate features of parent entities"; gather_approximate_features) *)
Definition approximable (fs : list feat) (p : list edge) (a : feat) : Prop :=
  is_aggregation a /\ exists f, In f fs /\ leads f p a /\ forall g, needed fs g -> reaches g f -> uses_full g = false.

(** [given] holds the values at time [F] of the approximated aggregations, and of nothing else *)
Definition rounded_values (es : entityset) (tw : option window) (incl : bool) (fs : list feat) (F : Z) (given : feat -> option (row -> list val)) : Prop :=
  (forall f g, given f = Some g -> is_aggregation f) /\
  forall a, needed fs a ->
    ((exists p, approximable fs p a) -> given a = Some (fun r => value_of es F tw incl a (cell (index_of es (fentity a)) r))) /\
    ((forall p, ~ approximable fs p a) -> given a = None).

(** the approximated features of each path, by name *)
Definition approximated_at (rels : list relationship) (fs : list feat) (p : list edge) (n : string) : Prop :=
  exists a, approximable fs p a /\ n = funique rels a.

(** approximated aggregations are used nowhere else, and where they are used no feature needs the full entity *)
Record separate (rels : list relationship) (fs : list feat) : Prop := {
  sp_only : forall p b f q, planned rels (approximated_at rels fs) fs p b f -> ~ approximable fs q f;
  sp_full : forall p a, approximable fs p a -> ~ full_needed rels (approximated_at rels fs) fs p
}.
