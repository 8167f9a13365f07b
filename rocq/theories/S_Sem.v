(** The meaning of a feature definition at a cutoff time, row by row: a recursive definition that
    mentions neither tries, nor frames, nor the order of calculation. *)
From Verif Require Import Base M_Schema M_Table M_Query M_Feature.

Section Sem.
  Variables (es : entityset) (T : Z) (tw : option window) (incl : bool).

  (** the rows of an entity as of the cutoff: what [query_by_values] returns for the whole entity.
      Which rows and cells those are is the subject of C02, C04 and C05. *)
  Definition rows_at (eid : string) : list row :=
    match query_by_values es eid None None None (Some T) tw incl with
    | Ok d => rows d
    | Err _ => []
    end.

  Definition index_of (eid : string) : string :=
    match es_get es eid with Ok e => e_index e | Err _ => ""%string end.
  Definition time_of (eid : string) : option string :=
    match es_get es eid with Ok e => e_time e | Err _ => None end.

  (** a missing value is replaced by the default of the feature *)
  Definition or_default (d v : val) : val := if is_null v then d else v.

  (** the row of [rs] whose column [c] holds [v] *)
  Definition row_with (c : string) (v : val) (rs : list row) : option row :=
    find (fun r => val_eqb (cell c r) v) rs.

  (** the element of column [col] that belongs to the row of [rs] with index value [v] *)
  Definition at_row (idx : string) (rs : list row) (v : val) (col : list val) : val :=
    match find (fun x => val_eqb (fst x) v) (combine (map (cell idx) rs) col) with
    | Some x => snd x
    | None => VNull
    end.

  (** [owner path c]: the index value of the row of the first entity of [path] that row [c] of the last
      entity belongs to, following the links through rows visible at the cutoff *)
  Fixpoint owner (path : list relationship) (c : row) : val :=
    match path with
    | [] => VNull
    | r :: rest =>
      match rest with
      | [] => cell (r_cv r) c
      | r' :: _ =>
        match row_with (r_pv r') (owner rest c) (rows_at (r_ce r)) with
        | Some m => cell (r_cv r) m
        | None => VNull
        end
      end
    end.

  (** the last [n] elements of a list *)
  Definition last_obs {A} (n : Z) (l : list A) : list A := skipn (List.length l - Z.to_nat n) l.

  (** the rows kept by [use_previous]: those stamped at or after cutoff minus the delta, or the last n *)
  Definition previous (d : option tdelta) (ti : option string) (rs : list row) : list row :=
    match d with
    | None => rs
    | Some d =>
      match dget String.eqb "o"%string (td_times d), ti with
      | Some n, _ => last_obs n rs
      | None, None => rs
      | None, Some ti => filter (fun r => v_ge (cell ti r) (td_sub d T)) rs
      end
    end.

  Definition time_arg (p : prim) : option Z := if p_time p then Some T else None.

  (** [sem f r]: the output values of feature [f] for row [r] of its entity *)
  Fixpoint sem (f : feat) (r : row) : list val :=
    match f with
    | FIdent _ v _ => [cell v r]
    | FDirect rel b _ =>
      match row_with (r_pv rel) (cell (r_cv rel) r) (rows_at (r_pe rel)) with
      | Some pr => map (or_default (fdefault b)) (sem b pr)
      | None => repeat (fdefault b) (fnout b)
      end
    | FTrans p bs _ =>
      let rs := rows_at (fentity f) in
      let idx := index_of (fentity f) in
      let outs := p_trans p (time_arg p) (map (fun b => map (fun r' => hd VNull (sem b r')) rs) bs) in
      map (at_row idx rs (cell idx r)) outs
    | FGroup p bs g _ =>
      let key := hd VNull (sem g r) in
      if is_null key then repeat (p_default p) (p_nout p)
      else
        let rs := filter (fun r' => val_eqb (hd VNull (sem g r')) key) (rows_at (fentity f)) in
        let idx := index_of (fentity f) in
        let outs := p_trans p (time_arg p) (map (fun b => map (fun r' => hd VNull (sem b r')) rs) bs) in
        map (fun c => or_default (p_default p) (at_row idx rs (cell idx r) c)) outs
    | FAgg p bs path _ wh prev _ =>
      let ce := match bs with b :: _ => fentity b | [] => ""%string end in
      let mine := filter (fun c => val_eqb (owner path c) (cell (index_of (fentity f)) r)) (rows_at ce) in
      let kept := match wh with
                  | Some w => filter (fun c => match hd VNull (sem w c) with VBool b => b | _ => false end) mine
                  | None => mine
                  end in
      match previous prev (time_of ce) kept with
      | [] => repeat (p_default p) (p_nout p)
      | rs => map (or_default (p_default p))
                (p_agg p (time_arg p) (map (fun b => map (fun c => hd VNull (sem b c)) rs) bs))
      end
    | FSlice b n _ => [nth n (sem b r) VNull]
    end.

  (** the output values of feature [f] for instance [i] of its entity: defaults when no row of the
      instance is visible at the cutoff *)
  Definition value_of (f : feat) (i : val) : list val :=
    match row_with (index_of (fentity f)) i (rows_at (fentity f)) with
    | Some r => sem f r
    | None => repeat (fdefault f) (fnout f)
    end.
End Sem.
