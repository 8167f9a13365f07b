(** Models entityset/entityset.py L763-906 [add_last_time_indexes] (pandas branch, datetime times). *)
From Verif Require Import Base M_Schema M_Table M_Query.

(** pd.to_datetime('1800-01-01 00:00') in nanoseconds since the epoch, L898-899 *)
Definition sentinel : Z := (-5364662400000000000)%Z.

(** a last_time_index series: index value -> last time *)
Definition series : Type := list (val * val).

(** L773-777 children[parent]: one entry per relationship *)
Definition lti_children (rels : list relationship) (pid : string) : list string :=
  map r_ce (filter (fun r => String.eqb (r_pe r) pid) rels).

(** L774-777 child_vars[parent][child]: a later relationship overwrites an earlier one *)
Definition child_var (rels : list relationship) (pid cid : string) : option string :=
  fold_left (fun acc r => if String.eqb (r_pe r) pid && String.eqb (r_ce r) cid then Some (r_cv r) else acc) rels None.

(** L812-826: the entity's own times (all missing when it has no time index) *)
Definition own_lti (e : entity) : series :=
  map (fun r => (cell (e_index e) r,
                 match e_time e with Some ti => cell ti r | None => VNull end)) (rows (e_df e)).

(** sort order of L876: by last_time then by link value, missing values last *)
Definition val_rank (v : val) : nat :=
  match v with VBool _ => 0 | VNum _ => 1 | VStr _ => 2 | VNull => 3 end.
Definition val_leb (a b : val) : bool :=
  match a, b with
  | VNum x, VNum y => Z.leb x y
  | VBool x, VBool y => implb x y
  | VStr x, VStr y => match String.compare x y with Gt => false | _ => true end
  | _, _ => Nat.leb (val_rank a) (val_rank b)
  end.
Definition lt_leb (a b : val * val) : bool :=   (* pairs (link, last_time) *)
  if val_eqb (snd a) (snd b) then val_leb (fst a) (fst b) else val_leb (snd a) (snd b).

(** L879-884: drop_duplicates(link, keep='last') then reindex: the last entry for label [i] *)
Definition last_for (i : val) (l : list (val * val)) : val :=
  fold_left (fun acc p => if val_eqb (fst p) i then snd p else acc) l VNull.

(** L896-899: fillna(1800-01-01), row-wise max, 1800-01-01 -> NaT *)
Definition fill (v : val) : Z := match v with VNum t => t | _ => sentinel end.
Definition max_time (a b : val) : val :=
  let m := Z.max (fill a) (fill b) in if Z.eqb m sentinel then VNull else VNum m.

(** L846-903 for one child entity *)
Definition merge_child (es : entityset) (lt : list (string * series)) (pid : string) (old : series) (cid : string)
  : res series :=
  match dget String.eqb cid lt with
  | None => Ok old                                                    (* L848-849 *)
  | Some child_lti =>
    do ce <- es_get es cid;
    match child_var (es_rels es) pid cid with
    | None => Err KeyError
    | Some link =>
      do _ <- check_col (e_df ce) link;
      let lti_df := map (fun r => (cell link r, lti_at child_lti (cell (e_index ce) r))) (rows (e_df ce)) in
      let sorted := isort lt_leb lti_df in
      Ok (map (fun iv => (fst iv, max_time (last_for (fst iv) sorted) (snd iv))) old)
    end
  end.

Definition subset_str (a b : list string) : bool := forallb (fun x => mem_str x b) a.

(** L839-841: children that are neither explored nor queued are appended to the queue *)
Definition enqueue_missing (chs explored queue : list string) : list string :=
  fold_left (fun q c => if mem_str c explored || mem_str c q then q else q ++ [c]) chs queue.

(** L808-905, the work list.  [lt] holds the last_time_index of the entities that have one. *)
Fixpoint lti_loop (fuel : nat) (es : entityset) (to_explore : list string)
    (lt : list (string * series)) (queue explored : list string) : res (list (string * series)) :=
  if subset_str to_explore explored then Ok lt
  else match fuel with
  | 0 => Err OutOfFuel
  | S fuel' =>
    match queue with
    | [] => Err IndexError                                             (* queue.pop(0) *)
    | eid :: queue' =>
      do e <- es_get es eid;
      let lt1 := match dget String.eqb eid lt with
                 | None => dset String.eqb eid (own_lti e) lt          (* L811-827 *)
                 | Some _ => lt
                 end in
      let chs := lti_children (es_rels es) eid in
      if subset_str chs explored then
        do s <- foldM (merge_child es lt1 eid) chs
                  (match dget String.eqb eid lt1 with Some s => s | None => [] end);
        lti_loop fuel' es to_explore (dset String.eqb eid s lt1) queue' (eid :: explored)
      else
        lti_loop fuel' es to_explore lt1 (enqueue_missing chs explored queue' ++ [eid]) explored   (* L833-843 *)
    end
  end.

(** L782-791: the updated entities and all their ancestors *)
Fixpoint lti_parents (fuel : nat) (rels : list relationship) (queue parents : list string) : res (list string) :=
  match queue with
  | [] => Ok parents
  | e :: q =>
    match fuel with
    | 0 => Err OutOfFuel
    | S fuel' =>
      if mem_str e parents then lti_parents fuel' rels q parents
      else lti_parents fuel' rels (q ++ map r_pe (get_forward_relationships rels e)) (e :: parents)
    end
  end.

Definition set_lti (lt : list (string * series)) (e : entity) : entity :=
  mkEntity (e_id e) (e_index e) (e_time e) (e_sec e) (dget String.eqb (e_id e) lt) (e_df e).

Definition es_with_lti (es : entityset) (lt : list (string * series)) : entityset :=
  mkES (map (set_lti lt) (es_ents es)) (es_rels es).

(** the last_time_index values kept from before the call: those of entities not in [reset] (L801-802) *)
Definition kept_lti (es : entityset) (reset : list string) : list (string * series) :=
  flat_map (fun e => if mem_str (e_id e) reset then []
                     else match e_lti e with Some s => [(e_id e, s)] | None => [] end) (es_ents es).

(** L763-906.  [updated = []] recomputes everything; otherwise [order] is the iteration order of the
    Python set of ancestors (L793). *)
Definition add_last_time_indexes (fuel : nat) (order : list string -> list string)
    (es : entityset) (updated : list string) : res entityset :=
  do queue <- match updated with
              | [] => Ok (map e_id (es_ents es))
              | _ => do ps <- lti_parents fuel (es_rels es) updated []; Ok (order ps)
              end;
  do lt <- lti_loop fuel es queue (kept_lti es queue) queue [];
  Ok (es_with_lti es lt).
