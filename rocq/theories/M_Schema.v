(** Relationships, relationship paths and graph traversals of an entity set.
    Models entityset/relationship.py and entityset/entityset.py L298-430. *)
From Verif Require Import Base.

(** entityset/relationship.py L8-27: a relationship is determined by four ids
    (equality L44-51 and hash L53-57 use exactly these four). *)
Record relationship : Type := mkRel {
  r_pe : string;   (* parent entity id *)
  r_pv : string;   (* parent variable id *)
  r_ce : string;   (* child entity id *)
  r_cv : string    (* child variable id *)
}.

(** relationship.py L44-51 [Relationship.__eq__] *)
Definition rel_eqb (a b : relationship) : bool :=
  String.eqb (r_pe a) (r_pe b) && String.eqb (r_ce a) (r_ce b) &&
  String.eqb (r_pv a) (r_pv b) && String.eqb (r_cv a) (r_cv b).

(** An edge of a RelationshipPath: (is_forward, relationship), relationship.py L115-117 *)
Definition edge : Type := (bool * relationship)%type.
Definition edge_eqb (a b : edge) : bool := Bool.eqb (fst a) (fst b) && rel_eqb (snd a) (snd b).

(** entityset.py L396-405 [get_forward_relationships]: [e] is the child *)
Definition get_forward_relationships (rels : list relationship) (e : string) : list relationship :=
  filter (fun r => String.eqb (r_ce r) e) rels.

(** entityset.py L407-417 [get_backward_relationships]: [e] is the parent *)
Definition get_backward_relationships (rels : list relationship) (e : string) : list relationship :=
  filter (fun r => String.eqb (r_pe r) e) rels.

(** relationship.py L103-112 [_is_unique]; the assertion n > 0 is the error case *)
Definition rel_is_unique (rels : list relationship) (r : relationship) : res bool :=
  let n := List.length (filter (fun r' => String.eqb (r_pe r') (r_pe r))
                          (get_forward_relationships rels (r_ce r))) in
  match n with
  | 0 => Err AssertionError
  | 1 => Ok true
  | _ => Ok false
  end.

Definition bracket (e v : string) : string := (e ++ "[" ++ v ++ "]")%string.

(** relationship.py L79-85 [parent_name] *)
Definition rel_parent_name (rels : list relationship) (r : relationship) : res string :=
  do u <- rel_is_unique rels r;
  Ok (if u then r_pe r else bracket (r_pe r) (r_cv r)).

(** relationship.py L87-93 [child_name] *)
Definition rel_child_name (rels : list relationship) (r : relationship) : res string :=
  do u <- rel_is_unique rels r;
  Ok (if u then r_ce r else bracket (r_ce r) (r_cv r)).

(** relationship.py L171-175 [_direction_name] *)
Definition direction_name (rels : list relationship) (e : edge) : res string :=
  if fst e then rel_parent_name rels (snd e) else rel_child_name rels (snd e).

(** relationship.py L119-124 [RelationshipPath.name] *)
Definition path_name (rels : list relationship) (p : list edge) : res string :=
  do ns <- mapM (direction_name rels) p;
  Ok (String.concat "." ns).

(** relationship.py L126-140 [RelationshipPath.entities] *)
Definition path_entities (p : list edge) : list string :=
  match p with
  | [] => []
  | (fw, r) :: _ =>
    (if fw then r_ce r else r_pe r) ::
    map (fun e : edge => if fst e then r_pe (snd e) else r_ce (snd e)) p
  end.

(** entityset.py L330-354 [_forward_entity_paths]: depth-first search; the set of seen
    entities is copied for each relationship (L352).  [fuel] bounds the recursion depth;
    running out is the error [OutOfFuel], which the theorems exclude. *)
Fixpoint forward_entity_paths (fuel : nat) (rels : list relationship) (start : string) (seen : list string)
  : res (list (string * list relationship)) :=
  if mem_str start seen then Ok []                                       (* L341-342 *)
  else match fuel with
  | 0 => Err OutOfFuel
  | S fuel' =>
    do subs <- mapM (fun r =>
        do ds <- forward_entity_paths fuel' rels (r_pe r) (start :: seen); (* L349-352 *)
        Ok (map (fun ep => (fst ep, r :: snd ep)) ds))                   (* L353-354 *)
      (get_forward_relationships rels start);
    Ok ((start, []) :: List.concat subs)                                 (* L346 *)
  end.

(** the generator needs at most one level per distinct entity on a path; [length rels + 1] levels *)
Definition path_fuel (rels : list relationship) : nat := S (List.length rels).

(** entityset.py L298-312 [find_forward_paths] *)
Definition find_forward_paths (rels : list relationship) (start goal : string) : res (list (list relationship)) :=
  do l <- forward_entity_paths (path_fuel rels) rels start [];
  Ok (map snd (filter (fun ep => String.eqb (fst ep) goal) l)).

(** entityset.py L314-328 [find_backward_paths] *)
Definition find_backward_paths (rels : list relationship) (start goal : string) : res (list (list relationship)) :=
  do l <- find_forward_paths rels goal start;
  Ok (map (@rev relationship) l).

(** entityset.py L419-430 [has_unique_forward_path]; no path at all raises (StopIteration,
    rendered as RuntimeError); a second path that is an empty list would be falsy (L430) *)
Definition has_unique_forward_path (rels : list relationship) (start goal : string) : res bool :=
  do l <- find_forward_paths rels start goal;
  match l with
  | [] => Err RuntimeError
  | [_] => Ok true
  | _ :: [] :: _ => Ok true
  | _ :: (_ :: _) :: _ => Ok false
  end.

(** entityset.py L366-374 / L386-394: the common shape of [get_forward_entities] and
    [get_backward_entities].  [src]/[dst] are the ends of a relationship in the direction of
    travel.  There is no cycle check in the code. *)
Section DeepEntities.
  Variables (src dst : relationship -> string) (fw : bool).
  Fixpoint related_entities (fuel : nat) (rels : list relationship) (e : string) (deep : bool)
    : res (list (string * list edge)) :=
    match fuel with
    | 0 => Err OutOfFuel
    | S fuel' =>
      do subs <- mapM (fun r =>
          do ds <- (if deep then related_entities fuel' rels (dst r) true else Ok []);
          Ok ((dst r, [(fw, r)]) :: map (fun ep => (fst ep, (fw, r) :: snd ep)) ds))
        (filter (fun r => String.eqb (src r) e) rels);
      Ok (List.concat subs)
    end.
End DeepEntities.

(** entityset.py L356-374 [get_forward_entities] *)
Definition get_forward_entities := related_entities r_ce r_pe true.
(** entityset.py L376-394 [get_backward_entities] *)
Definition get_backward_entities := related_entities r_pe r_ce false.
