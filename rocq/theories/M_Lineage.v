(** The lineage graph of a feature: models feature_base/feature_visualizer.py L31-241
    ([graph_feature], [get_feature_data], [add_entity], [get_entity_table]).
    Not modelled: graphviz itself, file formats, HTML markup and escaping, fonts and node shapes, the
    caption (L101-104), saving to a file. *)
From Verif Require Import Base M_Schema M_Feature.

(** L55-58: what the recursion collects.  [l_ents] are the keys of [entities] in insertion order,
    [l_vars]/[l_feats] the (entity, name) pairs of the sets ['vars'] and ['feats'] (L202-208),
    [l_prims] the primitive nodes (node, label, layer, type), [l_groups] the group-by nodes,
    [l_dotted] is [edges[0]] and [l_solid] is [edges[1]]. *)
Record lin : Type := mkLin {
  l_ents : list string;
  l_vars : list (string * string);
  l_feats : list (string * string);
  l_prims : list (string * string * nat * string);
  l_groups : list (string * string);
  l_dotted : list (string * string);
  l_solid : list (string * string)
}.
Definition lin0 : lin := mkLin [] [] [] [] [] [] [].

Definition key_eqb (a b : string * string) : bool := String.eqb (fst a) (fst b) && String.eqb (snd a) (snd b).
Definition mem_key (k : string * string) (l : list (string * string)) : bool := existsb (key_eqb k) l.

(** L115-116, L153-154, L159-160, L202-208 *)
Definition add_ent (e : string) (st : lin) : lin :=
  if mem_str e (l_ents st) then st
  else mkLin (l_ents st ++ [e]) (l_vars st) (l_feats st) (l_prims st) (l_groups st) (l_dotted st) (l_solid st).
(** L125, L155, L161, L178 *)
Definition add_var (k : string * string) (st : lin) : lin :=
  mkLin (l_ents st) (k :: l_vars st) (l_feats st) (l_prims st) (l_groups st) (l_dotted st) (l_solid st).
(** L127, L180 *)
Definition add_feat (k : string * string) (st : lin) : lin :=
  mkLin (l_ents st) (l_vars st) (k :: l_feats st) (l_prims st) (l_groups st) (l_dotted st) (l_solid st).
(** L144 *)
Definition add_prim (p : string * string * nat * string) (st : lin) : lin :=
  mkLin (l_ents st) (l_vars st) (l_feats st) (l_prims st ++ [p]) (l_groups st) (l_dotted st) (l_solid st).
(** L166, L186 *)
Definition add_group (g : string * string) (st : lin) : lin :=
  mkLin (l_ents st) (l_vars st) (l_feats st) (l_prims st) (l_groups st ++ [g]) (l_dotted st) (l_solid st).
(** L157, L167, L187 *)
Definition add_dotted (a b : string) (st : lin) : lin :=
  mkLin (l_ents st) (l_vars st) (l_feats st) (l_prims st) (l_groups st) (l_dotted st ++ [(a, b)]) (l_solid st).
(** L146, L168, L188, L195 *)
Definition add_solid (a b : string) (st : lin) : lin :=
  mkLin (l_ents st) (l_vars st) (l_feats st) (l_prims st) (l_groups st) (l_dotted st) (l_solid st ++ [(a, b)]).

Definition colon : Ascii.ascii := Ascii.ascii_of_nat 58.
(** L163, L183: [s.replace(':', '--')] *)
Fixpoint dashes (s : string) : string :=
  match s with
  | EmptyString => EmptyString
  | String c s' => if Ascii.eqb c colon then String "-" (String "-" (dashes s')) else String c (dashes s')
  end.

Section Lineage.
  Variable rels : list relationship.
  (** [primitive.name] of an instance, empty for none (primitive_base.py L13) *)
  Variable pname : prim -> string.
  (** [str.upper] (L144) *)
  Variable upper : string -> string.

  (** L114, L117: where a feature is listed *)
  Definition fkey (f : feat) : string * string := (fentity f, fname rels f).
  (** L120, L156, L162, L182 *)
  Definition col_node (k : string * string) : string := (fst k ++ ":" ++ snd k)%string.
  (** L121 *)
  Definition listed (k : string * string) (st : lin) : bool := mem_key k (l_vars st) || mem_key k (l_feats st).
  (** L124-127, L177-180 *)
  Definition mark (f : feat) (st : lin) : lin :=
    match f with FIdent _ _ _ => add_var (fkey f) st | _ => add_feat (fkey f) st end.

  (** [feat.primitive.name]: [PrimitiveBase] has none; a slice has the primitive of its base (feature_base.py L790) *)
  Fixpoint prim_name_of (f : feat) : string :=
    match f with
    | FIdent _ _ _ | FDirect _ _ _ => ""
    | FAgg p _ _ _ _ _ _ | FTrans p _ _ | FGroup p _ _ _ => pname p
    | FSlice b _ _ => prim_name_of b
    end%string.
  (** L138-142 *)
  Definition type_of (f : feat) : string :=
    match f with
    | FAgg _ _ _ _ _ _ _ => "Aggregation"
    | FTrans _ _ _ | FGroup _ _ _ _ => "Transform"
    | _ => ""
    end%string.
  (** L136-137: the primitive of the node drawn for a feature, if any *)
  Definition drawn_prim (f : feat) : option string :=
    match prim_name_of f with
    | EmptyString => match f with FDirect _ _ _ => Some "join"%string | _ => None end
    | s => Some s
    end.
  (** L143 *)
  Definition prim_node (layer : nat) (f : feat) (p : string) : string :=
    (string_of_nat layer ++ "_" ++ fname rels f ++ "_" ++ p)%string.
  (** L163-164, L183-184 *)
  Definition group_node (f : feat) (k : string * string) : string :=
    (fname rels f ++ "_groupby_" ++ dashes (col_node k))%string.

  (** L135-147 *)
  Definition prim_step (f : feat) (layer : nat) (node : string) (st : lin) : lin * string :=
    match drawn_prim f with
    | Some p =>
      let n := prim_node layer f p in
      (add_solid n node (add_prim (n, upper p, layer, type_of f) st), n)
    | None => (st, node)
    end.
  (** L166-169, L186-189 *)
  Definition group_step (f : feat) (k : string * string) (acc : lin * string) : lin * string :=
    let '(st, base) := acc in
    let n := group_node f k in
    (add_solid n base (add_dotted (col_node k) n (add_group (n, ("group by " ++ snd k)%string) st)), n).
  (** L151-169: one relationship of the path *)
  Definition link_step (f : feat) (acc : lin * string) (e : edge) : lin * string :=
    let '(st, base) := acc in
    let k := (r_ce (snd e), r_cv (snd e)) in
    let st := add_var k (add_ent (fst k) st) in
    if fst e then (add_dotted base (col_node k) st, base)                (* L152-157 *)
    else group_step f k (st, base).                                      (* L158-169 *)

  (** L112-128: listing a feature unless it is listed already; [go] is the rest of the function *)
  Definition enter (f : feat) (layer : nat) (st : lin) (go : string -> lin -> lin * nat) : lin * nat :=
    let st := add_ent (fentity f) st in
    if listed (fkey f) st then (st, layer)                               (* L121-122 *)
    else go (col_node (fkey f)) (mark f st).

  (** L193-197: after exploring a dependency *)
  Definition dep_step (base : string) (d : feat) (maxd : nat) (r : lin * nat) : lin * nat :=
    (add_solid (col_node (fkey d)) base (fst r), Nat.max (snd r) maxd).

  (** feature_base.py L170-171 [hash]: dependencies are compared by name and entity (L150, L174) *)
  Definition same_hash (a b : feat) : bool :=
    String.eqb (fname rels a ++ fentity a) (fname rels b ++ fentity b).

  (** L131-199, for a feature that has just been listed at [node].  The recursive calls of L173 and L194 list the
      dependency ([enter]) and go on with its base when it is a slice (L131-133).  A group-by feature explores its
      groupby first, drops the depth found there (L173) and removes it from the dependencies (L174: the first
      dependency with the same hash; [snd acc] tells whether that has happened). *)
  Fixpoint body (f : feat) (layer : nat) (node : string) (st : lin) {struct f} : lin * nat :=
    let '(st, base) := prim_step f layer node st in
    let '(st, base) := fold_left (link_step f) (fpath f) (st, base) in
    match f with
    | FIdent _ _ _ => (st, layer)
    | FDirect _ b _ | FSlice b _ _ =>
      dep_step base b layer
        (enter b (S layer) st (fun n s => match b with FSlice c _ _ => body c (S layer) n s | _ => body b (S layer) n s end))
    | FTrans _ bs _ =>
      fold_left (fun acc d => dep_step base d (snd acc)
        (enter d (S layer) (fst acc) (fun n s => match d with FSlice c _ _ => body c (S layer) n s | _ => body d (S layer) n s end)))
        bs (st, layer)
    | FAgg _ bs _ _ wh _ _ =>
      let acc := fold_left (fun acc d => dep_step base d (snd acc)
        (enter d (S layer) (fst acc) (fun n s => match d with FSlice c _ _ => body c (S layer) n s | _ => body d (S layer) n s end)))
        bs (st, layer) in
      match wh with
      | Some w => dep_step base w (snd acc)
        (enter w (S layer) (fst acc) (fun n s => match w with FSlice c _ _ => body c (S layer) n s | _ => body w (S layer) n s end))
      | None => acc
      end
    | FGroup _ bs g _ =>
      let sg := fst (enter g (S layer) st
                  (fun n s => match g with FSlice c _ _ => body c (S layer) n s | _ => body g (S layer) n s end)) in   (* L173 *)
      let '(st, base) := group_step f (fkey g) (mark g sg, base) in                                                    (* L176-189 *)
      let '(acc, gone) :=
        fold_left (fun (ag : lin * nat * bool) d =>
          let '(acc, gone) := ag in
          if negb gone && same_hash d g then (acc, true)
          else (dep_step base d (snd acc)
                 (enter d (S layer) (fst acc) (fun n s => match d with FSlice c _ _ => body c (S layer) n s | _ => body d (S layer) n s end)),
                gone))
          bs ((st, layer), false) in
      if gone then
        dep_step base g (snd acc)
          (enter g (S layer) (fst acc) (fun n s => match g with FSlice c _ _ => body c (S layer) n s | _ => body g (S layer) n s end))
      else acc
    end.

  (** L112 [get_feature_data(feat, ..., layer)] *)
  Definition explore (f : feat) (layer : nat) (st : lin) : lin * nat :=
    enter f layer st (fun n s => match f with FSlice c _ _ => body c layer n s | _ => body f layer n s end).

  (** L60 *)
  Definition lineage_data (f : feat) : lin * nat := explore f 0 lin0.

  (** L71-72: the number written as "Step n" on a primitive node *)
  Definition step_num (maxd : nat) (p : string * string * nat * string) : Z :=
    (Z.of_nat maxd - Z.of_nat (snd (fst p)))%Z.
  Definition steps (f : feat) : list (string * Z) :=
    map (fun p => (fst (fst (fst p)), step_num (snd (lineage_data f)) p)) (l_prims (fst (lineage_data f))).

  (** L61, L63-67, L211-241: the rows of the table of entity [e], each with the flag "shown as the target".
      Sets are lists without repeated elements; Python's order of a set is not modelled. *)
  Definition names_in (e : string) (l : list (string * string)) : list string :=
    dedup_by String.eqb [] (map snd (filter (fun k => String.eqb (fst k) e) l)).
  Definition without (l ts : list string) : list string := filter (fun x => negb (mem_str x ts)) l.
  Definition table_rows (index : string) (targets vars feats : list string) : list (string * bool) :=
    let variables := without vars targets in                                         (* L217 *)
    let fts := without feats targets in                                              (* L218 *)
    let '(rows, variables, targets) :=
      if mem_str index variables then ([(index, false)], without variables [index], targets)          (* L222-224 *)
      else if mem_str index targets then ([(index, true)], variables, without targets [index])        (* L225-227 *)
      else ([], variables, targets) in                                               (* L228-229 *)
    rows ++ map (fun x => (x, mem_str x targets)) (variables ++ fts ++ targets).     (* L231-237 *)
  Definition entity_rows (index : string -> string) (f : feat) (e : string) : list (string * bool) :=
    let st := fst (lineage_data f) in
    table_rows (index e) (if String.eqb e (fentity f) then [fname rels f] else [])
      (names_in e (l_vars st)) (names_in e (l_feats st)).
  (** L63-67: one table per entity; the flag tells the table marked as the target (L64) *)
  Definition tables (index : string -> string) (f : feat) : list (string * bool * list (string * bool)) :=
    map (fun e => (e, String.eqb e (fentity f), entity_rows index f e)) (l_ents (fst (lineage_data f))).
End Lineage.
