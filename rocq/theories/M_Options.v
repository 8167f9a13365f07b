(** Reading the user's primitive_options: primitives/options_utils.py L12-45 and L100-159, with the type checks and the
    warnings that [M_Match.init_primitive_options] leaves out. *)
From Coq Require Import List String Bool ZArith Arith.
From Verif Require Import Base M_Match.
Import ListNotations.
Open Scope string_scope.

(** Python objects that can be met in the options: the others behave like numbers here (hashable, of no expected type) *)
Inductive pv : Type := PStr (s : string) | PNum (z : Z) | PList (l : list pv) | PDict (d : list (pv * pv)).
(** lists and dicts cannot be hashed *)
Definition hashable (v : pv) : bool := match v with PStr _ | PNum _ => true | _ => false end.
(** [==] between a hashable object and the name of an entity or variable *)
Definition is_name (s : string) (v : pv) : bool := match v with PStr t => String.eqb s t | _ => false end.
(** L54-55 entityset_dict: the variables of each entity *)
Definition esdict : Type := list (string * list string).
(** [v in es] for a dict: hashes v *)
Definition in_es (es : esdict) (v : pv) : res bool :=
  if hashable v then Ok (existsb (fun e => is_name (fst e) v) es) else Err TypeError.
(** [v in es[e]]: a list, compared one by one *)
Definition in_vars (es : esdict) (e v : pv) : bool :=
  existsb (fun ev => is_name (fst ev) e && existsb (fun x => is_name x v) (snd ev)) es.
(** set(l) *)
Definition to_set (l : list pv) : res (list pv) := if forallb hashable l then Ok l else Err TypeError.

Inductive warning : Type := WEntity (e : pv) | WVariable (v e : pv).
Definition is_list (v : pv) : bool := match v with PList _ => true | _ => false end.
Definition elements (v : pv) : list pv := match v with PList l => l | _ => [] end.

(** L38-45 [list_entity_check]: [None] when the check fails, otherwise the warnings *)
Definition list_entity_check (es : esdict) (o : pv) : res (option (list warning)) :=
  match o with
  | PList l => do ws <- mapM (fun e => do b <- in_es es e; Ok (if b then [] else [WEntity e])) l; Ok (Some (List.concat ws))
  | _ => Ok None
  end.
(** L24-36 [dict_to_list_variable_check] *)
Definition dict_to_list_variable_check (es : esdict) (o : pv) : res (option (list warning)) :=
  match o with
  | PDict d =>
    if forallb (fun kv => is_list (snd kv)) d then
      do ws <- mapM (fun kv => do b <- in_es es (fst kv);
                               Ok (if b then map (fun v => WVariable v (fst kv)) (filter (fun v => negb (in_vars es (fst kv) v)) (elements (snd kv)))
                                   else [WEntity (fst kv)])) d;
      Ok (Some (List.concat ws))
    else Ok None
  | _ => Ok None
  end.
(** L12-21 [_get_primitive_options] *)
Definition checks (es : esdict) : list (string * (pv -> res (option (list warning)))) :=
  [("ignore_entities", list_entity_check es);
   ("include_entities", list_entity_check es);
   ("ignore_variables", dict_to_list_variable_check es);
   ("include_variables", dict_to_list_variable_check es);
   ("ignore_groupby_entities", list_entity_check es);
   ("include_groupby_entities", list_entity_check es);
   ("ignore_groupby_variables", dict_to_list_variable_check es);
   ("include_groupby_variables", dict_to_list_variable_check es)].

(** keys of primitive_options as written: a name, a class (with its name) or an instance *)
Inductive ukey : Type := UName (n : string) | UClass (n : string) | UInst (i : nat).
(** L127-128: a class stands for its name *)
Definition okey_of (k : ukey) : okey := match k with UName n | UClass n => KName n | UInst i => KInst i end.
(** the message of L145, L148 joins the keys as strings, which fails with a TypeError for classes and instances *)
Definition complain (ks : list ukey) (e : err) : err :=
  if forallb (fun k => match k with UName _ => true | _ => false end) ks then e else TypeError.

(** a set of names, or a set of names for each entity *)
Inductive oval : Type := OSet (l : list pv) | ODict (d : list (pv * list pv)).
Definition odict : Type := list (string * oval).
Definition to_oval (o : pv) : res (option oval) :=
  match o with
  | PList l => do s <- to_set l; Ok (Some (OSet s))
  | PDict d => do d' <- mapM (fun kv => do s <- to_set (elements (snd kv)); Ok (fst kv, s)) d; Ok (Some (ODict d'))
  | _ => Ok None
  end.
(** L142-153, one item of the dict *)
Definition read_option (es : esdict) (ks : list ukey) (acc : odict * list warning) (kv : string * pv) : res (odict * list warning) :=
  match dget String.eqb (fst kv) (checks es) with
  | None => Err (complain ks KeyError)
  | Some chk =>
    do c <- chk (snd kv);
    match c with
    | None => Err (complain ks TypeError)
    | Some ws =>
      do v <- to_oval (snd kv);
      Ok (match v with Some x => dset String.eqb (fst kv) x (fst acc) | None => fst acc end, snd acc ++ ws)%list
    end
  end.
(** L139-159 [_init_option_dict]; the dict is given by its items, its keys are strings *)
Definition init_option_dict (es : esdict) (ks : list ukey) (d : list (string * pv)) : res (odict * list warning) :=
  do r <- foldM (read_option es ks) d ([], []);
  let a := match dget String.eqb "ignore_variables" (fst r) with Some _ => fst r | None => dset String.eqb "ignore_variables" (ODict []) (fst r) end in
  let b := match dget String.eqb "ignore_entities" a with Some _ => a | None => dset String.eqb "ignore_entities" (OSet []) a end in
  Ok (b, snd r).

(** the options as [M_Match] reads them: names that are not strings name nothing *)
Definition names_of (l : list pv) : list string := flat_map (fun v => match v with PStr s => [s] | _ => [] end) l.
Definition table_of (d : list (pv * list pv)) : edict := flat_map (fun kv => match fst kv with PStr s => [(s, names_of (snd kv))] | _ => [] end) d.
Definition get_set (k : string) (d : odict) : option (list string) := match dget String.eqb k d with Some (OSet l) => Some (names_of l) | _ => None end.
Definition get_dict (k : string) (d : odict) : option edict := match dget String.eqb k d with Some (ODict t) => Some (table_of t) | _ => None end.
Definition popt_of (d : odict) : popt :=
  mkPo (get_set "include_entities" d) (match get_set "ignore_entities" d with Some l => l | None => [] end)
       (get_dict "include_variables" d) (match get_dict "ignore_variables" d with Some l => l | None => [] end)
       (get_set "include_groupby_entities" d) (get_set "ignore_groupby_entities" d)
       (get_dict "include_groupby_variables" d) (get_dict "ignore_groupby_variables" d).

(** what the user wrote: a group of keys with one dict, or with one dict per input *)
Definition uraw : Type := list (list ukey * (list (string * pv) + list (list (string * pv)))).

Section Read.
  Variable es : esdict.
  (** number of inputs of the primitive a key stands for, [None] when there is no such primitive *)
  Variable arity_of : ukey -> option nat.

  (** L104-134, for one group *)
  Definition read_group (acc : list (okey * list odict) * list warning) (g : list ukey * (list (string * pv) + list (list (string * pv))))
      : res (list (okey * list odict) * list warning) :=
    do os <- match snd g with
             | inl o => do r <- init_option_dict es (fst g) o; Ok [r]
             | inr os =>
               do _ <- mapM (fun k => match arity_of k with None => Err ValueError | Some n => if Nat.eqb n (List.length os) then Ok tt else Err AssertionError end) (fst g);
               mapM (init_option_dict es (fst g)) os
             end;
    do fl <- foldM (fun acc k => match dget okey_eqb (okey_of k) acc with Some _ => Err KeyError | None => Ok (dset okey_eqb (okey_of k) (map fst os) acc) end)
                   (fst g) (fst acc);
    Ok (fl, snd acc ++ flat_map snd os)%list.
  (** L100-136 [_init_primitive_options] *)
  Definition read_options (u : uraw) : res (list (okey * list odict) * list warning) := foldM read_group u ([], []).
End Read.
