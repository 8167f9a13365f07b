(** The English description of a feature: feature_base/feature_descriptions.py, primitives/base/primitive_base.py L109-137
    and utils/description_utils.py.
    Simplifications: format strings are taken as parsed, and only the replacement fields {}, {i} and {nth_slice} are covered;
    features used as keys are the very objects described or equal ones of one column (comparing two equal features of several
    columns, or two features of different entities whose hashes collide, raises in feature_base.py L223-226, L640-655);
    reading the metadata file is left out, the dictionaries it holds are arguments; upper and lower case are parameters. *)
From Verif Require Import Base M_Schema M_Feature.

(** ** Format strings *)
Inductive piece : Type := Lit (s : string) | Next | Arg (i : nat) | Nth.
Definition template := list piece.
(** str.format of an argument: None is shown as its repr *)
Definition shown (a : option string) : string := match a with Some s => s | None => "None" end.
Definition get_arg (args : list (option string)) (i : nat) : res string :=
  match nth_error args i with Some a => Ok (shown a) | None => Err IndexError end.
(** [i] counts the automatic fields; [manual] tells that a numbered field was met (mixing the two is a ValueError) *)
Fixpoint format_from (i : nat) (manual : bool) (args : list (option string)) (nth : option string) (t : template) : res string :=
  match t with
  | [] => Ok ""
  | Lit s :: t => do r <- format_from i manual args nth t; Ok (s ++ r)
  | Next :: t => if manual then Err ValueError else do s <- get_arg args i; do r <- format_from (S i) manual args nth t; Ok (s ++ r)
  | Arg j :: t => if (0 <? i)%nat then Err ValueError else do s <- get_arg args j; do r <- format_from i true args nth t; Ok (s ++ r)
  | Nth :: t => match nth with None => Err KeyError | Some s => do r <- format_from i manual args nth t; Ok (s ++ r) end
  end%string.
Definition format := format_from 0 false.

(** utils/description_utils.py L1-11 *)
Definition convert_to_nth (n : nat) : string :=
  (string_of_nat n ++
   (if ((n mod 10 =? 1) && negb (n mod 100 =? 11))%nat then "st"
    else if ((n mod 10 =? 2) && negb (n mod 100 =? 12))%nat then "nd"
    else if ((n mod 10 =? 3) && negb (n mod 100 =? 13))%nat then "rd" else "th"))%string.

(** a description template: a string, or a list of one for the whole and others for the outputs (primitive_base.py L38-43) *)
Inductive templates : Type := One (t : template) | Many (l : list template).
Definition falsy (t : option templates) : bool := match t with None | Some (One []) | Some (Many []) => true | _ => false end.
Fixpoint join (sep : string) (l : list string) : string :=
  match l with [] => "" | [s] => s | s :: l => s ++ sep ++ join sep l end%string.
Definition all_strings (l : list (option string)) : res (list string) := mapM (fun a => match a with Some s => Ok s | None => Err TypeError end) l.

(** primitive_base.py L109-137 [get_description]; [own] is [self.description_template], [name] what L128 computes *)
Definition get_description (own override : option templates) (name : string) (inputs : list (option string)) (slice : option nat) : res string :=
  let t := if falsy override then own else override in
  if falsy t then
    do l <- all_strings inputs;
    Ok match slice with
       | Some n => ("the " ++ convert_to_nth (S n) ++ " output from applying " ++ name ++ " to " ++ join ", " l)%string
       | None => ("the result of applying " ++ name ++ " to " ++ join ", " l)%string
       end
  else match t with
    | Some (Many ts) =>
      match slice with
      | Some n =>
        match nth_error ts (S n) with
        | Some t => format inputs (Some (convert_to_nth (S n))) t
        | None => if (2 <? List.length ts)%nat then Err IndexError
                  else match nth_error ts 1 with Some t => format inputs (Some (convert_to_nth (S n))) t | None => Err IndexError end
        end
      | None => match ts with t :: _ => format inputs None t | [] => Err IndexError end
      end
    | Some (One t) => format inputs None t
    | None => Err TypeError
    end.

(** ** The dictionaries: keys are features (primitives) or names *)
Inductive dkey : Type := KFeat (f : feat) | KStr (s : string).
Inductive pkey : Type := PObj (i : nat) | PStr (s : string).

Section Words.
  Variable rels : list relationship.
  Variable vdesc : string -> string -> string.          (* Variable.description, variable.py L101-103 *)
  Variable index : string -> string.                    (* Entity.index *)
  Variable pname : prim -> option string.               (* PrimitiveBase.name *)
  Variable ptempl : prim -> option templates.           (* PrimitiveBase.description_template *)
  Variable pvalue : prim -> option string.              (* str(primitive.value), where there is such an attribute *)
  Variable pid : prim -> nat.                           (* identity of the object; primitives are compared by it *)
  Variables upper lower : string -> string.
  Variable descs : list (dkey * string).                (* feature_descriptions *)
  Variable overrides : list (pkey * templates).         (* primitive_templates *)

  (** feature_base.py L170-174: the string that is hashed; equality of features is always truthy (L223-226), so a key is found
      when the hashed strings agree, whether the key is a feature or that very string *)
  Definition fhash (f : feat) : string := (fname rels f ++ fentity f)%string.
  Definition khash (k : dkey) : string := match k with KFeat f => fhash f | KStr s => s end.
  Definition get_feature (f : feat) : option string := option_map snd (find (fun kd => String.eqb (khash (fst kd)) (fhash f)) descs).
  Definition get_str (s : string) : option string :=
    option_map snd (find (fun kd => match fst kd with KStr s' => String.eqb s' s | KFeat g => String.eqb (fhash g) s end) descs).
  Definition nonempty (d : option string) : option string := match d with Some EmptyString => None | d => d end.
  (** feature_descriptions.py L32-35; [Some None] is a description that turns out as None or as the empty string *)
  Definition custom (f : feat) : option (option string) :=
    match get_feature f, get_str (funique rels f) with
    | None, None => None
    | a, b => Some (match nonempty a with Some d => Some d | None => b end)
    end.

  (** L114-129 [get_direct_description] *)
  Fixpoint direct_chain (b : feat) (acc : string) : feat * string :=
    match b with
    | FDirect r b' _ => direct_chain b' (" the instance of """ ++ r_pe r ++ """ associated with" ++ acc)%string
    | _ => (b, (" for" ++ acc)%string)
    end.
  Definition get_direct_description (r : relationship) (b : feat) : feat * string :=
    direct_chain b (" the instance of """ ++ r_pe r ++ """ associated with this instance of """ ++ r_ce r ++ """")%string.

  (** L132-141 [get_aggregation_groupby]: the index of the entity of the feature; [Some None] as in [custom] *)
  Definition get_aggregation_groupby (e : string) : option string :=
    match custom (FIdent e (index e) None) with
    | Some d => d
    | None => Some ("""" ++ index e ++ """ in """ ++ e ++ """")%string
    end.

  (** [feature.primitive]; [None] is the PrimitiveBase of a direct feature (feature_base.py L410, L790) *)
  Definition fprim (f : feat) : option prim :=
    match f with
    | FAgg p _ _ _ _ _ _ | FTrans p _ _ | FGroup p _ _ _ => Some p
    | FSlice (FAgg p _ _ _ _ _ _) _ _ | FSlice (FTrans p _ _) _ _ | FSlice (FGroup p _ _ _) _ _ => Some p
    | _ => None
    end.
  Definition nonempty_t (t : option templates) : option templates := if falsy t then None else t.
  Definition get_prim (i : nat) : option templates := option_map snd (find (fun kt => match fst kt with PObj j => Nat.eqb j i | _ => false end) overrides).
  Definition get_pname (s : string) : option templates := option_map snd (find (fun kt => match fst kt with PStr s' => String.eqb s' s | _ => false end) overrides).
  (** L69-72 *)
  Definition override_of (p : prim) : option templates :=
    match nonempty_t (get_prim (pid p)) with
    | Some t => Some t
    | None => match pname p with Some n => get_pname n | None => None end
    end.
  (** L73-76 *)
  Definition primitive_description (f : feat) (inputs : list (option string)) : res string :=
    let slice := match f with FSlice _ n _ => Some n | _ => None end in
    match fprim f with
    | Some p => get_description (ptempl p) (override_of p) (match pname p with Some n => upper n | None => p_name p end) inputs slice
    | None => get_description None None "PrimitiveBase" inputs slice
    end.

  Definition drop_the (s : string) : string := if String.prefix "the " s then String.substring 4 (String.length s - 4) s else s.
  (** L82-88 *)
  Definition groupby_phrase (d : option string) : string :=
    match d with None => ""%string | Some d => ("for each " ++ drop_the d)%string end.
  (** L90-98 *)
  Definition entity_phrase (f : feat) : string :=
    match f with
    | FAgg _ _ path _ _ prev _ =>
      ((match prev with Some d => "of the previous " ++ lower (td_name d) ++ " of " | None => "of all instances of " end) ++
       """" ++ match rev path with r :: _ => r_ce r | [] => "" end ++ """")%string
    | _ => ""%string
    end.
  Definition is_empty (s : string) : bool := match s with EmptyString => true | _ => false end.

  (** L30-111 [generate_description], with the recursion bounded by [fuel] *)
  Fixpoint generate (fuel : nat) (f : feat) : res (option string) :=
    match custom f with
    | Some d => Ok d
    | None =>
      match fuel with
      | 0 => Err OutOfFuel
      | S fuel =>
        match f with
        | FIdent e v _ => Ok (Some (vdesc e v))
        | FDirect r b _ =>
          let '(b', phrase) := get_direct_description r b in
          do d <- generate fuel b';
          match d with Some d => Ok (Some (d ++ phrase)%string) | None => Err TypeError end
        | _ =>
          do inputs <- mapM (generate fuel) (match f with FSlice b _ _ => fbases b | _ => fbases f end);
          let '(inputs, group) := match f with FGroup _ _ _ _ => (removelast inputs, List.last inputs None) | _ => (inputs, None) end in
          do prim <- primitive_description f inputs;
          let f := match f with FSlice b _ _ => b | _ => f end in
          let groupby := groupby_phrase (match f with FAgg _ _ _ _ _ _ _ => get_aggregation_groupby (fentity f) | _ => group end) in
          do wh <- match fwhere f with
                   | None => Ok ""%string
                   | Some w =>
                     match fbases w with
                     | [] => Err IndexError
                     | b :: _ =>
                       do d <- generate fuel b;
                       match fprim w with
                       | Some p => match pvalue p with Some v => Ok ("where " ++ shown d ++ " is " ++ v)%string | None => Err AttributeError end
                       | None => Err AttributeError
                       end
                     end
                   end;
          Ok (Some (join " " (filter (fun s => negb (is_empty s)) [prim; entity_phrase f; wh; groupby])))
        end
      end
    end.
  (** L6-27 [describe_feature], once the dictionaries are merged *)
  Definition describe_feature (fuel : nat) (f : feat) : res string :=
    do d <- generate fuel f;
    match d with
    | None => Err TypeError
    | Some EmptyString => Ok (upper "" ++ ".")%string
    | Some (String c s) => Ok (upper (String c "") ++ s ++ ".")%string
    end.
End Words.
(** L24-26, {**file, **given}: a key of the second that is equal to one of the first replaces its value *)
Definition merge (rels : list relationship) (file given : list (dkey * string)) : list (dkey * string) :=
  fold_left (fun d kd =>
    if existsb (fun kd' => String.eqb (khash rels (fst kd')) (khash rels (fst kd))) d
    then map (fun kd' => if String.eqb (khash rels (fst kd')) (khash rels (fst kd)) then (fst kd', snd kd) else kd') d
    else d ++ [kd]) given file.
