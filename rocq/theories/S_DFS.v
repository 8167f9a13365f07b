(** What deep feature synthesis should return: specification for C25-C29 and C55. *)
From Coq Require Import Permutation.
From Verif Require Import Base M_Schema M_Feature M_Types M_Match M_DFS S_Schema.

(** ** Primitive options that name an entity or a variable as included *)
Definition options_in (u : uopts) (o : popt) : Prop :=
  exists keys spec, In (keys, spec) u /\ match spec with inl o' => o = o' | inr os => In o os end.
Definition option_includes (u : uopts) (e : string) : Prop :=
  exists o, options_in u o /\ ((exists l, o_inc_e o = Some l /\ In e l) \/ (exists i vs, o_inc_v o = Some i /\ In (e, vs) i)).
Definition option_includes_variable (u : uopts) (e v : string) : Prop :=
  exists o i vs, options_in u o /\ o_inc_v o = Some i /\ In (e, vs) i /\ In v vs.
(** ... or name variables of an entity to group by *)
Definition option_groups (u : uopts) (e : string) : Prop :=
  exists o i vs, options_in u o /\ o_inc_gv o = Some i /\ In (e, vs) i.

(** [c] occurs in [s] *)
Definition contains (c s : string) : Prop := exists a b, s = (a ++ c ++ b)%string.

(** [f] is not deeper than [g] *)
Definition not_deeper (rels : list relationship) (f g : feat) : Prop :=
  forall n k, get_depth rels None f = Ok n -> get_depth rels None g = Ok k -> n <= k.

(** ** One step of a generated feature *)
Section Requested.
  Variable variables : string -> list string.
  Variable vtypes : string -> string -> option vtyp.
  Variable interesting : string -> string -> list val.
  Variable rels : list relationship.
  Variable p_ret : prim -> option vtyp.
  Variable p_inputs : prim -> option (list (list vtyp)).
  Variable class_of : prim -> nat.
  Variable subclass : nat -> nat -> bool.
  Variable eq_prim : val -> prim.
  Variable A : dfs_args.
  (** the inputs have the types of one of the primitive's signatures *)
  Definition fits (p : prim) (m : list feat) : Prop :=
    forall sigs, p_inputs p = Some sigs -> exists ts, In ts sigs /\ forall i f t, nth_error m i = Some f -> nth_error ts i = Some t -> issub (ftype p_ret vtypes f) t = true.
  (** one input per declared type of the first signature, in some order (commutative primitives reorder them) *)
  Definition takes (p : prim) (m : list feat) : Prop :=
    forall ts sigs, p_inputs p = Some (ts :: sigs) -> exists t, Permutation t m /\ Forall2 (fun f ty => issub (ftype p_ret vtypes f) ty = true) t ts.
  (** equality of a variable with one of its interesting values *)
  Definition interesting_condition (e : string) (w : feat) : Prop :=
    exists v nm x, w = FTrans (eq_prim x) [FIdent e v nm] None /\ In x (interesting e v).
  (** the variable at one of the ends of a relationship *)
  Definition end_of (r : relationship) (b : feat) : Prop :=
    exists nm, b = FIdent (r_ce r) (r_cv r) nm \/ b = FIdent (r_pe r) (r_pv r) nm.
  (** the outermost step of [f] applies something the caller asked for, as it is declared *)
  Definition requested (f : feat) : Prop :=
    match f with
    | FIdent e v _ => In v (variables e) /\ vtypes e v <> None
    | FDirect r b _ => In r rels /\ fentity b = r_pe r /\ ~ end_of r b
    | FAgg p m path _ wh prev _ =>
      In p (g_aggs A) /\ m <> [] /\ fits p m /\ takes p m /\ prev = None /\
      (forall b r, In b m -> In r path -> ~ end_of r b) /\ (forall r b nm, In (FDirect r b nm) m -> r_pe r <> fentity f) /\
      (exists ce, path <> [] /\ backward_chain rels (fentity f) path ce /\ (forall b, In b m -> fentity b = ce) /\
        forall w, wh = Some w -> interesting_condition ce w /\ exists q, In q (g_wheres A) /\ subclass (class_of p) (class_of q) = true)
    | FTrans p m _ => m <> [] /\ ((In p (g_trans A) /\ fits p m /\ takes p m) \/ interesting_condition (fentity f) f)
    | FGroup p m g _ => In p (g_groups A) /\ fits p m /\ takes p m /\ issub (ftype p_ret vtypes g) YDiscrete = true /\
      (issub (ftype p_ret vtypes g) YId = true \/ option_groups (g_options A) (fentity g))
    | FSlice b i _ => 1 < fnout b /\ i < fnout b
    end.
End Requested.

(** ** Which primitives may be stacked *)
Section Stacking.
  Variable attr : prim -> pattr.
  Variable subclass : nat -> nat -> bool.
  (** the input was computed by a primitive of class [c]; columns and parents' values count as computed by the base class, 0 *)
  Definition computed_by_class (b : feat) (c : nat) : Prop := subclass (match fprim b with Some q => a_class (attr q) | None => 0 end) c = true.
  Definition computed_by_transform (b : feat) : Prop := exists q, fprim b = Some q /\ a_isagg (attr q) = false.
  (** [p] may aggregate [b] *)
  Definition stacks (p : prim) (b : feat) : Prop :=
    fnout b <= 1 /\
    (a_self (attr p) = Some false -> ~ computed_by_class b (a_class (attr p))) /\
    (forall l c, a_on_ex (attr p) = Some l -> In c l -> ~ computed_by_class b c) /\
    (forall l, a_on (attr p) = Some l ->
       (a_self (attr p) = Some true /\ computed_by_class b (a_class (attr p))) \/ (exists c, In c l /\ computed_by_class b c) \/
       (forall q ks, fprim b = Some q -> a_of (attr q) = Some ks -> In (a_class (attr p)) ks)).
  (** the inputs of [f] may be the inputs of its primitive; conditions are the exception *)
  Definition stackable (f : feat) : Prop :=
    match f with
    | FAgg p m _ _ _ _ _ => forall b, In b m -> stacks p b
    | FTrans _ m _ => forall b, In b m -> fnout b = 1 /\ ~ computed_by_transform b /\ (forall r b' nm, b = FDirect r b' nm -> ~ computed_by_transform b')
    | FGroup _ m _ _ => forall b, In b m -> fnout b = 1 /\ ~ computed_by_transform b /\ (forall r b' nm, b = FDirect r b' nm -> ~ computed_by_transform b')
    | _ => True
    end.
End Stacking.
