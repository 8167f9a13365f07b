(** Specification of saved features and of class lookup. *)
From Verif Require Import Base M_Schema M_Feature M_Types M_Serialize S_Calc.

(** the same definition with every generated name written out *)
Fixpoint with_names (rels : list relationship) (f : feat) : feat :=
  match f with
  | FIdent e v _ => FIdent e v (Some (fname rels f))
  | FDirect r b _ => FDirect r (with_names rels b) (Some (fname rels f))
  | FAgg p bs path uniq wh prev _ => FAgg p (map (with_names rels) bs) path uniq (option_map (with_names rels) wh) prev (Some (fname rels f))
  | FTrans p bs _ => FTrans p (map (with_names rels) bs) (Some (fname rels f))
  | FGroup p bs g _ => FGroup p (map (with_names rels) bs) (with_names rels g) (Some (fname rels f))
  | FSlice b n _ => FSlice (with_names rels b) n (Some (fname rels f))
  end.

(** the class lookups of one deserialiser, one after the other *)
Inductive looked_up (t : ctree) : pstate -> Prop :=
| lu_new : looked_up t (ps_new t)
| lu_next s k : looked_up t s -> looked_up t (fst (get_class k s)).

(** the primitives and windows of a feature *)
Definition fprims (f : feat) : list prim :=
  match f with FAgg p _ _ _ _ _ _ => [p] | FTrans p _ _ => [p] | FGroup p _ _ _ => [p] | _ => [] end.
(** relationships a feature refers to *)
Definition frels (f : feat) : list relationship :=
  match f with FDirect r _ _ => [r] | FAgg _ _ path _ _ _ _ => path | _ => [] end.

Section Made.
  Variables (p_ret : prim -> option vtyp) (p_inputs : prim -> option (list (list vtyp))) (vtypes : string -> string -> option vtyp).
  Variables (rels : list relationship) (prev_ok : string -> tdelta -> res unit).
  (** a feature the public constructors accept *)
  Inductive made : feat -> Prop :=
  | made_ident e v nm : mk_ident vtypes e v nm = Ok (FIdent e v nm) -> made (FIdent e v nm)
  | made_direct r b nm : made b -> mk_direct r b nm = Ok (FDirect r b nm) -> made (FDirect r b nm)
  | made_agg p bs path uniq wh prev nm : (forall b, In b bs -> made b) -> (forall w, wh = Some w -> made w) ->
      mk_agg p_ret p_inputs vtypes rels prev_ok p bs path wh prev nm = Ok (FAgg p bs path uniq wh prev nm) -> made (FAgg p bs path uniq wh prev nm)
  | made_trans p bs nm : (forall b, In b bs -> made b) -> mk_trans p_ret p_inputs vtypes p bs nm = Ok (FTrans p bs nm) -> made (FTrans p bs nm)
  | made_group p bs g nm : (forall b, In b bs -> made b) -> made g -> mk_group p_ret p_inputs vtypes p bs g nm = Ok (FGroup p bs g nm) -> made (FGroup p bs g nm)
  | made_slice b n nm : made b -> mk_slice b n nm = Ok (FSlice b n nm) -> made (FSlice b n nm).
End Made.

(** What the round trip relies on, for a list of features [fs]. *)
Section Saveable.
  Variables (args : Type) (class_of : prim -> cls) (args_of : prim -> args) (construct : cls -> args -> res prim).
  Variables (targs : Type) (td_save : tdelta -> targs) (td_load : targs -> res tdelta).
  Variables (p_ret : prim -> option vtyp) (p_inputs : prim -> option (list (list vtyp))) (vtypes : string -> string -> option vtyp).
  Variables (rels : list relationship) (index_of : string -> option string) (prev_ok : string -> tdelta -> res unit) (classes : ctree).
  Record saveable (fs : list feat) : Prop := mkSaveable {
    (** two features with the same unique name are the same definition *)
    sv_names : forall f g, needed fs f -> needed fs g -> funique rels f = funique rels g -> with_names rels f = with_names rels g;
    (** the features were made by the constructors *)
    sv_made : forall f, In f fs -> made p_ret p_inputs vtypes rels prev_ok f;
    (** name and module identify a primitive class; each primitive is rebuilt by calling its class with its arguments *)
    sv_classes : forall a b, In a (find_descendents classes) -> In b (find_descendents classes) -> c_name a = c_name b -> c_module a = c_module b -> a = b;
    sv_prims : forall f p, needed fs f -> In p (fprims f) -> In (class_of p) (find_descendents classes) /\ construct (class_of p) (args_of p) = Ok p;
    (** windows survive (C20), relationships belong to the entity set *)
    sv_prev : forall f d, needed fs f -> fprev f = Some d -> td_load (td_save d) = Ok d;
    sv_rels : forall f r, needed fs f -> In r (frels f) -> mk_rel vtypes index_of r = Ok r;
    (** no feature is grouped by one of its own inputs *)
    sv_group : forall p bs g nm b, needed fs (FGroup p bs g nm) -> In b bs -> funique rels b <> funique rels g }.
End Saveable.
