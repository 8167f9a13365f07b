(** Which primitives a list of features uses: specification for C69. *)
From Verif Require Import Base M_Schema M_Feature M_Match S_Calc.

(** the four arguments that name primitives *)
Inductive role : Type := Transform | Aggregation | Groupby | Where.
Section Uses.
  Variable rels : list relationship.
  Variable attr : prim -> pattr.
  (** the outermost step of [f] applies the primitive called [n], in the given role *)
  Definition applies (f : feat) (r : role) (n : string) : Prop :=
    match f with
    | FAgg p _ _ _ w _ _ => n = a_name (attr p) /\ r = match w with Some _ => Where | None => Aggregation end
    | FTrans p _ _ => n = a_name (attr p) /\ r = Transform
    | FGroup p _ _ _ => n = a_name (attr p) /\ r = Groupby
    | _ => False
    end.
  (** some feature of the list, or something one of them is built from, applies it *)
  Definition uses (fs : list feat) (r : role) (n : string) : Prop := exists g, needed fs g /\ applies g r n.
  Definition is_slice (f : feat) : bool := match f with FSlice _ _ _ => true | _ => false end.
  (** features of the same name are made in the same way from features of the same names *)
  Definition alike (f g : feat) : Prop :=
    is_slice f = is_slice g /\ (forall r n, applies f r n <-> applies g r n) /\ map (fname rels) (fdeps f) = map (fname rels) (fdeps g).
  Definition names_tell (fs : list feat) : Prop := forall f g, needed fs f -> needed fs g -> fname rels f = fname rels g -> alike f g.
End Uses.
