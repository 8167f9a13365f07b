(** What a lineage graph is supposed to show, stated without the code that draws it. *)
From Verif Require Import Base M_Schema M_Feature.

(** a feature that is one output of a feature with several outputs stands for that feature *)
Definition whole (f : feat) : feat := match f with FSlice b _ _ => b | _ => f end.

(** [uses f d]: computing [f] takes [d] as an input (a base feature, the feature of its filter, the feature it groups by) *)
Definition uses (f d : feat) : Prop := In d (fdeps (whole f)).

(** [lineage f d]: [d] is [f] itself or one of the features it is built from *)
Inductive lineage (f : feat) : feat -> Prop :=
| lineage_self : lineage f f
| lineage_uses d x : lineage f d -> uses d x -> lineage f x.

(** the columns that link the rows of the two ends of the path of [d] *)
Definition link_column (d : feat) (k : string * string) : Prop :=
  exists fw r, In (fw, r) (fpath (whole d)) /\ k = (r_ce r, r_cv r).

(** a path of arrows *)
Inductive arrows (es : list (string * string)) : string -> string -> Prop :=
| arrows_one a b : In (a, b) es -> arrows es a b
| arrows_more a b c : In (a, b) es -> arrows es b c -> arrows es a c.

(** entity and name determine the definition, for the features [f] is built from, and a feature named like a column that links rows is that column *)
Definition names_tell (rels : list relationship) (f : feat) : Prop :=
  (forall d x, lineage f d -> lineage f x -> fentity d = fentity x -> fname rels d = fname rels x -> d = x) /\
  (forall d x k, lineage f d -> lineage f x -> link_column d k -> k = (fentity x, fname rels x) -> exists e v nm, x = FIdent e v nm).

(** no feature that [f] is built from is grouped by another feature *)
Definition no_groupby (f : feat) : Prop := forall d, lineage f d -> fgroupby (whole d) = None.
(** every feature that [f] is built from, except the columns, has inputs *)
Definition has_inputs (f : feat) : Prop :=
  forall d, lineage f d -> fdeps (whole d) <> [] \/ exists e v nm, whole d = FIdent e v nm.

(** [k] tells the rows of [d] apart: a column that links rows, or the feature [d] is grouped by *)
Definition told_apart (rels : list relationship) (d : feat) (k : string * string) : Prop :=
  link_column d k \/ exists g, fgroupby (whole d) = Some g /\ k = (fentity g, fname rels g).

(** the features grouped by another one take their inputs from one entity, as [GroupByTransformFeature] requires *)
Definition groups_in_one_entity (f : feat) : Prop :=
  forall d p bs g nm, lineage f d -> whole d = FGroup p bs g nm -> Forall (fun b => fentity b = fentity g) bs.

(** what computes a feature: the name of its primitive ("join" for a value copied from a parent) and the kind of step; nothing for a column *)
Definition computed_by (pname : prim -> string) (d : feat) (p t : string) : Prop :=
  match whole d with
  | FDirect _ _ _ => p = "join" /\ t = ""
  | FAgg q _ _ _ _ _ _ => p = pname q /\ t = "Aggregation"
  | FTrans q _ _ | FGroup q _ _ _ => p = pname q /\ t = "Transform"
  | FIdent _ _ _ | FSlice _ _ _ => False
  end%string.
