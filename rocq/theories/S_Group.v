(** What a good evaluation order is. *)
From Verif Require Import Base M_Schema M_Feature M_FeatureSet S_Calc.

(** among the features [fs] and everything they depend on, a unique name denotes one feature *)
Definition distinct_names (rels : list relationship) (fs : list feat) : Prop :=
  forall f g, needed fs f -> needed fs g -> funique rels f = funique rels g -> f = g.

(** [f] reads the columns of [d], a feature of the same entity, either directly or through a slice *)
Definition reads (f d : feat) : Prop :=
  fpath f = [] /\ exists s, In s (fdeps f) /\ (s = d \/ exists n nm, s = FSlice d n nm).

(** [d] is in an earlier group than [f] *)
Definition earlier (groups : list (list feat)) (d f : feat) : Prop :=
  exists l1 g1 l2 g2 l3, groups = l1 ++ g1 :: l2 ++ g2 :: l3 /\ In d g1 /\ In f g2.

(** a use_previous window of a single, named unit *)
Definition plain_window (f : feat) : Prop :=
  match fprev f with
  | None => True
  | Some d => exists u v, td_times d = [(u, v)] /\ u <> ""%string
  end.
Definition same_window (f g : feat) : Prop :=
  match fprev f, fprev g with
  | None, None => True
  | Some a, Some b => td_times a = td_times b
  | _, _ => False
  end.

Definition where_name (rels : list relationship) (f : feat) : option string := option_map (funique rels) (fwhere f).
Definition groupby_name (rels : list relationship) (f : feat) : option string := option_map (funique rels) (fgroupby f).
