(** Specification for C78: how the frames and relationships of an entity set are listed. *)
From Coq Require Import Permutation.
From Verif Require Import Base M_Schema M_Table M_Entities M_Construct.
Import ListNotations.

(** the same entity set: the same entity under every name, the same time type, the same relationships in any order *)
Definition same_set (a b : eset) : Prop :=
  s_id a = s_id b /\ s_kind a = s_kind b /\ s_meta a = s_meta b /\ Permutation (s_rels a) (s_rels b) /\
  forall id, dget String.eqb id (s_ents a) = dget String.eqb id (s_ents b).
(** the entries of a dictionary: no name twice *)
Definition dictionary (l : list entry) : Prop := NoDup (map i_id l).
(** no frame is given for two entities *)
Definition own_frames (l : list entry) : Prop := NoDup (map i_frame l).
