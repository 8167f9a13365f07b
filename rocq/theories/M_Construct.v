(** Model of EntitySet(id, entities, relationships), entityset.py L29-102, and of the part of dfs() that calls it
    (synthesis/dfs.py L243-246).  The frames are objects of the caller: they are kept in a store by name, because
    entity_from_dataframe changes the frame it is given ([caller_frame] in [M_Entities]) and a caller may give one frame
    twice.  The dictionaries variable_types are values: they are not changed ([M_Args]). *)
From Verif Require Import Base M_Schema M_Table M_Entities.
Open Scope string_scope.
Import ListNotations.

(** entityset.py L52-56 and L79-88: an entry of the dictionary [entities], (frame, index, time_index, variable_types,
    make_index); what is left out is None, {} and False *)
Record entry : Type := mkEntry {
  i_id : string; i_frame : string; i_index : option string; i_time : option string; i_types : list (string * vtype); i_make : bool }.
(** the frames of the caller *)
Definition frames : Type := list (string * table).

Section Construct.
  Variables to_numeric to_datetime : list val -> res (dtype * list val).
  Variable obj_kind : val -> res (option tkind).
  Variable infer : table -> string -> vtype.

  (** L78-94: one entry: secondary_time_index and already_sorted keep their defaults.  (That the frame is in the store is
      a property of the representation: KeyError stands for a name that the caller has not defined.) *)
  Definition add_entry (i : entry) : ST (frames * eset) unit :=
    fun fs =>
      match dget String.eqb (i_frame i) (fst fs) with
      | None => (fs, Err KeyError)
      | Some t =>
        match entity_from_dataframe to_numeric to_datetime obj_kind infer (i_id i) t (i_index i) (i_types i) (i_make i) (i_time i) [] false (snd fs) with
        | (s, r) => ((dset String.eqb (i_frame i) (caller_frame to_numeric to_datetime infer t (i_index i) (i_types i) (i_make i)) (fst fs), s), r)
        end
      end.
  (** L72-102; nothing comes back if anything raises *)
  Definition construct (name : string) (h : frames) (entities : list entry) (rels : list relationship) : res eset :=
    match siter add_entry entities (h, empty_set name) with
    | (_, Err x) => Err x
    | ((_, s), Ok _) =>
      match (siter (relate to_numeric to_datetime) rels ;;; reset_meta) s with
      | (s, Ok _) => Ok s
      | (_, Err x) => Err x
      end
    end.
  (** synthesis/dfs.py L243-246: an entity set is used as it is, otherwise one is made *)
  Definition dfs_entityset (h : frames) (entities : list entry) (rels : list relationship) (given : option eset) : res eset :=
    match given with Some s => Ok s | None => construct "dfs" h entities rels end.
End Construct.
