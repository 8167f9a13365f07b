(** The public calls of EntitySet as one type, and histories of such calls. *)
From Verif Require Import Base M_Schema M_Table M_LastTime M_Entities.
Local Open Scope list_scope.

Section Calls.
  Variables to_numeric to_datetime : list val -> res (dtype * list val).
  Variable obj_kind : val -> res (option tkind).
  Variable infer : table -> string -> vtype.
  Variable touched : list relationship -> list string -> list string.
  Variable last_times : eset -> string -> list (val * val).
  Notation relate := (relate to_numeric to_datetime).
  Notation entity_from_dataframe := (entity_from_dataframe to_numeric to_datetime obj_kind infer).
  Notation normalize_entity := (normalize_entity to_numeric to_datetime obj_kind infer).
  Notation update_data := (update_data to_numeric to_datetime obj_kind touched last_times).
  Notation add_last_time_indexes := (add_last_time_indexes touched last_times).
  Notation concat := (concat to_numeric to_datetime obj_kind touched last_times).
  Notation metadata := (metadata to_numeric to_datetime obj_kind infer touched last_times).
  Notation describes := (description_to_entityset to_numeric to_datetime obj_kind infer touched last_times).

  (** the calls of the entity set *)
  Inductive call : Type :=
  | Create (id : string) (t : table) (index : option string) (given : list (string * vtype)) (make_index : bool)
           (time : option string) (sec : list (string * list string)) (already_sorted : bool)
  | Relate (r : relationship)
  | Normalize (a : norm_args) (copy : list string)
  | Update (eid : string) (t : table) (already_sorted recalculate : bool)
  | Interesting (eid : string) (vals : string -> list val)
  | LastTimes (updated : list string)
  | Concat (other : eset)        (* inplace=True *)
  | Metadata.
  Definition exec (c : call) : ST eset unit :=
    match c with
    | Create id t index given make_index time sec srt => entity_from_dataframe id t index given make_index time sec srt
    | Relate r => relate r
    | Normalize a copy => fun s => match normalize_entity a copy s with (s', _, r) => (s', r) end
    | Update eid t srt rc => update_data eid t srt rc
    | Interesting eid vals => add_interesting_values eid vals
    | LastTimes u => add_last_time_indexes u
    | Concat other => fun s => concat s other s
    | Metadata => sbind metadata (fun _ => sret tt)
    end.

  (** a history of calls; whether a call fails or not, the next one starts from the state it left.  [ok] says which calls
      are considered: it sees the state, the call and its result. *)
  Inductive history (ok : eset -> call -> res unit -> Prop) : eset -> list call -> eset -> Prop :=
  | h_nil s : history ok s [] s
  | h_cons s c cs s1 r s2 : exec c s = (s1, r) -> ok s c r -> history ok s1 cs s2 -> history ok s (c :: cs) s2.
  Fixpoint all_ok (ok : eset -> call -> res unit -> Prop) (cs : list call) (s : eset) : Prop :=
    match cs with [] => True | c :: cs => ok s c (snd (exec c s)) /\ all_ok ok cs (fst (exec c s)) end.
  Lemma history_fold ok cs s : all_ok ok cs s -> history ok s cs (fold_left (fun s c => fst (exec c s)) cs s).
  Proof.
    revert s. induction cs as [|c cs IH]; intros s H; cbn [fold_left]; [constructor|]. destruct H as [H1 H2].
    eapply h_cons; [apply surjective_pairing | exact H1 | apply IH; exact H2].
  Qed.
  Lemma history_keeps (P : eset -> Prop) (ok : eset -> call -> res unit -> Prop) :
    (forall s c s' r, P s -> exec c s = (s', r) -> ok s c r -> P s') -> forall s cs s', history ok s cs s' -> P s -> P s'.
  Proof. intros H s cs s' Hh. induction Hh as [s|s c cs s1 r s2 E Ho Hh IH]; intros Hp; [exact Hp|]. apply IH. exact (H _ _ _ _ Hp E Ho). Qed.
End Calls.
