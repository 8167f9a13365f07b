(** Choosing interesting values.  Models entityset/entity.py L292-345 and entityset/entityset.py L910-925
    [add_interesting_values].  Variables of the classes ZIPCode, CountryCode and SubRegionCode are left out, as in M_Entities,
    and so is the cast of the values to the dtype the column had when the variable was made (variable.py L115-118). *)
From Verif Require Import Base M_Schema M_Table M_LastTime M_Entities.
Local Open Scope string_scope.
Local Open Scope list_scope.

Section Interesting.
  (** the order in which Series.value_counts lists values that occur equally often: any *)
  Variable tie : list (val * nat) -> list (val * nat).

  (** Series.value_counts(): the values that are not missing, the most frequent first *)
  Definition value_counts (col : list val) : list (val * nat) :=
    isort (fun a b => snd b <=? snd a)%nat (tie (map (fun v => (v, count_occ val_eq_dec col v)) (nodup val_eq_dec (filter (fun v => negb (val_eqb v VNull)) col)))).
  (** entity.py L323: counts[:] = counts.sort_values()[::-1] *)
  Definition resorted (cs : list (val * nat)) : list (val * nat) := combine (map fst cs) (rev (isort Nat.leb (map snd cs))).
  (** L324-341, for the values in turn; the comparisons 0.05 < count / total < 0.95 are exact below 2^53 rows *)
  Fixpoint pick (few : bool) (total : nat) (cs : list (val * nat)) : list val :=
    match cs with
    | [] => []
    | (v, c) :: cs => if few then v :: pick few total cs
                      else if ((total <? 20 * c) && (100 * c <? 95 * total))%nat then v :: pick few total cs
                      else []
    end.
  Definition chosen (max_values : nat) (col : list val) : list val :=
    let counts := value_counts col in
    let total := fold_right Nat.add 0%nat (map snd counts) in
    let counts := resorted counts in
    pick (List.length counts <? 25)%nat total (firstn (Nat.min max_values (List.length counts)) counts).

  (** L311-317 *)
  Definition in_relationship (rels : list relationship) (eid vid : string) : bool :=
    existsb (fun r => (String.eqb (r_ce r) eid && String.eqb (r_cv r) vid) || (String.eqb (r_pe r) eid && String.eqb (r_pv r) vid)) rels.

  (** L292-345: the values of a discrete variable are emptied first; a negative max_values acts like 0 *)
  Definition entity_interesting (max_values : nat) (eid : string) : ST eset unit :=
    s <~ sget ;;
    e <~ slift (sent eid s) ;;
    add_interesting_values eid (fun vid => if in_relationship (s_rels s) eid vid then [] else chosen max_values (t_column (n_tab e) vid)).
  (** entityset.py L910-925 *)
  Definition set_interesting (max_values : nat) : ST eset unit :=
    s <~ sget ;;
    siter (entity_interesting max_values) (map fst (s_ents s)) ;;;
    reset_meta.
End Interesting.
