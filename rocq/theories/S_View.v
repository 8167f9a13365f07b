(** When two tables (two entity sets) carry the same data up to a cutoff time [T]. *)
From Verif Require Import Base M_Schema M_Table M_Query S_Query.

(** row [r] of [e] is stamped at or before [T]; rows of a table without time index always are *)
Definition stamped (e : entity) (T : Z) (incl : bool) (r : row) : Prop :=
  forall ti, e_time e = Some ti -> at_or_before incl T (cell ti r).

(** two rows agree on everything known at [T]: the same cells are hidden, the others are equal *)
Definition same_row (e : entity) (T : Z) (r1 r2 : row) : Prop :=
  map fst r1 = map fst r2 /\
  forall c, In c (map fst r1) ->
    (cell_hidden e T r1 c <-> cell_hidden e T r2 c) /\
    (~ cell_hidden e T r1 c -> cell c r1 = cell c r2).

(** two lists of rows agree, in order, on the rows stamped at or before [T]; rows stamped later
    are arbitrary on both sides *)
Inductive same_rows (e : entity) (T : Z) (incl : bool) : list row -> list row -> Prop :=
| sr_nil : same_rows e T incl [] []
| sr_left r l1 l2 : ~ stamped e T incl r -> same_rows e T incl l1 l2 -> same_rows e T incl (r :: l1) l2
| sr_right r l1 l2 : ~ stamped e T incl r -> same_rows e T incl l1 l2 -> same_rows e T incl l1 (r :: l2)
| sr_both r1 r2 l1 l2 : stamped e T incl r1 -> stamped e T incl r2 -> same_row e T r1 r2 ->
    same_rows e T incl l1 l2 -> same_rows e T incl (r1 :: l1) (r2 :: l2).

(** same declaration, same data up to [T]; nothing is said of the last time index *)
Definition same_known (T : Z) (incl : bool) (e1 e2 : entity) : Prop :=
  e_id e1 = e_id e2 /\ e_index e1 = e_index e2 /\ e_time e1 = e_time e2 /\ e_sec e1 = e_sec e2 /\
  cols (e_df e1) = cols (e_df e2) /\ same_rows e1 T incl (rows (e_df e1)) (rows (e_df e2)).

(** column [c] is never hidden by a secondary time index *)
Definition never_hidden (e : entity) (c : string) : Prop := forall s cs, In (s, cs) (e_sec e) -> ~ In c cs.

(** two entity sets with the same relationships whose entities carry the same declarations and the same
    data up to [T]; with a training window, also the same last time indexes *)
Definition same_es_known (T : Z) (incl : bool) (tw : option window) (es1 es2 : entityset) : Prop :=
  es_rels es1 = es_rels es2 /\
  forall eid,
    match es_get es1 eid, es_get es2 eid with
    | Ok e1, Ok e2 => same_known T incl e1 e2 /\ (tw = None \/ e_lti e1 = e_lti e2)
    | Err x1, Err x2 => x1 = x2
    | _, _ => False
    end.
