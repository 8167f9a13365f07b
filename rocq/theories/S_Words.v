(** The English description of a feature: specification for C70. *)
From Verif Require Import Base M_Schema M_Feature M_Words S_DFS.

(** [s] contains the description [d], perhaps without the article it starts with *)
Definition says (d s : string) : Prop := contains d s \/ exists d', d = ("the " ++ d')%string /\ contains d' s.
Definition ends_with (x s : string) : Prop := exists a, s = (a ++ x)%string.
(** the first feature below that is not itself copied from a parent *)
Fixpoint origin (f : feat) : feat := match f with FDirect _ b _ => origin b | f => f end.
(** the columns a feature is computed from, as far as the description speaks of them: its inputs, the group it is computed in
    and the column its condition is about *)
Inductive told_of : feat -> feat -> Prop :=
| told_direct r b nm : told_of (FDirect r b nm) (origin b)
| told_trans p bs nm g : In g bs -> told_of (FTrans p bs nm) g
| told_group p bs g nm d : In d (bs ++ [g]) -> told_of (FGroup p bs g nm) d
| told_agg p bs path u w prev nm g : In g bs -> told_of (FAgg p bs path u w prev nm) g
| told_where p bs path u w prev nm g l : fbases w = g :: l -> told_of (FAgg p bs path u (Some w) prev nm) g
| told_output p bs nm g n nm' : In g bs -> told_of (FSlice (FTrans p bs nm) n nm') g
| told_agg_output p bs path u w prev nm g n nm' : In g bs -> told_of (FSlice (FAgg p bs path u w prev nm) n nm') g
| told_where_output p bs path u w prev nm g l n nm' : fbases w = g :: l -> told_of (FSlice (FAgg p bs path u (Some w) prev nm) n nm') g.

(** a template takes [k] inputs: its fields are all automatic or all numbered, and refer to inputs there are; [nth] tells
    whether the number of the output is available *)
Fixpoint autos (t : template) : nat := match t with [] => 0 | Next :: t => S (autos t) | _ :: t => autos t end.
Definition takes (t : template) (k : nat) (nth : bool) : Prop :=
  ((autos t <= k /\ forall i, ~ In (Arg i) t) \/ (autos t = 0 /\ forall i, In (Arg i) t -> i < k)) /\ (In Nth t -> nth = true).
(** it shows all of them *)
Definition shows_all (t : template) (k : nat) : Prop := forall i, i < k -> i < autos t \/ In (Arg i) t.
(** the template used for a feature as a whole ([None]) or for its output [n]; one that is left to be generated shows all inputs *)
Definition in_use (ts : option templates) (slice : option nat) (t : template) : Prop :=
  match ts, slice with
  | Some (One t'), _ => t = t'
  | Some (Many ts), None => nth_error ts 0 = Some t
  | Some (Many ts), Some n => nth_error ts (S n) = Some t \/ (List.length ts <= 2 /\ List.length ts <= S n /\ nth_error ts 1 = Some t)
  | None, _ => False
  end.
Definition well_formed (ts : option templates) (slice : option nat) (k : nat) : Prop :=
  falsy ts = true \/ exists t, in_use ts slice t /\ takes t k (match ts, slice with Some (Many _), Some _ => true | _, _ => false end).

(** an entry of the dictionary of descriptions speaks about a feature *)
Definition about (rels : list relationship) (f : feat) (k : dkey) : bool :=
  String.eqb (khash rels k) (fhash rels f) || String.eqb (khash rels k) (funique rels f).
