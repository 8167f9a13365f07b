(** What a user of save_progress may find in the directory. *)
From Verif Require Import Base M_Progress.

(** all the ways the steps of several processes can be mixed *)
Inductive interleave : list (list op) -> list op -> Prop :=
| il_done ps : Forall (fun p => p = []) ps -> interleave ps []
| il_step ps1 o p ps2 tr : interleave (ps1 ++ p :: ps2) tr -> interleave (ps1 ++ (o :: p) :: ps2) (o :: tr).

(** the machine stops somewhere *)
Definition prefix_of {A} (pre tr : list A) : Prop := exists rest, tr = pre ++ rest.

(** every file under a final name was there before, or is the complete result of a call for that name *)
Definition only_complete (s0 : fs) (calls : list (Z * list string * bool)) (s : fs) : Prop :=
  forall n ls, final s n = Some ls -> final s0 n = Some ls \/ exists t b, In (t, ls, b) calls /\ n = name_of t.

(** calls of different processes have different names *)
Definition names_disjoint (pss : list (list (Z * list string * bool))) : Prop :=
  forall i j c c', i <> j -> In c (nth i pss []) -> In c' (nth j pss []) -> name_of (fst (fst c)) <> name_of (fst (fst c')).
