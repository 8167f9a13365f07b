(** What the driver of calculate_feature_matrix promises, without its groups, chunks and workers. *)
From Verif Require Import Base M_Table M_Calc M_CFM.

(** [l] is [cs] grouped by cutoff time: times ascend, every row has a time, and the rows of each time are
    those of [cs], in the order of [cs] *)
Definition grouped_by_time (cs l : list cutoff) : Prop :=
  StronglySorted (fun a b => forall x y, c_time a = Some x -> c_time b = Some y -> (x <= y)%Z) l /\
  (forall c, In c l -> c_time c <> None) /\
  (forall t, filter (fun c => otime_eqb (c_time c) (Some t)) l = filter (fun c => otime_eqb (c_time c) (Some t)) cs).

(** the calculator gives instance [i] at time [t] the values [v t i] of the columns [cs], whichever other
    instances are asked for in the same call *)
Definition pointwise (calc : Z -> list val -> res matrix) (cs : list string) (v : Z -> val -> list val) : Prop :=
  forall t ids m, NoDup ids -> calc t ids = Ok m -> m = mkMatrix cs (map (fun i => (i, v t i)) ids).

(** the calculator answers every request of distinct instances at the times [at_] *)
Definition never_fails (at_ : Z -> Prop) (calc : Z -> list val -> res matrix) : Prop :=
  forall t ids, at_ t -> ids <> [] -> NoDup ids -> exists m, calc t ids = Ok m.

(** the row that answers one row of the cutoff frame: its label, the passed columns copied, the other
    columns calculated for the instance at the time *)
Definition answers (pass cs : list string) (v : Z -> val -> list val) (c : cutoff) (r : mrow) : Prop :=
  fst r = (c_id c, c_time c) /\
  forall x, cell x (snd r) =
    match c_time c with
    | Some t => if mem_str x pass then cell x (c_pass c) else cell x (combine cs (v t (c_id c)))
    | None => VNull
    end.

(** results may arrive in any order *)
Definition fair (m : mode) : Prop :=
  match m with Sequential => True | Workers _ arrive => forall l, Permutation (arrive l) l end.

(** a frame accepted by the validation: no (instance, time) pair twice; distinct instances for a single time *)
Definition distinct_requests (cut : cutoffs) : Prop :=
  match cut with
  | CSingle _ ids => NoDup ids
  | CFrame cs => NoDup (map (fun c => (c_id c, c_time c)) cs)
  end.

(** the times that are asked for *)
Definition requested_time (cut : cutoffs) (t : Z) : Prop :=
  match cut with
  | CSingle t0 _ => t = t0
  | CFrame cs => exists c, In c cs /\ c_time c = Some t
  end.

(** something is asked for *)
Definition some_request (cut : cutoffs) : Prop :=
  match cut with
  | CSingle _ ids => ids <> []
  | CFrame cs => exists c, In c cs /\ c_time c <> None
  end.

(** ** The cutoff frame given by the user *)

(** [c] is the only column of the frame among the accepted names *)
Definition only_column (names : list string) (d : df) (c : string) : Prop :=
  In c (cols d) /\ In c names /\ forall c', In c' (cols d) -> In c' names -> c' = c.

Definition time_names (time_index : option string) : list string :=
  ("time" :: match time_index with Some ti => [ti] | None => [] end)%string.

(** the frame handed on: same rows, the two columns under their standard names, other columns kept *)
Definition renamed_rows (ic tc : string) (d d' : df) : Prop :=
  Forall2 (fun r r' => cell "instance_id" r' = cell ic r /\ cell "time" r' = cell tc r /\
             forall c, ~ In c [ic; tc; "instance_id"; "time"]%string -> cell c r' = cell c r) (rows d) (rows d').
