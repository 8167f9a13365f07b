(** C17, C18: enumeration of relationship paths and deep traversals. *)
From Verif Require Import Base BaseFacts M_Schema S_Schema L_Schema.

(** C17.  On every relationship graph (cyclic, with parallel relationships, …) [find_forward_paths]
    terminates and returns exactly the chains of relationships from [a] up to [b] that visit no
    entity twice, each once (an entity set never stores a relationship twice: C44). *)
Theorem C17_find_forward_paths_exact rels a b :
  exists ps, find_forward_paths rels a b = Ok ps /\
    (forall p, In p ps <-> forward_chain rels a p b /\ NoDup (visited a p)) /\
    (NoDup rels -> NoDup ps).
Proof. exact (ffp_exact rels a b). Qed.

(** [find_backward_paths] is the mirror image. *)
Theorem C17_find_backward_paths_exact rels a b :
  exists ps, find_backward_paths rels a b = Ok ps /\
    (forall p, In p ps <-> backward_chain rels a p b /\ NoDup (visited b (rev p))) /\
    (NoDup rels -> NoDup ps).
Proof. exact (fbp_exact rels a b). Qed.

(** [has_unique_forward_path]: true iff there is exactly one, false iff at least two, an exception
    iff there is none. *)
Theorem C17_has_unique_forward_path rels a b :
  NoDup rels ->
  match has_unique_forward_path rels a b with
  | Ok true => exists p, forward_chain rels a p b /\ NoDup (visited a p) /\
                 forall q, forward_chain rels a q b -> NoDup (visited a q) -> q = p
  | Ok false => exists p q, p <> q /\ forward_chain rels a p b /\ NoDup (visited a p) /\
                 forward_chain rels a q b /\ NoDup (visited a q)
  | Err e => e = RuntimeError /\ forall p, forward_chain rels a p b -> NoDup (visited a p) -> False
  end.
Proof. exact (hufp_spec rels a b). Qed.

(** C18, graphs without a reachable cycle: the deep traversals terminate and yield exactly the
    non-empty chains, each once. *)
Theorem C18_backward_entities_deep rels e :
  ~ reaches_cycle r_pe r_ce rels e ->
  exists l, get_backward_entities (S (List.length rels)) rels e true = Ok l /\
    (forall b p, In (b, p) l <-> exists q, p = map (fun r => (false, r)) q /\ q <> [] /\ backward_chain rels e q b) /\
    (NoDup rels -> NoDup l).
Proof.
  exact (fun H => match related_acyclic r_pe r_ce false rels e H with
    | ex_intro _ l Hl => ex_intro _ l (conj Hl (conj (related_In r_pe r_ce false rels _ e l Hl)
        (fun Hn => related_NoDup r_pe r_ce false rels _ e l Hn Hl))) end).
Qed.

Theorem C18_forward_entities_deep rels e :
  ~ reaches_cycle r_ce r_pe rels e ->
  exists l, get_forward_entities (S (List.length rels)) rels e true = Ok l /\
    (forall b p, In (b, p) l <-> exists q, p = map (fun r => (true, r)) q /\ q <> [] /\ forward_chain rels e q b) /\
    (NoDup rels -> NoDup l).
Proof.
  exact (fun H => match related_acyclic r_ce r_pe true rels e H with
    | ex_intro _ l Hl => ex_intro _ l (conj Hl (conj (related_In r_ce r_pe true rels _ e l Hl)
        (fun Hn => related_NoDup r_ce r_pe true rels _ e l Hn Hl))) end).
Qed.

(** C18, the other graphs: whenever a cycle is reachable the traversal never finishes, whatever the
    number of steps allowed. *)
Theorem C18_backward_entities_deep_diverges rels e :
  reaches_cycle r_pe r_ce rels e -> forall fuel, get_backward_entities fuel rels e true = Err OutOfFuel.
Proof. exact (fun H fuel => related_cyclic r_pe r_ce false rels e fuel H). Qed.

Theorem C18_forward_entities_deep_diverges rels e :
  reaches_cycle r_ce r_pe rels e -> forall fuel, get_forward_entities fuel rels e true = Err OutOfFuel.
Proof. exact (fun H fuel => related_cyclic r_ce r_pe true rels e fuel H). Qed.

Local Open Scope string_scope.

(** The property as stated (termination on all graphs) is false: two entities referring to each other. *)
Theorem C18_deep_traversal_terminates_refuted :
  exists rels e, forall fuel, get_backward_entities fuel rels e true = Err OutOfFuel.
Proof.
  exact (ex_intro _ ex_cycle (ex_intro _ "a" (C18_backward_entities_deep_diverges ex_cycle "a" ex_cycle_reaches))).
Qed.

(** A diamond with a parallel relationship and a cycle: three simple paths. *)
Example C17_example :
  let rels := [mkRel "g" "id" "p" "g_id"; mkRel "p" "id" "c" "p1"; mkRel "p" "id" "c" "p2";
               mkRel "g" "id" "c" "g_id"; mkRel "c" "id" "g" "c_id"] in
  match find_forward_paths rels "c" "g" with Ok ps => List.length ps | Err _ => 0 end = 3 /\
  has_unique_forward_path rels "c" "g" = Ok false /\ has_unique_forward_path rels "p" "g" = Ok true.
Proof. repeat split. Qed.

Example C18_example :
  exists l, get_backward_entities 4 [mkRel "g" "id" "p" "g_id"; mkRel "p" "id" "c" "p1"; mkRel "p" "id" "c" "p2"] "g" true = Ok l
    /\ map fst l = ["p"; "c"; "c"].
Proof. eexists; split; reflexivity. Qed.

Print Assumptions C17_find_forward_paths_exact.
Print Assumptions C17_find_backward_paths_exact.
Print Assumptions C17_has_unique_forward_path.
Print Assumptions C18_backward_entities_deep.
Print Assumptions C18_forward_entities_deep.
Print Assumptions C18_backward_entities_deep_diverges.
Print Assumptions C18_forward_entities_deep_diverges.
Print Assumptions C18_deep_traversal_terminates_refuted.
