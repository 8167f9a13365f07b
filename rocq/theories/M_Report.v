(** What calculate_feature_matrix tells [progress_callback].
    Simplifications: exact rationals instead of floating point; the time elapsed is left out; a tqdm bar is its count [n] and its total. *)
From Coq Require Import QArith.
From Verif Require Import Base M_Schema M_Feature M_Trie M_FeatureSet.
Local Open Scope list_scope.

(** what the calculation of a group of features depends on: whether the frame (of the children, for an aggregation) is empty, which
    features are in the frame already (precalculated ones), and which of them are aggregated by pandas ([_can_agg], feature_set_calculator.py L763-769) *)
Record gstate : Type := mkState { g_empty : bool; g_has : feat -> bool; g_can_agg : feat -> bool }.

(** feature_set_calculator.py L425-727: the calls of progress_callback while one group is calculated; [k] stands for k / num_features *)
Definition group_reports (st : gstate) (g : list feat) : res (list nat) :=
  match g with
  | FIdent _ _ _ :: _ => Ok [List.length g]                                                   (* L430 *)
  | FTrans _ _ _ :: _ => Ok (map (fun _ => 1%nat) g)                                          (* L442, L467 *)
  | FGroup _ _ _ _ :: _ => Ok (if g_empty st then [List.length g] else map (fun _ => 1%nat) g)  (* L478, L524 *)
  | FDirect _ _ _ :: _ => Ok [List.length g]                                                  (* L571 *)
  | FAgg _ _ _ _ _ _ _ :: _ =>
    let fl := filter (fun f => negb (g_has st f)) g in
    Ok (match fl with
        | [] => [0%nat]                                                                       (* L591 *)
        | _ =>
          if g_empty st then map (fun _ => 1%nat) fl                                          (* L606 *)
          else
            let to_agg := filter (g_can_agg st) fl in
            let to_apply := filter (fun f => negb (g_can_agg st f)) fl in
            (match to_apply with [] => [] | _ => [List.length to_apply] end)                  (* L695 *)
            ++ match to_agg with [] => [] | _ => [List.length to_agg] end                     (* L727 *)
        end)
  | _ => Err TypeError                                                                        (* L411-424 *)
  end.

Section Report.
  Variable rels : list relationship.
  Variable by_name : list (string * feat).
  (** the order in which a set of names is iterated *)
  Variable ord : list string -> list string.

  (** L330-341 [_calculate_features] *)
  Definition feature_reports (st : list feat -> gstate) (names : list string) : res (list nat) :=
    do groups <- group_features rels by_name (ord names);
    do rs <- mapM (fun g => group_reports (st g) g) groups;
    Ok (List.concat rs).
  (** L161-328 [_calculate_features_for_entity]; [p] is the path to the node *)
  Fixpoint node_reports (st : list edge -> bool -> list feat -> gstate) (p : list edge) (t : ftrie) : res (list nat) :=
    match t with
    | TNode (full, ff, nf) ch =>
      do subs <- (fix go (ch : list (edge * ftrie)) : res (list nat) :=
        match ch with
        | [] => Ok []
        | (e, s) :: ch => do a <- node_reports st (p ++ [e]) s; do b <- go ch; Ok (a ++ b)
        end) ch;
      do a <- (if full then feature_reports (st p true) ff else Ok []);
      do b <- feature_reports (st p false) nf;
      Ok ([0; 0]%nat ++ subs ++ [0%nat] ++ a ++ b)                                            (* L231, L248, L308 *)
    end.
  (** L66 [num_features] *)
  Fixpoint num_features (t : ftrie) : nat :=
    match t with
    | TNode (full, ff, nf) ch => List.length ff + List.length nf + list_sum (map (fun es => num_features (snd es)) ch)
    end.
End Report.

Local Open Scope Q_scope.
Definition qnat (n : nat) : Q := inject_Z (Z.of_nat n).
(** calculate_feature_matrix.py L747-751 after [progress_bar.update(done)]: the new count, and (update, progress_percent) *)
Definition tick (total n done : Q) : Q * (Q * Q) := let n' := n + done in (n', ((n' - n) / total * 100, n' / total * 100)).
Fixpoint ticks (total n : Q) (dones : list Q) : Q * list (Q * Q) :=
  match dones with
  | [] => (n, [])
  | d :: ds => let '(n1, r) := tick total n d in let '(n2, rs) := ticks total n1 ds in (n2, r :: rs)
  end.
(** L42, L258: 95 percent for the calculation *)
Definition bar_total (len : nat) : Q := qnat len / (95 # 100).
(** L268-326: the reports of the calculation and the last one, L319-324 *)
Definition all_ticks (len : nat) (dones : list Q) : list (Q * Q) :=
  let '(n, rs) := ticks (bar_total len) 0 dones in rs ++ [snd (tick (bar_total len) n (bar_total len - n))].

(** L346-403: one process; each chunk of cutoffs runs the calculator, whose reports are scaled by the size of the chunk *)
Definition reports_seq rels by_name ord (t : ftrie) (len : nat) (chunks : list (nat * (list edge -> bool -> list feat -> gstate))) : res (list (Q * Q)) :=
  do runs <- mapM (fun c => do ks <- node_reports rels by_name ord (snd c) [] t; Ok (map (fun k => qnat k / qnat (num_features t) * qnat (fst c)) ks)) chunks;
  Ok (all_ticks len (List.concat runs)).
(** L668-677: many processes; a report for each chunk that arrives *)
Definition reports_par (len : nat) (arrived : list nat) : list (Q * Q) := all_ticks len (map qnat arrived).
