(** C15: the calculation plan is closed under dependencies and full-entity needs. *)
From Verif Require Import Base M_Schema M_Trie M_Feature M_FeatureSet S_Plan S_Calc L_Plan X_Demo.
Local Open Scope string_scope.

(** [value at p]: the value found in the plan (a trie) at path [p]; by C16 the paths not in the trie
    read as the empty node.  [approx p n]: name [n] is approximated at path [p]. *)
Definition plan_at (t : ftrie) (p : list edge) : fnode := tvalue (get_node edge_eqb fnode0 p t).
Definition approx_at (appr : atrie) (p : list edge) (n : string) : Prop := In n (tvalue (get_node edge_eqb [] p appr)).

(** The plan built for any list of features holds, at every path, exactly the features that have to be
    calculated there ([planned], S_Plan.v): as full-entity features those that must be calculated for
    every row, as other features the remaining ones; a node asks for the full entity exactly when a
    full-entity feature is calculated there or needs the entities along its path; nothing is listed
    twice. *)
Theorem C15_plan_exact rels fs appr p :
  let '(full, ff, nf) := plan_at (build_feature_trie rels fs appr) p in
  let planned := planned rels (approx_at appr) fs in
  (forall n, In n ff <-> exists g, planned p true g /\ n = funique rels g) /\
  (forall n, In n nf <-> (exists g, planned p false g /\ n = funique rels g) /\
                         ~ exists g, planned p true g /\ n = funique rels g) /\
  (full = true <-> full_needed rels (approx_at appr) fs p) /\ NoDup ff /\ NoDup nf.
Proof. exact (plan_exact rels fs appr p). Qed.

(** A case: the plan of the demonstration features has, below customers and sessions, the full events
    entity with the running sums and what they need, and the remaining feature as not full. *)
Example C15_nonvacuous :
  plan_at (build_feature_trie demo_rels demo_fs no_appr) [(false, mkRel "cust" "id" "sess" "cid"); (false, mkRel "sess" "id" "event" "sid")]
  = (true, ["event: CUM_SUM(amt)"; "event: amt"; "event: CUM_SUM(amt) by sid"; "event: sid"], ["event: sess.dev"]).
Proof. vm_compute. reflexivity. Qed.

Print Assumptions C15_plan_exact.
