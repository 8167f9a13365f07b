(** C16: the trie is a map from paths to values. *)
From Verif Require Import Base BaseFacts M_Trie S_Trie L_Trie.

Section C16.
  Context {K V : Type} (keqb : K -> K -> bool) (path_eqb : list K -> list K -> bool) (d : V).
  Hypothesis keqb_spec : forall a b, reflect (a = b) (keqb a b).
  Hypothesis path_eqb_spec : forall p q, reflect (p = q) (path_eqb p q).

  (** Reading any path after any history gives the last value written there, or the default. *)
  Theorem C16_trie_read_after_history (ops : list (trie_op K V)) (p : list K) :
    tvalue (get_node keqb d p (trie_run keqb d ops)) = last_write path_eqb d p (rev ops).
  Proof. exact (trie_run_value keqb keqb_spec d path_eqb path_eqb_spec ops p). Qed.

  (** [get_node] on a concatenation is [get_node] twice (on any trie). *)
  Theorem C16_trie_get_node_app (p q : list K) (t : trie K V) :
    get_node keqb d (p ++ q) t = get_node keqb d q (get_node keqb d p t).
  Proof. exact (get_node_app keqb d p q t). Qed.

  (** Iteration yields exactly the created paths with their current values … *)
  Theorem C16_trie_iter_exact (ops : list (trie_op K V)) (p : list K) (v : V) :
    In (p, v) (iter (trie_run keqb d ops)) <->
    created ops p /\ v = last_write path_eqb d p (rev ops).
  Proof. exact (trie_run_iter keqb keqb_spec d path_eqb path_eqb_spec ops p v). Qed.

  (** … each path once … *)
  Theorem C16_trie_iter_once (ops : list (trie_op K V)) :
    NoDup (map fst (iter (trie_run keqb d ops))).
  Proof. exact (iter_NoDup (trie_run keqb d ops) (trie_run_twf keqb keqb_spec d ops)). Qed.

  (** … and every proper prefix of a path before the path. *)
  Theorem C16_trie_iter_prefix_first (t : trie K V) (l1 l2 : list (list K * V)) p r v :
    iter t = l1 ++ (p ++ r, v) :: l2 -> r <> [] -> In p (map fst l1).
  Proof. exact (iter_prefix_first t l1 l2 p r v). Qed.
End C16.

(** A concrete history: three writes and a read, iterated. *)
Example C16_example :
  let ops := [OpSet [1; 2] 10; OpGet [3]; OpSet [1] 7; OpSet [1; 2] 11] in
  iter (trie_run Nat.eqb 0 ops) = [([], 0); ([1], 7); ([1; 2], 11); ([3], 0)].
Proof. reflexivity. Qed.

Print Assumptions C16_trie_read_after_history.
Print Assumptions C16_trie_get_node_app.
Print Assumptions C16_trie_iter_exact.
Print Assumptions C16_trie_iter_once.
Print Assumptions C16_trie_iter_prefix_first.
