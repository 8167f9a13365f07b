(** What a trie is: a map from paths to values with a default. *)
From Verif Require Import Base M_Trie.

Section Spec.
  Context {K V : Type} (path_eqb : list K -> list K -> bool) (d : V).

  (** the last value written to [p] in the history, or the default *)
  Fixpoint last_write (p : list K) (ops_newest_first : list (trie_op K V)) : V :=
    match ops_newest_first with
    | [] => d
    | OpSet q v :: h => if path_eqb p q then v else last_write p h
    | OpGet _ :: h => last_write p h
    end.

  Definition op_path (o : trie_op K V) : list K :=
    match o with OpGet p => p | OpSet p _ => p end.

  (** paths that exist: the root, and every prefix of a path used so far *)
  Definition created (ops : list (trie_op K V)) (p : list K) : Prop :=
    p = [] \/ exists o r, In o ops /\ op_path o = p ++ r.
End Spec.
