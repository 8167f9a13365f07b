(** Model of featuretools/utils/trie.py. *)
From Verif Require Import Base.

(** utils/trie.py L25-34: a node holds a value and an insertion-ordered dict of children.
    The [default] thunk is passed to the operations; path_constructor is [list]. *)
Inductive trie (K V : Type) : Type :=
| TNode (v : V) (ch : list (K * trie K V)).
Arguments TNode {K V} v ch.

Section Trie.
  Context {K V : Type} (keqb : K -> K -> bool) (d : V).

  (** utils/trie.py L25-34 [Trie.__init__] *)
  Definition trie_new : trie K V := TNode d [].

  (** [trie.value] (L31) *)
  Definition tvalue (t : trie K V) : V := match t with TNode v _ => v end.

  (** utils/trie.py L36-58 [children] *)
  Definition children (t : trie K V) : list (K * trie K V) := match t with TNode _ ch => ch end.

  (** dict access of L80-85: apply [f] to the child under [k], creating it (appended at
      the end of the dict) when it is missing *)
  Fixpoint upd_child (k : K) (f : trie K V -> trie K V) (ch : list (K * trie K V))
    : list (K * trie K V) :=
    match ch with
    | [] => [(k, f trie_new)]
    | (k', s) :: ch' => if keqb k k' then (k', f s) :: ch' else (k', s) :: upd_child k f ch'
    end.

  (** utils/trie.py L60-89 [get_node]: nodes are mutable Python objects, so a call has two
      results: the trie with the missing nodes created, and the node reached.  A mutation of
      the node reached is modelled by [update_at]: the trie obtained by running
      [node = t.get_node(path)] and then replacing that node by [f node]. *)
  Fixpoint update_at (path : list K) (f : trie K V -> trie K V) (t : trie K V) : trie K V :=
    match path with
    | [] => f t
    | first :: rest =>
      match t with TNode v ch => TNode v (upd_child first (update_at rest f) ch) end
    end.

  (** the node returned by [get_node] (same recursion, L76-89) *)
  Fixpoint get_node (path : list K) (t : trie K V) : trie K V :=
    match path with
    | [] => t
    | first :: rest =>
      match dget keqb first (children t) with
      | Some s => get_node rest s
      | None => get_node rest trie_new
      end
    end.

  (** effect of [get_node] on the trie: only creates missing nodes *)
  Definition touch (path : list K) (t : trie K V) : trie K V := update_at path (fun s => s) t.

  (** [t.get_node(path).value = v] *)
  Definition set_value (path : list K) (v : V) (t : trie K V) : trie K V :=
    update_at path (fun s => TNode v (children s)) t.

  (** utils/trie.py L91-104 [__iter__]: depth-first, pairs (path, value) *)
  Fixpoint iter (t : trie K V) : list (list K * V) :=
    match t with
    | TNode v ch =>
      ([], v) :: flat_map (fun ks => map (fun qv => (fst ks :: fst qv, snd qv)) (iter (snd ks))) ch
    end.
End Trie.

(** An operation history of a client of the trie. *)
Inductive trie_op (K V : Type) : Type :=
| OpGet (p : list K)              (* t.get_node(p)           *)
| OpSet (p : list K) (v : V).     (* t.get_node(p).value = v *)
Arguments OpGet {K V} p.
Arguments OpSet {K V} p v.

Definition trie_step {K V} (keqb : K -> K -> bool) (d : V) (t : trie K V) (o : trie_op K V) : trie K V :=
  match o with
  | OpGet p => touch keqb d p t
  | OpSet p v => set_value keqb d p v t
  end.

Definition trie_run {K V} (keqb : K -> K -> bool) (d : V) (ops : list (trie_op K V)) : trie K V :=
  fold_left (trie_step keqb d) ops (trie_new d).
