(** Naming primitives in the arguments of dfs, and the warning about unused ones: synthesis/dfs.py L262-313 and
    synthesis/deep_feature_synthesis.py L200-247, L923-944.
    Simplifications: a class given instead of an instance is taken as its default instance (L923-927); the check that the
    primitive has the right kind (L211-213, L940-943) and the compatibility check (L253-257) are left out. *)
From Verif Require Import Base M_Schema M_Feature M_Types M_Match M_DFS.

(** one element of agg_primitives, trans_primitives, ... *)
Inductive parg : Type := ByName (s : string) | ByPrim (p : prim).
Section Args.
  Variable lower : string -> string.
  Variable attr : prim -> pattr.
  (** primitives/utils.py L16-39: the known primitives by their lower-case name *)
  Variable known : list (string * prim).
  (** deep_feature_synthesis.py L203-210, L228-237, L933-938 *)
  Definition resolve (a : parg) : res prim :=
    match a with
    | ByPrim p => Ok p
    | ByName s => match dget String.eqb (lower s) known with Some p => Ok p | None => Err ValueError end
    end.
  (** dfs.py L299 *)
  Definition specified_name (a : parg) : string := match a with ByName s => s | ByPrim p => a_name (attr p) end.
  (** dfs.py L295-300; [None] is an argument that was not given *)
  Definition unused_of (given : option (list parg)) (used : list string) : list string :=
    match given with None => [] | Some l => get_unused (map specified_name l) used end.
  (** dfs.py L264-273: transforms, aggregations, groupby transforms, where primitives; the warning is shown iff one is not empty *)
  Definition unused_primitives (trans agg groupby where_ : option (list parg)) (u : used) : list (list string) :=
    [unused_of trans (u_trans u); unused_of agg (u_agg u); unused_of groupby (u_group u); unused_of where_ (u_where u)].
  Definition warns (un : list (list string)) : bool := existsb (fun l => match l with [] => false | _ => true end) un.
End Args.
