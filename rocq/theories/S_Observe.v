(** C95: what an entry point hears of a call, and what the caller gets. *)
From Coq Require Import String List.
From Verif Require Import Base M_Observe.
Import ListNotations.

(** no report to this entry point fails *)
Definition harmless {V E} (o : observer V E) : Prop :=
  (forall d, exists d', o_call o d = inl d') /\ (forall e, o_error o e = None) /\ (forall v, o_return o v = None).
(** the entry point at [i] is told of the call once, before the function runs, and then, once, of [last]; it is told nothing else *)
Definition told {V E} (t : list (event V E)) (i : nat) (args : list V) (kwargs : named V) (last : event V E) : Prop :=
  exists d b1 b2 b3 b4, t = b1 ++ OnCall i d :: b2 ++ Run args kwargs :: b3 ++ last :: b4 /\
    forall x, In x (b1 ++ b2 ++ b3 ++ b4) ->
      (forall d', x <> OnCall i d') /\ (forall e, x <> OnError i e) /\ (forall v, x <> OnReturn i v) /\ (forall a k, x <> Run a k).
