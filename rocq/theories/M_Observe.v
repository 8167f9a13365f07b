(** Entry points told about calls of dfs: utils/entry_point.py L8-50, used at synthesis/dfs.py L16.
    Simplified: the running time in the reports is left out; objects are values, so a change made inside an argument is not seen. *)
From Coq Require Import String List Bool.
From Verif Require Import Base.
Import ListNotations.

(** the arguments by name, as sent to [on_call] *)
Definition named (V : Type) : Type := list (string * V).
(** what a call ends with: a value, an [Exception], or another exception such as KeyboardInterrupt *)
Inductive ending (V E : Type) : Type := Done (v : V) | Fail (e : E) | Stop (e : E).
Arguments Done {V E} _. Arguments Fail {V E} _. Arguments Stop {V E} _.
(** a registered entry point: each report may change the dictionary it gets, or fail *)
Record observer (V E : Type) : Type := mkObserver {
  o_call : named V -> named V + E;
  o_error : E -> option E;
  o_return : V -> option E }.
Arguments mkObserver {V E} _ _ _. Arguments o_call {V E} _ _. Arguments o_error {V E} _ _. Arguments o_return {V E} _ _.
(** what happens, in order; an entry point is named by its position among the registered *)
Inductive event (V E : Type) : Type :=
  | OnCall (i : nat) (d : named V)
  | Run (args : list V) (kwargs : named V)
  | OnError (i : nat) (e : E)
  | OnReturn (i : nat) (v : V).
Arguments OnCall {V E} _ _. Arguments Run {V E} _ _. Arguments OnError {V E} _ _. Arguments OnReturn {V E} _ _.

Section Wrapper.
  Context {V E : Type}.
  (** L13-17: positional arguments are named after the parameters *)
  Definition call_kwargs (params : list string) (args : list V) (kwargs : named V) : named V :=
    fold_left (fun d pa => dset String.eqb (snd pa) (fst pa) d) (combine args params) kwargs.
  (** L25-27: one dictionary is handed to each in turn *)
  Fixpoint send_call (i : nat) (os : list (observer V E)) (d : named V) : list (event V E) * option E :=
    match os with
    | [] => ([], None)
    | o :: os' => match o_call o d with
                  | inl d' => let r := send_call (S i) os' d' in (OnCall i d :: fst r, snd r)
                  | inr e => ([OnCall i d], Some e)
                  end
    end.
  (** L37-39 *)
  Fixpoint send_error (i : nat) (os : list (observer V E)) (e : E) : list (event V E) * option E :=
    match os with
    | [] => ([], None)
    | o :: os' => match o_error o e with
                  | None => let r := send_error (S i) os' e in (OnError i e :: fst r, snd r)
                  | Some e' => ([OnError i e], Some e')
                  end
    end.
  (** L43-45 *)
  Fixpoint send_return (i : nat) (os : list (observer V E)) (v : V) : list (event V E) * option E :=
    match os with
    | [] => ([], None)
    | o :: os' => match o_return o v with
                  | None => let r := send_return (S i) os' v in (OnReturn i v :: fst r, snd r)
                  | Some e' => ([OnReturn i v], Some e')
                  end
    end.
  (** L11-47 [function_wrapper]: what happens, and what the caller gets *)
  Definition wrapped (params : list string) (func : list V -> named V -> ending V E) (os : list (observer V E)) (args : list V) (kwargs : named V)
    : list (event V E) * ending V E :=
    let c := send_call 0 os (call_kwargs params args kwargs) in
    match snd c with
    | Some e => (fst c, Fail e)
    | None =>
      let before := fst c ++ [Run args kwargs] in
      match func args kwargs with
      | Done v => let r := send_return 0 os v in (before ++ fst r, match snd r with None => Done v | Some e => Fail e end)
      | Fail e => let r := send_error 0 os e in (before ++ fst r, match snd r with None => Fail e | Some e' => Fail e' end)
      | Stop e => (before, Stop e)
      end
    end.
End Wrapper.
