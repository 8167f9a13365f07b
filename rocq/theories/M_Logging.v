(** Logging set up when the package is imported: config_init.py L7-47, with the rules of Python's logging for levels and handlers.
    Simplified: both handlers write to standard output, so a handler is only its identity; capitals outside ASCII in level names are not changed;
    BASIC_FORMAT, which is no level, gives AttributeError like every other name. *)
From Coq Require Import String Ascii List Bool Arith.
From Verif Require Import Base.
Import ListNotations.
Local Open Scope string_scope.

(** logging: the state of a logger *)
Record logger : Type := mkLogger { l_level : nat; l_handlers : list nat; l_propagate : bool }.
(** a logger not set up yet *)
Definition new_logger : logger := mkLogger 0 [] true.
Definition loggers : Type := list (string * logger).
Definition get_logger (n : string) (st : loggers) : logger := match dget String.eqb n st with Some l => l | None => new_logger end.

Definition to_upper (a : ascii) : ascii := let n := nat_of_ascii a in if Nat.leb 97 n && Nat.leb n 122 then ascii_of_nat (n - 32) else a.
Definition supper (s : string) : string := string_of_list_ascii (map to_upper (list_ascii_of_string s)).
(** L34: getattr(logging, level.upper()) *)
Definition level_names : list (string * nat) :=
  [("CRITICAL", 50); ("FATAL", 50); ("ERROR", 40); ("WARNING", 30); ("WARN", 30); ("INFO", 20); ("DEBUG", 10); ("NOTSET", 0)].
Definition level_of (level : string) : res nat := match dget String.eqb (supper level) level_names with Some v => Ok v | None => Err AttributeError end.
(** L10-24: the level asked for each logger, by environment variables or else info *)
Definition env_vars : list (string * string) :=
  [("FEATURETOOLS_LOG_LEVEL", "featuretools"); ("FEATURETOOLS_ES_LOG_LEVEL", "featuretools.entityset"); ("FEATURETOOLS_BACKEND_LOG_LEVEL", "featuretools.computation_backend")].
Definition set_default (n v : string) (d : list (string * string)) : list (string * string) := match dget String.eqb n d with Some _ => d | None => dset String.eqb n v d end.
Definition asked_levels (env : list (string * string)) : list (string * string) :=
  let d := fold_left (fun d ev => match dget String.eqb (fst ev) env with Some v => dset String.eqb (snd ev) v d | None => d end) env_vars [] in
  set_default "featuretools.entityset" "info" (set_default "featuretools.computation_backend" "info" (set_default "featuretools" "info" d)).
(** L37-38: a list is walked by position while its members are removed *)
Fixpoint remove_handler (h : nat) (hs : list nat) : list nat := match hs with [] => [] | x :: r => if Nat.eqb x h then r else x :: remove_handler h r end.
Fixpoint remove_walk (fuel i : nat) (hs : list nat) : list nat :=
  match fuel with
  | O => hs
  | S f => match nth_error hs i with Some h => remove_walk f (S i) (remove_handler h hs) | None => hs end
  end.
(** logging: a handler is added once *)
Definition add_handler (h : nat) (hs : list nat) : list nat := if existsb (Nat.eqb h) hs then hs else hs ++ [h].
(** L33-44 *)
Definition set_up_one (out err : nat) (st : loggers) (nl : string * string) : res loggers :=
  do v <- level_of (snd nl);
  let l := get_logger (fst nl) st in
  let left := remove_walk (List.length (l_handlers l)) 0 (l_handlers l) in
  let h := if mem_str (snd nl) ["WARNING"; "ERROR"; "CRITICAL"] then err else out in
  Ok (dset String.eqb (fst nl) (mkLogger v (add_handler h left) false) st).
(** L7-44 [initialize_logging]; [out] and [err] are the two handlers made here *)
Definition initialize_logging (env : list (string * string)) (out err : nat) (st : loggers) : res loggers := foldM (set_up_one out err) (asked_levels env) st.

(** logging: the handlers a message reaches. [chain] is the logger and its ancestors, by name, nearest first; the root has level WARNING *)
Fixpoint effective_level (st : loggers) (chain : list string) : nat :=
  match chain with [] => 30 | n :: r => if Nat.eqb (l_level (get_logger n st)) 0 then effective_level st r else l_level (get_logger n st) end.
Fixpoint reach (st : loggers) (root : list nat) (chain : list string) : list nat :=
  match chain with [] => root | n :: r => l_handlers (get_logger n st) ++ (if l_propagate (get_logger n st) then reach st root r else []) end.
Definition emitted (st : loggers) (root : list nat) (chain : list string) (v : nat) : list nat :=
  if Nat.leb (effective_level st chain) v then reach st root chain else [].
(** the loggers in use: entityset/entityset.py L27, synthesis/deep_feature_synthesis.py L32, computational_backends/calculate_feature_matrix.py L39 *)
Definition es_chain : list string := ["featuretools.entityset"; "featuretools"].
Definition main_chain : list string := ["featuretools"].
Definition backend_chain : list string := ["featuretools.computational_backend"; "featuretools"].
