(** C96: the levels asked for by environment variables. *)
From Coq Require Import String Ascii List.
From Verif Require Import Base S_VTypes M_Logging.
Import ListNotations.
Local Open Scope string_scope.

(** a level by its name, in small letters or capitals *)
Definition means (s : string) (v : nat) : Prop :=
  In (smalls s, v) [("critical", 50); ("fatal", 50); ("error", 40); ("warning", 30); ("warn", 30); ("info", 20); ("debug", 10); ("notset", 0)].
(** what a variable of the environment says; info when it is missing *)
Definition setting (env : list (string * string)) (var : string) : string := match dget String.eqb var env with Some s => s | None => "info" end.
(** the variables, and the loggers they are for *)
Definition documented : list (string * string) :=
  [("FEATURETOOLS_LOG_LEVEL", "featuretools"); ("FEATURETOOLS_ES_LOG_LEVEL", "featuretools.entityset"); ("FEATURETOOLS_BACKEND_LOG_LEVEL", "featuretools.computation_backend")].
