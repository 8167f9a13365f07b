(** C93: a picture of an entity set. *)
From Coq Require Import String Ascii List.
From Verif Require Import Base M_Schema M_Plot.
Import ListNotations.
Local Open Scope string_scope.
Local Open Scope list_scope.

Definition has_char (a : ascii) (s : string) : Prop := In a (list_ascii_of_string s).
(** [part] is somewhere in [whole] *)
Definition shows (whole part : string) : Prop := exists a b, whole = (a ++ part ++ b)%string.
(** [s] is the name [stem] with the extension [ext] *)
Definition has_extension (s stem ext : string) : Prop := s = (stem ++ "." ++ ext)%string /\ ~ has_char "." ext.
