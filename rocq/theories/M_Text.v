(** Texts: primitives/standard/transform_primitive.py L330-372 (NumCharacters, NumWords).
    Simplification: characters are bytes ([Ascii]); a missing text is [None]; pandas columns as lists. *)
From Coq Require Import Ascii.
From Verif Require Import Base.
Local Open Scope string_scope.

(** Series.fillna('') *)
Definition fillna_text (c : list (option string)) : list string := map (fun t => match t with Some t => t | None => "" end) c.
(** str.count(' ') *)
Fixpoint count_char (c : ascii) (t : string) : nat := match t with "" => O | String x t => if Ascii.eqb x c then S (count_char c t) else count_char c t end.
(** L346-349 *)
Definition num_characters (c : list (option string)) : list nat := map String.length (fillna_text c).
(** L368-371 *)
Definition num_words (c : list (option string)) : list nat := map (fun t => (count_char " " t + 1)%nat) (fillna_text c).
