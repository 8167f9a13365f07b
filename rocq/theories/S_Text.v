(** Specification for C83: words begin at a character that is no space, after a space or at the beginning. *)
From Coq Require Import Ascii.
From Verif Require Import Base.
Local Open Scope string_scope.

Section Words.
  Variable space : ascii -> bool.
  (** [beginning] says whether we are at the beginning or after a space *)
  Fixpoint word_starts (beginning : bool) (t : string) : nat :=
    match t with
    | "" => O
    | String c t => if space c then word_starts true t else if beginning then S (word_starts false t) else word_starts false t
    end.
  Definition words (t : string) : nat := word_starts true t.
  (** a text that is not empty, with single spaces between words, and none at the ends *)
  Fixpoint tidy_from (beginning : bool) (t : string) : Prop :=
    match t with
    | "" => beginning = false
    | String c t => if space c then beginning = false /\ tidy_from true t else tidy_from false t
    end.
  Definition tidy (t : string) : Prop := tidy_from true t.
End Words.
Definition is_space (c : ascii) : bool := Ascii.eqb c " ".
(** also tabs and line breaks *)
Definition is_white (c : ascii) : bool := existsb (Ascii.eqb c) [" "%char; "009"%char; "010"%char; "011"%char; "012"%char; "013"%char].
