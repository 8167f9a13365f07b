(** C83: NumCharacters and NumWords. *)
From Coq Require Import Ascii Lia.
From Verif Require Import Base M_Text S_Text.
Local Open Scope string_scope.

Lemma words_from t : forall b, (word_starts is_space b t + (if b then 0 else 1) <= count_char " " t + 1)%nat /\
  ((count_char " " t + 1 = word_starts is_space b t + (if b then 0 else 1))%nat <-> tidy_from is_space b t).
Proof.
  induction t as [|c t IH]; intros b.
  - destruct b; cbn; [|split; [lia | tauto]]. split; [lia|]. split; [lia | discriminate].
  - cbn [word_starts count_char tidy_from]. change (is_space c) with (Ascii.eqb c " "). destruct (Ascii.eqb c " ").
    + destruct (IH true) as [A B]. destruct b; split.
      * lia.
      * split; [lia | intros [C _]; discriminate].
      * lia.
      * rewrite <- B. split; [intros H; split; [reflexivity | lia] | intros [_ H]; lia].
    + destruct (IH false) as [A B]. destruct b; (split; [lia|]); rewrite <- B; lia.
Qed.
(** *** NumWords gives at least the number of words, and exactly it for texts with single spaces between their words. *)
Theorem C83_words_partial (c : list (option string)) i t : nth_error c i = Some (Some t) ->
  exists n, nth_error (num_words c) i = Some n /\ (words is_space t <= n)%nat /\ (n = words is_space t <-> tidy is_space t).
Proof.
  intros H. unfold num_words, fillna_text. rewrite map_map, nth_error_map, H. cbn [option_map]. eexists. split; [reflexivity|].
  destruct (words_from t true) as [A B]. unfold words, tidy. rewrite <- B. lia.
Qed.
(** *** Other texts: an empty and a missing text have one word, spaces at the ends and double spaces count, line breaks do not. *)
Theorem C83_words_refuted : num_words [Some ""; None; Some " a "; Some "a  b"; Some (String "a" (String "010" "b"))] = [1; 1; 3; 3; 1]%nat /\
  map (words is_white) [""; " a "; "a  b"; String "a" (String "010" "b")] = [0; 1; 2; 2]%nat.
Proof. split; reflexivity. Qed.

(** *** NumCharacters is the number of characters, row by row; a missing text has none. *)
Theorem C83_characters (c : list (option string)) : List.length (num_characters c) = List.length c /\ List.length (num_words c) = List.length c /\
  (forall i t, nth_error c i = Some (Some t) -> nth_error (num_characters c) i = Some (List.length (list_ascii_of_string t))) /\
  (forall i, nth_error c i = Some None -> nth_error (num_characters c) i = Some 0%nat).
Proof.
  unfold num_characters, num_words, fillna_text. split; [rewrite !map_length; reflexivity|]. split; [rewrite !map_length; reflexivity|]. split; intros i; rewrite ?map_map.
  - intros t H. rewrite nth_error_map, H. cbn [option_map]. f_equal. clear H. induction t as [|x t IH]; [reflexivity|]. cbn. f_equal. exact IH.
  - intros H. rewrite nth_error_map, H. reflexivity.
Qed.
Example C83_nonvacuous : tidy is_space "This is a string" /\ words is_space "This is a string" = 4%nat /\ num_words [Some "This is a string"; Some "no-spaces"] = [4; 1]%nat /\ num_characters [Some "final1"; None] = [6; 0]%nat.
Proof. repeat split. Qed.
Print Assumptions C83_words_partial.
Print Assumptions C83_words_refuted.
Print Assumptions C83_characters.
