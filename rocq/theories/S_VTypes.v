(** C94: how a class name becomes a type string, and which class a type string stands for. *)
From Coq Require Import String Ascii List Bool.
From Verif Require Import Base M_VTypes.
Import ListNotations.
Local Open Scope string_scope.
Local Open Scope list_scope.

Definition capitals : list ascii := list_ascii_of_string "ABCDEFGHIJKLMNOPQRSTUVWXYZ".
Definition small_letters : list ascii := list_ascii_of_string "abcdefghijklmnopqrstuvwxyz".
Definition digits : list ascii := list_ascii_of_string "0123456789".
Definition one_of (l : list ascii) (a : ascii) : bool := existsb (Ascii.eqb a) l.
(** a character in lower case *)
Definition small (a : ascii) : ascii := match find (fun p => Ascii.eqb a (fst p)) (combine capitals small_letters) with Some p => snd p | None => a end.
Definition smalls (s : string) : string := string_of_list_ascii (map small (list_ascii_of_string s)).
(** the rule: a capital that is not first gets an underscore if it comes after a small letter or a digit, or before a small letter *)
Fixpoint respell (prev : option ascii) (s : string) : string :=
  match s with
  | EmptyString => EmptyString
  | String c t =>
    let new_word := match prev with
                    | None => false
                    | Some p => one_of capitals c && (one_of small_letters p || one_of digits p || match t with String n _ => one_of small_letters n | _ => false end)
                    end in
    if new_word then String "_" (String (small c) (respell (Some c) t)) else String (small c) (respell (Some c) t)
  end.
(** [spelled false s t]: [t] is [s] in lower case, with underscores put before some capitals, but not at the start *)
Inductive spelled : bool -> string -> string -> Prop :=
  | sp_end p : spelled p "" ""
  | sp_char p c s t : spelled true s t -> spelled p (String c s) (String (small c) t)
  | sp_word c s t : In c capitals -> spelled true s t -> spelled true (String c s) (String "_" (String (small c) t)).
(** a word: a capital and then at least one small letter *)
Definition word (w : string) : Prop := exists u l r, w = String u (String l r) /\ In u capitals /\
  forall a, In a (list_ascii_of_string (String l r)) -> In a small_letters.
(** [c] is [root] or derives from it *)
Inductive derives : vclass -> vclass -> Prop :=
  | der_refl c : derives c c
  | der_sub i n subs d c : In d subs -> derives d c -> derives (VClass i n subs) c.
(** the types a user can name: everything derived from Variable but itself and Text *)
Definition usable (root text c : vclass) : Prop := derives root c /\ v_id c <> v_id root /\ v_id c <> v_id text.
