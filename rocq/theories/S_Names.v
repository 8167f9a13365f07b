(** Vocabulary of C50: features all of whose names are made of ordinary words. *)
From Verif Require Import Base M_Schema S_Schema M_Feature M_Names.
Local Open Scope string_scope.

(** characters with a role in feature names *)
Definition special (c : ascii) : bool := existsb (Ascii.eqb c) ["("; ")"; ","; "."; "["; "]"; " "]%char.
Fixpoint free_of (bad : ascii -> bool) (s : string) : bool :=
  match s with EmptyString => true | String c s' => negb (bad c) && free_of bad s' end.
(** a word: no special character, no "=", and not the keyword "Last" *)
Definition word (s : string) : Prop := s <> "" /\ free_of (fun c => special c || Ascii.eqb c "=") s = true /\ s <> "Last".
(** the text "name=value" of a primitive's argument: no special character, and a "=" *)
Definition argument (s : string) : Prop := free_of special s = true /\ free_of (Ascii.eqb "=") s = false.

(** the ways names are built *)
Inductive style : Type :=
| Call (name : string) (args : list string)          (* NAME(bases, args) *)
| Aggregate (name : string) (args : list string)     (* NAME(path.bases WHERE ..., Last ..., args) *)
| Counting                                           (* COUNT(path WHERE ..., Last ...) *)
| Scalar (op value : string).                        (* base op value *)

Section Ordinary.
  Variables (rels : list relationship) (style_of : prim -> style -> Prop) (index_of : string -> string).

  (** the primitives in use: their names are built in the style, a style belongs to one primitive, and aggregations do
      not share names with transforms *)
  Record styled : Prop := {
    st_call : forall p n args, style_of p (Call n args) -> (forall bs, p_gen p bs = call_name n args bs) /\ word n /\ Forall argument args;
    st_agg : forall p n args, style_of p (Aggregate n args) ->
      (forall bs path parent wh prev, p_gen_agg p bs path parent wh prev = call_name_agg n args bs path parent wh prev) /\ word n /\ n <> "COUNT" /\ Forall argument args;
    st_count : forall p, style_of p Counting -> forall bs path parent wh prev, p_gen_agg p bs path parent wh prev = count_name bs path parent wh prev;
    st_scalar : forall p op v, style_of p (Scalar op v) -> (forall bs, p_gen p bs = scalar_name op v bs) /\
      op <> "" /\ free_of special op = true /\ String.get 0 op <> Some "b"%char /\ free_of special v = true;
    st_one : forall p q s, style_of p s -> style_of q s -> p = q;
    st_kinds : forall p q n args args', style_of p (Call n args) -> style_of q (Aggregate n args') -> False;
    st_kinds_count : forall p args, ~ style_of p (Call "COUNT" args)
  }.
  (** the schema: words as names; two relationships differ in their entities or child variable; no two entities are parents of each other *)
  Record plain_schema : Prop := {
    ps_words : forall r, In r rels -> word (r_pe r) /\ word (r_ce r) /\ word (r_cv r);
    ps_one : forall r r', In r rels -> In r' rels -> r_ce r = r_ce r' -> r_cv r = r_cv r' -> r_pe r = r_pe r' -> r = r';
    ps_acyclic : forall r r', In r rels -> In r' rels -> r_ce r = r_pe r' -> r_pe r = r_ce r' -> False
  }.

  (** a text like "3 Days": no comma and no bracket *)
  Definition delta_text (s : string) : bool := free_of (fun c => existsb (Ascii.eqb c) ["("; ")"; ","]%char) s.
  (** time deltas are told apart by their text *)
  Variable delta : tdelta -> Prop.
  Definition deltas : Prop := (forall d, delta d -> delta_text (td_name d) = true) /\ (forall d d', delta d -> delta d' -> td_name d = td_name d' -> d = d').

  Definition last_child (e : string) (path : list relationship) : string := last (map r_ce path) e.

  (** [ordinary e f]: a feature of entity [e] made of variables, values of parents, aggregations (with conditions and windows), transforms
      and grouped transforms, all with generated names *)
  Fixpoint ordinary (e : string) (f : feat) {struct f} : Prop :=
    match f with
    | FIdent e' v None => e' = e /\ word v
    | FDirect r b None => In r rels /\ r_ce r = e /\ ordinary (r_pe r) b
    | FTrans p bs None =>
      (exists n args, style_of p (Call n args)) /\ bs <> [] /\ fold_right (fun b acc => ordinary e b /\ acc) True bs
    | FGroup p bs g None =>
      (exists n args, style_of p (Call n args)) /\ bs <> [] /\ fold_right (fun b acc => ordinary e b /\ acc) True bs /\ ordinary e g
    | FAgg p bs path uniq wh prev None =>
      let c := last_child e path in
      path <> [] /\ backward_chain rels e path c /\
      (uniq = true <-> forall path', path' <> [] -> backward_chain rels e path' c -> path' = path) /\
      (((exists n args, style_of p (Aggregate n args)) /\ bs <> [] /\ fold_right (fun b acc => ordinary c b /\ acc) True bs) \/
       (style_of p Counting /\ bs = [FIdent c (index_of c) None])) /\
      match wh with
      | None => True
      | Some w =>
        ordinary c w \/
        match w with
        | FTrans q [b] None => (exists op v, style_of q (Scalar op v)) /\ ordinary c b
        | _ => False
        end
      end /\
      match prev with None => True | Some d => delta d end
    | _ => False
    end.
End Ordinary.
