(** C65: names and entities of relationships and of paths of relationships. *)
From Verif Require Import Base BaseFacts M_Schema S_Schema M_Feature S_Names L_Names.
Local Open Scope string_scope.

(** ** Specification *)
(** [walk rels a p b]: [p] leads from entity [a] to entity [b] over relationships of the entity set, each in the given direction *)
Inductive walk (rels : list relationship) : string -> list edge -> string -> Prop :=
| walk_here a : walk rels a [] a
| walk_up r p b : In r rels -> walk rels (r_pe r) p b -> walk rels (r_ce r) ((true, r) :: p) b
| walk_down r p b : In r rels -> walk rels (r_ce r) p b -> walk rels (r_pe r) ((false, r) :: p) b.
Definition from (e : edge) : string := if fst e then r_ce (snd e) else r_pe (snd e).
Definition into (e : edge) : string := if fst e then r_pe (snd e) else r_ce (snd e).
(** the only relationship between its two entities *)
Definition only_link (rels : list relationship) (r : relationship) : Prop :=
  forall r', In r' rels -> r_ce r' = r_ce r -> r_pe r' = r_pe r -> r' = r.

(** ** Names of relationships *)
Lemma links_In rels r r' : In r' (filter (fun r' => String.eqb (r_pe r') (r_pe r)) (get_forward_relationships rels (r_ce r))) <-> In r' rels /\ r_ce r' = r_ce r /\ r_pe r' = r_pe r.
Proof. unfold get_forward_relationships. rewrite !filter_In, !String.eqb_eq. tauto. Qed.
Lemma unique_cases rels r : NoDup rels -> In r rels ->
  (only_link rels r /\ rel_is_unique rels r = Ok true /\ rel_uniqueb rels r = true) \/
  (~ only_link rels r /\ rel_is_unique rels r = Ok false /\ rel_uniqueb rels r = false).
Proof.
  intros Hn Hr. unfold rel_is_unique, rel_uniqueb, only_link. set (l := filter _ _).
  assert (NoDup l) as Hl by (apply NoDup_filter, NoDup_filter; exact Hn).
  assert (In r l) as H1 by (apply links_In; auto).
  assert (forall r', In r' l <-> In r' rels /\ r_ce r' = r_ce r /\ r_pe r' = r_pe r) as HI by (intros r'; apply links_In). clearbody l.
  destruct l as [|x [|y l]]; [destruct H1 | left | right].
  - destruct H1 as [->|[]]. split; [|split; reflexivity]. intros r' Ha Hb Hc. destruct (proj2 (HI r') (conj Ha (conj Hb Hc))) as [<-|[]]. reflexivity.
  - split; [|split; reflexivity]. intros H. apply NoDup_cons_iff in Hl as [Hx _]. apply Hx. left.
    destruct (proj1 (HI x) (or_introl eq_refl)) as (A & B & C). destruct (proj1 (HI y) (or_intror (or_introl eq_refl))) as (A' & B' & C'). rewrite (H x A B C), (H y A' B' C'). reflexivity.
Qed.

(** *** A relationship is called by its other entity, followed by the linking column in brackets exactly when the two entities
    have another link; a relationship whose entities the entity set does not link has no name. *)
Theorem C65_relationship_names : forall rels r, NoDup rels ->
  (In r rels -> only_link rels r -> rel_parent_name rels r = Ok (r_pe r) /\ rel_child_name rels r = Ok (r_ce r)) /\
  (In r rels -> ~ only_link rels r -> rel_parent_name rels r = Ok (r_pe r ++ "[" ++ r_cv r ++ "]") /\ rel_child_name rels r = Ok (r_ce r ++ "[" ++ r_cv r ++ "]")) /\
  ((forall r', In r' rels -> r_ce r' = r_ce r -> r_pe r' = r_pe r -> False) -> rel_parent_name rels r = Err AssertionError /\ rel_child_name rels r = Err AssertionError).
Proof.
  intros rels r Hn. split; [|split].
  - intros Hr Ho. unfold rel_parent_name, rel_child_name. destruct (unique_cases rels r Hn Hr) as [(_ & -> & _)|(N & _)]; [|contradiction]. split; reflexivity.
  - intros Hr Ho. unfold rel_parent_name, rel_child_name. destruct (unique_cases rels r Hn Hr) as [(Y & _)|(_ & -> & _)]; [contradiction|]. split; reflexivity.
  - intros H. unfold rel_parent_name, rel_child_name, rel_is_unique. destruct (filter _ _) as [|x l] eqn:E; [split; reflexivity|]. exfalso.
    destruct (proj1 (links_In rels r x)) as (A & B & C); [rewrite E; left; reflexivity|]. exact (H x A B C).
Qed.

Lemma parent_name_ok rels r : NoDup rels -> In r rels -> rel_parent_name rels r = Ok (parent_name rels r).
Proof. intros Hn Hr. unfold rel_parent_name, parent_name. destruct (unique_cases rels r Hn Hr) as [(_ & -> & ->)|(_ & -> & ->)]; reflexivity. Qed.
Lemma child_name_ok rels r : NoDup rels -> In r rels -> rel_child_name rels r = Ok (child_name rels r).
Proof. intros Hn Hr. unfold rel_child_name, child_name. destruct (unique_cases rels r Hn Hr) as [(_ & -> & ->)|(_ & -> & ->)]; reflexivity. Qed.
Lemma walk_rels rels a p b e : walk rels a p b -> In e p -> In (snd e) rels.
Proof. induction 1; intros Hin; [destruct Hin | |]; (destruct Hin as [<-|Hin]; [assumption | auto]). Qed.
Lemma path_name_ok rels p : NoDup rels -> (forall e, In e p -> In (snd e) rels) -> path_name rels p = Ok (edges_name rels p).
Proof.
  intros Hn H. unfold path_name, edges_name.
  assert (mapM (direction_name rels) p = Ok (map (fun e : edge => if fst e then parent_name rels (snd e) else child_name rels (snd e)) p)) as ->; [|reflexivity].
  induction p as [|e p IH]; [reflexivity|]. cbn [mapM map]. rewrite IH by (intros x Hx; apply H; right; exact Hx). unfold direction_name. destruct (fst e); [rewrite parent_name_ok | rewrite child_name_ok]; try assumption; try (apply H; left; reflexivity); reflexivity.
Qed.

(** ** Names of paths *)
Section Decode.
  Variable rels : list relationship.
  Hypothesis Hps : plain_schema rels.
  Definition ename (e : edge) : string := if fst e then parent_name rels (snd e) else child_name rels (snd e).
  Lemma edge_decode e e' k k' : In (snd e) rels -> In (snd e') rels -> from e = from e' -> after_segment k -> after_segment k' -> ename e ++ k = ename e' ++ k' -> e = e' /\ k = k'.
  Proof.
    destruct e as [d r], e' as [d' r']. unfold from, ename. cbn [fst snd]. intros Hr Hr' Hf Hk Hk' E. destruct d, d'.
    - destruct (parent_decode rels Hps r r' k k' Hr Hr' Hf Hk Hk' E) as [-> ->]. auto.
    - exfalso. destruct (parent_text rels r) as (t & Et & Ht), (child_text rels r') as (t' & Et' & Ht'). rewrite Et, Et', !sapp_assoc in E.
      apply (split_at special) in E as [Ep _]; [|apply word_free, (ps_words _ Hps r Hr) | apply word_free, (ps_words _ Hps r' Hr') | apply (text_starts rels r); [apply after_starts; exact Hk | exact Ht] | apply (text_starts rels r'); [apply after_starts; exact Hk' | exact Ht']].
      exact (ps_acyclic _ Hps r r' Hr Hr' Hf Ep).
    - exfalso. destruct (child_text rels r) as (t & Et & Ht), (parent_text rels r') as (t' & Et' & Ht'). rewrite Et, Et', !sapp_assoc in E.
      apply (split_at special) in E as [Ep _]; [|apply word_free, (ps_words _ Hps r Hr) | apply word_free, (ps_words _ Hps r' Hr') | apply (text_starts rels r); [apply after_starts; exact Hk | exact Ht] | apply (text_starts rels r'); [apply after_starts; exact Hk' | exact Ht']].
      apply (ps_acyclic _ Hps r' r Hr' Hr); congruence.
    - destruct (child_decode rels Hps r r' k k' Hr Hr' Hf Hk Hk' E) as [-> ->]. auto.
  Qed.
  Lemma walk_cons a e p b : walk rels a (e :: p) b -> In (snd e) rels /\ from e = a /\ walk rels (into e) p b.
  Proof. intros H. inversion H; subst; auto. Qed.
  Lemma dots_end l : after_segment (dots l ")").
  Proof. destruct l; [right; right; right; left; reflexivity | left; reflexivity]. Qed.
  Lemma walks_decode p : forall p' a b b', walk rels a p b -> walk rels a p' b' -> dots (map ename p) ")" = dots (map ename p') ")" -> p = p'.
  Proof.
    induction p as [|e p IH]; intros [|e' p'] a b b' H H' E; cbn [map dots] in E; [reflexivity | discriminate | discriminate|].
    apply walk_cons in H as (Hr & Hf & H), H' as (Hr' & Hf' & H'). cbn [append] in E. injection E as E.
    destruct (edge_decode e e' _ _ Hr Hr' ltac:(congruence) (dots_end _) (dots_end _) E) as [<- E']. f_equal. exact (IH _ _ _ _ H H' E').
  Qed.
End Decode.
Lemma ename_nonempty rels a e p b : plain_schema rels -> walk rels a (e :: p) b -> exists c s, edges_name rels (e :: p) ++ ")" = String c s /\ c <> ")"%char.
Proof.
  intros Hps H. apply walk_cons in H as (Hr & _). unfold edges_name. cbn [map]. rewrite concat_dots.
  assert (exists w t, (if fst e then parent_name rels (snd e) else child_name rels (snd e)) = w ++ t /\ word w) as (w & t & -> & Hw & Hf & _).
  { destruct (fst e); [destruct (parent_text rels (snd e)) as (t & -> & _); exists (r_pe (snd e)), t | destruct (child_text rels (snd e)) as (t & -> & _); exists (r_ce (snd e)), t]; (split; [reflexivity|]); apply (ps_words _ Hps); exact Hr. }
  destruct w as [|c w]; [contradiction|]. exists c. eexists. split; [reflexivity|]. intros ->. cbn in Hf. discriminate.
Qed.

(** *** Two paths that leave the same entity and have the same name are the same path, in whatever mix of directions: partial,
    for entity sets whose entities and link columns are named by plain words and where no two entities are each other's parent. *)
Theorem C65_path_names_partial : forall rels a p p' b b' n, NoDup rels -> plain_schema rels ->
  walk rels a p b -> walk rels a p' b' -> path_name rels p = Ok n -> path_name rels p' = Ok n -> p = p'.
Proof.
  intros rels a p p' b b' n Hn Hps H H'. rewrite (path_name_ok rels p Hn (fun e => walk_rels _ _ _ _ e H)), (path_name_ok rels p' Hn (fun e => walk_rels _ _ _ _ e H')). intros E E'. injection E as E. injection E' as E'.
  assert (edges_name rels p ++ ")" = edges_name rels p' ++ ")") as E2 by congruence. clear E E' n.
  destruct p as [|e p], p' as [|e' p']; [reflexivity | | |].
  - exfalso. destruct (ename_nonempty _ _ _ _ _ Hps H') as (c & s & Es & Hc). rewrite Es in E2. cbn in E2. injection E2 as E2 _. congruence.
  - exfalso. destruct (ename_nonempty _ _ _ _ _ Hps H) as (c & s & Es & Hc). rewrite Es in E2. cbn in E2. injection E2 as E2 _. congruence.
  - apply (walks_decode rels Hps (e :: p) (e' :: p') a b b' H H'). unfold edges_name in E2. cbn [map] in E2. rewrite !concat_dots in E2. cbn [map dots]. unfold ename. rewrite E2. reflexivity.
Qed.

(** *** The entities of a path are those it goes through: the start, then where each relationship leads, the last being the end. *)
Theorem C65_path_entities : forall rels a p b, walk rels a p b -> p <> [] ->
  List.length (path_entities p) = S (List.length p) /\
  nth_error (path_entities p) 0 = Some a /\ nth_error (path_entities p) (List.length p) = Some b /\
  forall i e, nth_error p i = Some e -> nth_error (path_entities p) i = Some (from e) /\ nth_error (path_entities p) (S i) = Some (into e).
Proof.
  intros rels a p b H Hne.
  assert (forall e p, path_entities (e :: p) = from e :: map into (e :: p)) as HE by (intros [d r] q; destruct d; reflexivity).
  assert (forall p a b, walk rels a p b -> nth_error (a :: map into p) (List.length p) = Some b /\ forall i e, nth_error p i = Some e -> nth_error (a :: map into p) i = Some (from e)) as HW.
  { clear. intros p. induction p as [|e p IH]; intros a b H; [inversion H; subst; split; [reflexivity | intros [|i] e; discriminate]|].
    apply walk_cons in H as (_ & Hf & H). destruct (IH _ _ H) as [H1 H2]. split; [exact H1|]. intros [|i] e' Hi; [injection Hi as <-; cbn; congruence | exact (H2 i e' Hi)]. }
  destruct p as [|e p]; [contradiction|]. rewrite HE. pose proof (proj1 (proj2 (walk_cons _ _ _ _ _ H))) as Hf. rewrite Hf. destruct (HW _ _ _ H) as [H1 H2].
  split; [cbn [List.length]; rewrite map_length; reflexivity|]. split; [reflexivity|]. split; [exact H1|]. intros i e' Hi. split; [exact (H2 i e' Hi)|]. cbn [nth_error]. rewrite nth_error_map, Hi. reflexivity.
Qed.

(** Without plain words it fails: an entity called "b[x]" is confused with the link through column x to entity b. *)
Theorem C65_brackets_refuted : exists rels a p p' b b' n, NoDup rels /\ walk rels a p b /\ walk rels a p' b' /\
  path_name rels p = Ok n /\ path_name rels p' = Ok n /\ b <> b'.
Proof.
  exists [mkRel "b" "id" "a" "x"; mkRel "b" "id" "a" "y"; mkRel "b[x]" "id" "a" "z"], "a", [(true, mkRel "b" "id" "a" "x")], [(true, mkRel "b[x]" "id" "a" "z")], "b", "b[x]", "b[x]".
  split; [repeat (constructor; [cbn; intuition discriminate|]); constructor|].
  split; [apply (walk_up _ (mkRel "b" "id" "a" "x") [] "b"); [left; reflexivity | constructor]|].
  split; [apply (walk_up _ (mkRel "b[x]" "id" "a" "z") [] "b[x]"); [right; right; left; reflexivity | constructor]|].
  split; [vm_compute; reflexivity|]. split; [vm_compute; reflexivity | discriminate].
Qed.
(** Two entities that are each other's parent: the two directions have one name. *)
Theorem C65_mutual_refuted : exists rels a p p' b b' n, NoDup rels /\ walk rels a p b /\ walk rels a p' b' /\
  path_name rels p = Ok n /\ path_name rels p' = Ok n /\ p <> p'.
Proof.
  exists [mkRel "b" "id" "a" "x"; mkRel "a" "id" "b" "y"], "a", [(true, mkRel "b" "id" "a" "x")], [(false, mkRel "a" "id" "b" "y")], "b", "b", "b".
  split; [repeat (constructor; [cbn; intuition discriminate|]); constructor|].
  split; [apply (walk_up _ (mkRel "b" "id" "a" "x") [] "b"); [left; reflexivity | constructor]|].
  split; [apply (walk_down _ (mkRel "a" "id" "b" "y") [] "b"); [right; left; reflexivity | constructor]|].
  split; [vm_compute; reflexivity|]. split; [vm_compute; reflexivity | discriminate].
Qed.

(** Non-vacuity: flights with two airports, and a path down and up again. *)
Definition air_rels : list relationship := [mkRel "airport" "id" "flight" "origin"; mkRel "airport" "id" "flight" "dest"; mkRel "flight" "id" "seat" "fid"].
Definition air_path : list edge := [(false, mkRel "airport" "id" "flight" "origin"); (true, mkRel "airport" "id" "flight" "dest")].
Example C65_nonvacuous :
  NoDup air_rels /\ plain_schema air_rels /\ walk air_rels "airport" air_path "airport" /\ path_name air_rels air_path = Ok "flight[origin].airport[dest]" /\
  path_name air_rels [(true, mkRel "flight" "id" "seat" "fid"); (true, mkRel "airport" "id" "flight" "dest")] = Ok "flight.airport[dest]" /\
  path_entities air_path = ["airport"; "flight"; "airport"] /\ path_entities [] = [] /\
  only_link air_rels (mkRel "flight" "id" "seat" "fid") /\ ~ only_link air_rels (mkRel "airport" "id" "flight" "dest").
Proof.
  split; [repeat (constructor; [cbn; intuition discriminate|]); constructor|]. split.
  { split.
    - intros r [<-|[<-|[<-|[]]]]; unfold word; cbn; intuition discriminate.
    - intros r r' [<-|[<-|[<-|[]]]] [<-|[<-|[<-|[]]]]; cbn; congruence.
    - intros r r' [<-|[<-|[<-|[]]]] [<-|[<-|[<-|[]]]]; cbn; congruence. }
  split. { apply (walk_down _ (mkRel "airport" "id" "flight" "origin")); [left; reflexivity|]. apply (walk_up _ (mkRel "airport" "id" "flight" "dest")); [right; left; reflexivity | constructor]. }
  split; [vm_compute; reflexivity|]. split; [vm_compute; reflexivity|]. split; [reflexivity|]. split; [reflexivity|]. split.
  - intros r' [<-|[<-|[<-|[]]]]; cbn; congruence.
  - intros H. specialize (H (mkRel "airport" "id" "flight" "origin") (or_introl eq_refl) eq_refl eq_refl). discriminate.
Qed.

Print Assumptions C65_relationship_names.
Print Assumptions C65_path_names_partial.
Print Assumptions C65_path_entities.
