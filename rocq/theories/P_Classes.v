(** C23: class lookup does not depend on earlier lookups. *)
From Verif Require Import Base BaseFacts M_Schema M_Feature M_Types M_Serialize S_Serialize.
Local Open Scope string_scope.
Local Open Scope list_scope.

Lemma ckey_eqb_spec (a b : ckey) : reflect (a = b) (ckey_eqb a b).
Proof.
  destruct a as [a1 a2], b as [b1 b2]. unfold ckey_eqb. cbn. destruct (String.eqb_spec a1 b1) as [->|H1]; [|constructor; congruence].
  destruct (String.eqb_spec a2 b2) as [->|H2]; constructor; congruence.
Qed.

(** what has been visited is in the cache, under its own key *)
Definition cached (D : list cls) (s : pstate) : Prop :=
  exists seen, D = seen ++ ps_rest s /\
    (forall k c, dget ckey_eqb k (ps_cache s) = Some c -> In c seen /\ key_of c = k) /\
    (forall c, In c seen -> dget ckey_eqb (key_of c) (ps_cache s) <> None).

Lemma cached_step D seen c rest cache : D = seen ++ c :: rest ->
  (forall k c, dget ckey_eqb k cache = Some c -> In c seen /\ key_of c = k) -> (forall c, In c seen -> dget ckey_eqb (key_of c) cache <> None) ->
  D = (seen ++ [c]) ++ rest /\ (forall k x, dget ckey_eqb k (dset ckey_eqb (key_of c) c cache) = Some x -> In x (seen ++ [c]) /\ key_of x = k) /\
  (forall x, In x (seen ++ [c]) -> dget ckey_eqb (key_of x) (dset ckey_eqb (key_of c) c cache) <> None).
Proof.
  intros HD H1 H2. split; [rewrite <- app_assoc; exact HD|]. split.
  - intros k x E. destruct (ckey_eqb_spec k (key_of c)) as [->|Hne].
    + rewrite (dget_dset_same _ ckey_eqb_spec) in E. injection E as <-. split; [apply in_or_app; right; left; reflexivity | reflexivity].
    + rewrite (dget_dset_other _ ckey_eqb_spec) in E by congruence. apply H1 in E as [E1 E2]. split; [apply in_or_app; left; exact E1 | exact E2].
  - intros x Hx. destruct (ckey_eqb_spec (key_of x) (key_of c)) as [Heq|Hne].
    + rewrite Heq, (dget_dset_same _ ckey_eqb_spec). discriminate.
    + rewrite (dget_dset_other _ ckey_eqb_spec) by congruence. apply H2. apply in_app_or in Hx as [Hx|[->|[]]]; [exact Hx | contradiction].
Qed.

Lemma find_class_spec D k rest : forall seen cache s r, D = seen ++ rest ->
  (forall k c, dget ckey_eqb k cache = Some c -> In c seen /\ key_of c = k) -> (forall c, In c seen -> dget ckey_eqb (key_of c) cache <> None) ->
  find_class k cache rest = (s, r) -> cached D s /\
  match r with Some c => In c rest /\ key_of c = k | None => forall c, In c rest -> key_of c <> k end.
Proof.
  induction rest as [|c rest IH]; intros seen cache s r HD H1 H2 H; cbn [find_class] in H.
  - injection H as <- <-. split; [exists seen; auto | intros c []].
  - destruct (cached_step D seen c rest cache HD H1 H2) as (HD' & H1' & H2'). destruct (ckey_eqb_spec (key_of c) k) as [Heq|Hne].
    + injection H as <- <-. split; [exists (seen ++ [c]); auto | split; [left; reflexivity | exact Heq]].
    + destruct (IH (seen ++ [c]) _ s r HD' H1' H2' H) as [Hc Hr]. split; [exact Hc|]. destruct r as [x|]; [split; [right; apply Hr | apply Hr]|]. intros x [<-|Hx]; [exact Hne | apply Hr; exact Hx].
Qed.

Lemma get_class_spec D k s : cached D s ->
  cached D (fst (get_class k s)) /\ match snd (get_class k s) with Some c => In c D /\ key_of c = k | None => forall c, In c D -> key_of c <> k end.
Proof.
  intros (seen & HD & H1 & H2). unfold get_class. destruct (dget ckey_eqb k (ps_cache s)) as [c|] eqn:E; cbn [fst snd].
  - split; [exists seen; auto|]. apply H1 in E as [E1 E2]. split; [rewrite HD; apply in_or_app; left; exact E1 | exact E2].
  - destruct (find_class k (ps_cache s) (ps_rest s)) as [s' r] eqn:F. destruct (find_class_spec D k (ps_rest s) seen _ s' r HD H1 H2 F) as [Hc Hr]. cbn [fst snd]. split; [exact Hc|].
    destruct r as [c|]; [split; [rewrite HD; apply in_or_app; right; apply Hr | apply Hr]|]. intros c Hc' Hk. rewrite HD in Hc'. apply in_app_or in Hc' as [Hc'|Hc']; [|exact (Hr c Hc' Hk)].
    apply H2 in Hc'. rewrite Hk in Hc'. contradiction.
Qed.

Lemma looked_up_cached t s : looked_up t s -> cached (find_descendents t) s.
Proof.
  induction 1 as [|s k H IH]; [|apply get_class_spec; exact IH].
  exists []. split; [reflexivity|]. split; [intros k c E; discriminate | intros c []].
Qed.

(** *** After any lookups, a lookup returns a descendant with the requested name and module, and fails only if there is none *)
Theorem C23_lookup t s k : looked_up t s ->
  match snd (get_class k s) with Some c => In c (find_descendents t) /\ (c_name c, c_module c) = k
  | None => forall c, In c (find_descendents t) -> (c_name c, c_module c) <> k end.
Proof. intros H. apply looked_up_cached in H. exact (proj2 (get_class_spec _ k s H)). Qed.

(** *** When a name and a module determine the class, earlier lookups do not matter *)
Theorem C23_history_partial t s k : (forall a b, In a (find_descendents t) -> In b (find_descendents t) -> c_name a = c_name b -> c_module a = c_module b -> a = b) ->
  looked_up t s -> snd (get_class k s) = snd (get_class k (ps_new t)).
Proof.
  intros Hu H. pose proof (C23_lookup t s k H) as H1. pose proof (C23_lookup t (ps_new t) k (lu_new t)) as H2.
  destruct (snd (get_class k s)) as [a|], (snd (get_class k (ps_new t))) as [b|]; try reflexivity.
  - destruct H1 as [Ha Ka], H2 as [Hb Kb]. f_equal. apply Hu; [exact Ha | exact Hb | congruence | congruence].
  - destruct H1 as [Ha Ka]. exfalso. exact (H2 a Ha Ka).
  - destruct H2 as [Hb Kb]. exfalso. exact (H1 b Hb Kb).
Qed.

(** the primitives of a small library, Count and Sum defined side by side *)
Definition lib1 : ctree := CNode (mkCls "PrimitiveBase" "base" 0) [CNode (mkCls "AggregationPrimitive" "base" 1) [CNode (mkCls "Count" "std" 2) []; CNode (mkCls "Sum" "std" 3) []]; CNode (mkCls "TransformPrimitive" "base" 4) [CNode (mkCls "Count" "mine" 5) []]].
Example C23_nonvacuous : (forall a b, In a (find_descendents lib1) -> In b (find_descendents lib1) -> c_name a = c_name b -> c_module a = c_module b -> a = b) /\
  looked_up lib1 (fst (get_class ("Sum", "std") (ps_new lib1))) /\
  map (fun k => snd (get_class k (fst (get_class ("Sum", "std") (ps_new lib1))))) [("Count", "std"); ("Count", "mine"); ("Mean", "std")] = [Some (mkCls "Count" "std" 2); Some (mkCls "Count" "mine" 5); None].
Proof.
  split; [|split; [apply lu_next; apply lu_new | reflexivity]].
  intros a b Ha Hb. cbn in Ha, Hb. intuition (subst; cbn in *; try reflexivity; try discriminate).
Qed.

(** Two classes of the same name and module, as [make_agg_primitive] called twice produces: the class returned depends on
    what was looked up before. *)
Definition lib2 : ctree := CNode (mkCls "PrimitiveBase" "base" 0) [CNode (mkCls "Mine" "std" 1) []; CNode (mkCls "Mine" "std" 2) []; CNode (mkCls "Sum" "std" 3) []].
Theorem C23_duplicate_refuted : exists t s k, looked_up t s /\ snd (get_class k s) = Some (mkCls "Mine" "std" 2) /\ snd (get_class k (ps_new t)) = Some (mkCls "Mine" "std" 1).
Proof. exists lib2, (fst (get_class ("Sum", "std") (ps_new lib2))), ("Mine", "std"). split; [apply lu_next; apply lu_new | split; reflexivity]. Qed.

Print Assumptions C23_lookup.
Print Assumptions C23_history_partial.
