(** C43: EntitySet.metadata describes the current entity set *)
From Verif Require Import Base BaseFacts M_Schema M_Table M_LastTime M_Entities S_Entities P_Equality L_Entities S_Calls P_Relate.
Local Open Scope string_scope.
Local Open Scope list_scope.

(** the remembered description, if there is one, is the description of the present state *)
Definition fresh (s : eset) : Prop := forall d, s_meta s = Some d -> d = describe s.
(** the description was forgotten, or the described state is the same *)
Definition kept (s s' : eset) : Prop := s_meta s' = None \/ (s_meta s' = s_meta s /\ describe s' = describe s).
Lemma kept_fresh s s' : kept s s' -> fresh s -> fresh s'.
Proof. intros [H|[H1 H2]] Hf d Hd; [congruence|]. rewrite H2. apply Hf. congruence. Qed.
Lemma kept_refl s : kept s s.
Proof. right. auto. Qed.
Lemma kept_trans a b c : kept a b -> kept b c -> kept a c.
Proof. intros [H1|[H1 H2]] [H3|[H3 H4]]; [left; auto | left; congruence | left; auto | right; split; congruence]. Qed.

Section C43.
  Variables to_numeric to_datetime : list val -> res (dtype * list val).
  Variable obj_kind : val -> res (option tkind).
  Variable infer : table -> string -> vtype.
  Variable touched : list relationship -> list string -> list string.
  Variable last_times : eset -> string -> list (val * val).
  Notation relate := (relate to_numeric to_datetime).
  Notation entity_from_dataframe := (entity_from_dataframe to_numeric to_datetime obj_kind infer).
  Notation normalize_entity := (normalize_entity to_numeric to_datetime obj_kind infer).
  Notation update_data := (update_data to_numeric to_datetime obj_kind touched last_times).
  Notation add_last_time_indexes := (add_last_time_indexes touched last_times).
  Notation concat := (concat to_numeric to_datetime obj_kind touched last_times).
  Notation metadata := (metadata to_numeric to_datetime obj_kind infer touched last_times).
  Notation describes := (description_to_entityset to_numeric to_datetime obj_kind infer touched last_times).

  Notation exec := (exec to_numeric to_datetime obj_kind infer touched last_times).
  Notation history := (history to_numeric to_datetime obj_kind infer touched last_times).

  (** a rejected add_relationship, update_data or concat is the exception *)
  Definition fine (s : eset) (c : call) (r : res unit) : Prop :=
    match c with Relate _ | Update _ _ _ _ | Concat _ => r = Ok tt | _ => True end.
  Lemma create_kept id t index given mk time sec srt s s' r : entity_from_dataframe id t index given mk time sec srt s = (s', r) ->
    kept s s' /\ (r = Ok tt -> s_meta s' = None).
  Proof.
    unfold M_Entities.entity_from_dataframe. intros H.
    apply sbind_any in H as [(u & s1 & E & H)|(e & E & ->)]; [|apply sguard_state in E as ->; split; [apply kept_refl | discriminate]]. apply sguard_state in E as ->.
    apply sbind_any in H as [(u1 & s1 & E & H)|(e & E & ->)]; [|apply sguard_state in E as ->; split; [apply kept_refl | discriminate]]. apply sguard_state in E as ->.
    apply sbind_any in H as [(e & s1 & E & H)|(e & E & ->)].
    - unfold sbind, smod, reset_meta in H. injection H as <- <-. split; [left|]; reflexivity.
    - destruct (new_entity _ _ _ _ _ _ _ _ _ _ _ _ _) as [k x] in E. injection E as <- ->. split; [right; split; reflexivity | discriminate].
  Qed.

  Definition no_meta (s : eset) : Prop := s_meta s = None.
  Lemma on_entity_no_meta {A} eid (m : EST A) : keeps no_meta (on_entity eid m).
  Proof. intros s s' r H E. unfold on_entity in E. destruct (sent eid s); [|injection E as <- _; exact H]. destruct (m _) as [[k e'] x]. injection E as <- _. exact H. Qed.
  Lemma reset_no_meta : keeps no_meta reset_meta.
  Proof. intros s s' r H E. unfold reset_meta, smod in E. injection E as <- _. reflexivity. Qed.
  Lemma make_no_meta r : keeps no_meta (make_relationship r).
  Proof. intros s s' x H E. apply make_relationship_state in E as ->. exact H. Qed.
  Lemma ensure_no_meta a b c : keeps no_meta (ensure_type to_numeric to_datetime a b c).
  Proof. intros s s' x H E. apply ensure_type_vars in E as (_ & _ & _ & E & _). unfold no_meta. congruence. Qed.
  Lemma relate_no_meta r : keeps no_meta (relate r).
  Proof.
    unfold M_Entities.relate. apply keeps_bind; [apply make_no_meta|]. intros _. unfold add_relationship.
    apply keeps_bind; [apply keeps_get|]. intros s0. destruct (existsb _ _); [apply keeps_ret|].
    apply keeps_bind; [apply keeps_lift|]. intros ce. apply keeps_bind; [apply keeps_guard|]. intros _. apply keeps_bind; [apply keeps_lift|]. intros pe.
    apply keeps_bind; [apply ensure_no_meta|]. intros _. apply keeps_bind; [apply ensure_no_meta|]. intros _.
    apply keeps_bind; [apply keeps_get|]. intros s1. apply keeps_bind; [apply keeps_lift|]. intros ce'. apply keeps_bind; [apply keeps_lift|]. intros cd.
    apply keeps_bind; [apply keeps_lift|]. intros pe'. apply keeps_bind; [apply keeps_lift|]. intros pd. cbv zeta.
    apply keeps_bind; [destruct (match t_rows (n_tab ce') with [] => _ | _ => _ end); [apply on_entity_no_meta | apply keeps_ret]|]. intros _.
    apply keeps_bind; [apply keeps_guard|]. intros _. apply keeps_bind; [apply keeps_mod; intros s H; exact H|]. intros _. apply reset_no_meta.
  Qed.
  Lemma normalize_kept a copy s s' l r : normalize_entity a copy s = (s', l, r) -> kept s s'.
  Proof.
    intros H. unfold M_Entities.normalize_entity in H. destruct (sent (a_base a) s) as [base|x]; [|injection H as <- _ _; apply kept_refl].
    destruct (normalize_prepare a base copy) as [copy' [p|x]]; [|injection H as <- _ _; apply kept_refl].
    destruct (normalize_commit _ _ _ _ a p s) as [s1 r1] eqn:E. injection H as <- _ _. unfold normalize_commit in E.
    apply sbind_any in E as [(u & s2 & E & H)|(e & E & _)]; [|apply create_kept in E; apply E].
    apply create_kept in E as [_ E]. destruct u. specialize (E eq_refl). left. change (no_meta s1).
    refine ((_ : keeps no_meta _) s2 s1 r1 E H).
    apply keeps_bind; [apply on_entity_no_meta|]. intros _. apply keeps_bind; [destruct (String.eqb _ _); [apply keeps_ret | apply on_entity_no_meta]|]. intros _.
    apply keeps_bind; [apply relate_no_meta|]. intros _. apply reset_no_meta.
  Qed.

  Lemma update_none eid t a b s s' : update_data eid t a b s = (s', Ok tt) -> s_meta s' = None.
  Proof.
    unfold M_Entities.update_data. intros H. apply sbind_Ok in H as (u & s1 & _ & H). apply sbind_Ok in H as (s0 & s2 & _ & H). apply sbind_Ok in H as (e & s3 & _ & H).
    apply sbind_Ok in H as (u2 & s4 & _ & H). unfold reset_meta, smod in H. injection H as <-. reflexivity.
  Qed.
  Lemma last_times_none u s s' r : add_last_time_indexes u s = (s', r) -> s_meta s' = None.
  Proof. unfold M_Entities.add_last_time_indexes, sbind, sget, smod, reset_meta. intros H. injection H as <- _. reflexivity. Qed.

  Lemma exec_kept c s s' r : exec c s = (s', r) -> fine s c r -> fresh s -> fresh s'.
  Proof.
    destruct c; cbn [S_Calls.exec fine]; intros H Hf Hs.
    - apply create_kept in H as [H _]. exact (kept_fresh _ _ H Hs).
    - subst r. unfold M_Entities.relate in H. apply sbind_Ok in H as (u & s1 & E & H). apply make_relationship_state in E as ->.
      unfold add_relationship in H. unfold sbind at 1 in H. unfold sget at 1 in H. destruct (existsb _ _); [unfold sret in H; injection H as <-; exact Hs|].
      intros d Hd. exfalso. enough (s_meta s' = None) by congruence.
      do 11 apply sbind_Ok in H as (?a & ?q & _ & H). apply sbind_Ok in H as (?a & ?q & _ & H). unfold sguard in *.
      first [apply sbind_Ok in H as (?a & ?q & _ & H) | idtac]. unfold reset_meta, smod in H. injection H as <-. reflexivity.
    - destruct (normalize_entity a copy s) as [[s1 l] x] eqn:E. injection H as <- <-. apply normalize_kept in E. exact (kept_fresh _ _ E Hs).
    - subst r. apply update_none in H. intros d. congruence.
    - unfold add_interesting_values in H. apply sbind_any in H as [(u & s1 & E & H)|(e & E & ->)].
      + unfold reset_meta, smod in H. injection H as <- _. intros d. discriminate.
      + unfold on_entity in E. destruct (sent eid s); [discriminate | injection E as <- _; exact Hs].
    - apply last_times_none in H. intros d. congruence.
    - subst r. unfold M_Entities.concat in H. apply sbind_Ok in H as (u & s1 & _ & H). apply sbind_Ok in H as (u2 & s2 & _ & H). apply last_times_none in H. intros d. congruence.
    - unfold M_Entities.metadata in H. unfold sbind at 1 2 in H. unfold sget at 1 in H. destruct (s_meta s) as [d0|] eqn:Em.
      + unfold slift in H. destruct (describes d0); unfold sret in H; injection H as <- _; exact Hs.
      + unfold sbind, slift in H. destruct (describes (describe s)); unfold smod, sret in H; injection H as <- _; [|exact Hs]. intros d Hd. cbn in Hd. injection Hd as <-. reflexivity.
  Qed.

  (** *** After any such calls, [metadata] is what the description of the present entity set gives. *)
  Theorem C43_fresh_partial name cs s : history fine (empty_set name) cs s ->
    snd (metadata s) = describes (describe s) /\ describe (fst (metadata s)) = describe s.
  Proof.
    intros H. assert (fresh s) as Hs by (apply (history_keeps _ _ _ _ _ _ fresh fine) in H; [exact H | intros s0 c s1 r Hs E Hf; exact (exec_kept _ _ _ _ E Hf Hs) | intros d; discriminate]).
    unfold M_Entities.metadata, sbind, sget, slift, smod, sret. destruct (s_meta s) as [d|] eqn:Em.
    - rewrite (Hs d Em). split; reflexivity.
    - destruct (describes (describe s)); split; reflexivity.
  Qed.
End C43.

(** ** A concrete history *)
Definition ok_none (v : val) : res (option tkind) := Ok None.
Definition inf (t : table) (c : string) : vtype := TNumeric.
Definition tch (rs : list relationship) (u : list string) : list string := u.
Definition lts (s : eset) (id : string) : list (val * val) := [].
Definition base_t : table := mkTab [("id", DInt); ("cid", DInt); ("x", DFloat)] [[("id", VNum 1); ("cid", VNum 7); ("x", VNum 3)]; [("id", VNum 2); ("cid", VNum 7); ("x", VNum 4)]].
Definition a_norm : norm_args := mkNorm "sessions" "customers" "cid" [] MtiNone None None None.
Definition demo_calls : list call := [Create "sessions" base_t (Some "id") [] false None [] false; Metadata; Normalize a_norm []; Metadata; LastTimes []; Relate (mkRel "customers" "cid" "sessions" "cid")].

Notation run1 := (exec nr dt ok_none inf tch lts).
Example C43_nonvacuous : exists s, history nr dt ok_none inf tch lts fine (empty_set "es") demo_calls s /\
  map fst (s_ents s) = ["sessions"; "customers"] /\ s_rels s = [mkRel "customers" "cid" "sessions" "cid"] /\
  (exists m, snd (metadata nr dt ok_none inf tch lts s) = Ok m /\ map fst (s_ents m) = ["customers"; "sessions"]).
Proof.
  exists (fold_left (fun s c => fst (run1 c s)) demo_calls (empty_set "es")). split; [|split; [vm_compute; reflexivity | split; [vm_compute; reflexivity |]]].
  apply history_fold. vm_compute. auto 10.
  destruct (snd (metadata _ _ _ _ _ _ _)) as [m|] eqn:E; [|vm_compute in E; discriminate]. exists m. split; [reflexivity|]. vm_compute in E. injection E as <-. reflexivity.
Qed.

(** The methods of the entities do not forget the description: after metadata has been read once, convert_variable_type,
    delete_variables, set_index and set_time_index leave it stale. *)
Definition made : eset := fst (run1 Metadata (fst (run1 (Create "sessions" base_t (Some "id") [] false None [] false) (empty_set "es")))).
Definition stale (s : eset) : Prop := snd (metadata nr dt ok_none inf tch lts s) <> description_to_entityset nr dt ok_none inf tch lts (describe s).
Theorem C43_entity_methods_refuted :
  (exists s, history nr dt ok_none inf tch lts fine (empty_set "es") [Create "sessions" base_t (Some "id") [] false None [] false; Metadata] s /\ s = made) /\
  stale (fst (on_entity "sessions" (convert_variable_type nr dt "x" TCategorical false) made)) /\
  stale (fst (on_entity "sessions" (delete_variables ["x"]) made)) /\
  stale (fst (on_entity "sessions" (set_index nr dt "x" true) made)) /\
  stale (fst (on_entity "sessions" (set_time_index nr dt ok_none "x" false) made)).
Proof.
  split; [exists made; split; [|reflexivity]|].
  - apply (history_fold nr dt ok_none inf tch lts fine [_; _] (empty_set "es")). vm_compute. auto.
  - unfold stale. repeat split; vm_compute; discriminate.
Qed.

(** Nor does a rejected add_relationship, which changes the types of the variables. *)
Theorem C43_rejected_relationship_refuted :
  exists s r s', history nr dt ok_none inf tch lts fine (empty_set "es") (demo_calls ++ [Metadata]) s /\ relate nr dt r s = (s', Err ValueError) /\ stale s'.
Proof.
  set (s := fold_left (fun s c => fst (run1 c s)) (demo_calls ++ [Metadata]) (empty_set "es")). set (r := mkRel "customers" "cid" "sessions" "x").
  exists s, r, (fst (relate nr dt r s)). split; [|split; [vm_compute; reflexivity | unfold stale; vm_compute; discriminate]].
  apply history_fold. vm_compute. auto 10.
Qed.

Print Assumptions C43_fresh_partial.
Print Assumptions C43_entity_methods_refuted.
Print Assumptions C43_rejected_relationship_refuted.
