(** C45: entities keep a unique index, one kind of time, and sorted rows *)
From Coq Require Import Sorting.Permutation Sorting.Sorted.
From Verif Require Import Base BaseFacts M_Schema M_Table M_LastTime L_LastTime M_Entities S_Entities S_Calls.
From Verif Require Import P_Equality L_Entities L_Tables P_Relate P_Meta.
Local Open Scope string_scope.
Local Open Scope list_scope.

(** what is claimed of an entity; [order] adds the order of the rows *)
Definition good_entity (order : bool) (k : option tkind) (e : ent) : Prop :=
  indexed e /\
  (forall ti, n_time e = Some ti -> exists kd, k = Some kd /\ column_of_kind e ti kd) /\
  (order = true -> forall ti, n_time e = Some ti -> in_order ti (n_index e) (t_rows (n_tab e))).
Definition good_set (order : bool) (s : eset) : Prop := forall id e, dget String.eqb id (s_ents s) = Some e -> good_entity order (s_kind s) e.

Lemma good_mono o k k' e : (forall k0, k = Some k0 -> k' = Some k0) -> good_entity o k e -> good_entity o k' e.
Proof. intros H (A & B & C). split; [exact A|]. split; [|exact C]. intros ti Ht. destruct (B ti Ht) as (kd & -> & Hk). eauto. Qed.

(** changes that do not touch index, time index and data, except that an empty entity may get other dtypes *)
Definition tame_ent (e e' : ent) : Prop :=
  n_index e' = n_index e /\ n_time e' = n_time e /\
  (n_tab e' = n_tab e \/ (t_rows (n_tab e') = [] /\ forall c, In c (t_names (n_tab e)) -> In c (t_names (n_tab e')))).
Lemma tame_ent_refl e : tame_ent e e.
Proof. repeat split; auto. Qed.
Lemma tame_good o k e e' : tame_ent e e' -> good_entity o k e -> good_entity o k e'.
Proof.
  intros (Hi & Ht & [Hd|(Hd & Hc)]) ((A1 & A2) & B & C); unfold good_entity, indexed, t_column, column_of_kind; rewrite Hi, Ht.
  - rewrite Hd. repeat split; auto.
  - rewrite Hd. split; [split; [auto | constructor]|]. split; [|intros; constructor]. intros ti Hti. destruct (B ti Hti) as (kd & Hk & _). exists kd. split; [exact Hk|]. intros d H. contradiction.
Qed.

Lemma good_set_step o (s s' : eset) : (forall k0, s_kind s = Some k0 -> s_kind s' = Some k0) ->
  (forall id e', dget String.eqb id (s_ents s') = Some e' -> (exists e, dget String.eqb id (s_ents s) = Some e /\ tame_ent e e') \/ good_entity o (s_kind s') e') ->
  good_set o s -> good_set o s'.
Proof.
  intros Hk He Hs id e' E. destruct (He id e' E) as [(e & Ee & Ht)|Hg]; [|exact Hg]. apply (tame_good _ _ _ _ Ht). apply (good_mono _ _ _ _ Hk). exact (Hs id e Ee).
Qed.

Section C45.
  Variables to_numeric to_datetime : list val -> res (dtype * list val).
  Variable obj_kind : val -> res (option tkind).
  Variable infer : table -> string -> vtype.
  Variable touched : list relationship -> list string -> list string.
  Variable last_times : eset -> string -> list (val * val).
  Notation exec := (exec to_numeric to_datetime obj_kind infer touched last_times).
  Notation history := (history to_numeric to_datetime obj_kind infer touched last_times).
  Notation init := (init to_numeric to_datetime obj_kind).
  Notation entity_from_dataframe := (entity_from_dataframe to_numeric to_datetime obj_kind infer).
  Notation update_data := (update_data to_numeric to_datetime obj_kind touched last_times).
  Notation add_last_time_indexes := (add_last_time_indexes touched last_times).

  Lemma init_good o i time sec srt k e k' e' : (o = true -> srt = false) -> (time = None -> n_time e = None) ->
    init i time sec srt (k, e) = ((k', e'), Ok tt) -> good_entity o k' e' /\ (forall k0, k = Some k0 -> k' = Some k0).
  Proof.
    intros Ho Hn H. apply init_Ok in H as (A & Bi & _ & _ & _ & Bt & Btab & Bk & _ & Bc). split; [|exact Bk]. split; [exact A|].
    assert (forall ti, n_time e' = Some ti -> time = Some ti) as Ht by (intros ti Hti; rewrite Bt in Hti; destruct time; [congruence|]; rewrite Hn in Hti by reflexivity; discriminate).
    split; [intros ti Hti; apply Bc, Ht, Hti|]. intros Ho' ti Hti. rewrite Btab, (Ht ti Hti), Bi. rewrite (Ho Ho'). cbn. apply isort_rows_sorted.
  Qed.

  Lemma create_good o id t index given mk time sec srt s s' r : (o = true -> srt = false) ->
    entity_from_dataframe id t index given mk time sec srt s = (s', r) -> good_set o s -> good_set o s'.
  Proof.
    intros Ho H Hs. unfold M_Entities.entity_from_dataframe in H.
    apply sbind_any in H as [(u & s1 & E & H)|(e & E & _)]; [|apply sguard_state in E as ->; exact Hs]. apply sguard_state in E as ->.
    apply sbind_any in H as [(u1 & s1 & E & H)|(e & E & _)]; [|apply sguard_state in E as ->; exact Hs]. apply sguard_state in E as ->.
    apply sbind_any in H as [(e & s1 & E & H)|(e & E & _)].
    - destruct (new_entity _ _ _ _ _ _ _ _ _ _ _ _ _) as [k x] eqn:En in E. injection E as <- ->. unfold sbind, smod, reset_meta in H. injection H as <- _.
      apply new_entity_Ok in En as (cr & i & t1 & vt & t2 & _ & _ & _ & _ & _ & Hin). apply (init_good o) in Hin as [Hg Hk]; [|exact Ho | reflexivity].
      intros id' e' E'. cbn in E'. cbn [s_kind with_meta with_ents with_kind]. destruct (String.eqb_spec id' id) as [->|Hd].
      + rewrite (dget_dset_same _ String.eqb_spec) in E'. injection E' as <-. exact Hg.
      + rewrite (dget_dset_other _ String.eqb_spec) in E' by congruence. apply (good_mono _ _ _ _ Hk). exact (Hs id' e' E').
    - destruct (new_entity _ _ _ _ _ _ _ _ _ _ _ _ _) as [k x] eqn:En in E. injection E as <- ->.
      intros id' e' E'. apply (good_mono _ _ _ _ (new_entity_any _ _ _ _ _ _ _ _ _ _ _ _ _ _ _ En)). exact (Hs id' e' E').
  Qed.

  (** a computation that only tames entities *)
  Definition tames {A} (m : ST eset A) : Prop := forall o, keeps (good_set o) m.
  Lemma on_entity_tames {A} eid (m : EST A) : (forall k e p r, m (k, e) = (p, r) -> exists e', p = (k, e') /\ tame_ent e e') -> tames (on_entity eid m).
  Proof.
    intros Hm o s s' r Hs H. unfold on_entity in H. destruct (sent eid s) as [e|x] eqn:E; [|injection H as <- _; exact Hs]. apply sent_In in E.
    destruct (m (s_kind s, e)) as [[k e1] r1] eqn:Em. injection H as <- _. destruct (Hm _ _ _ _ Em) as (e' & Heq & Ht). injection Heq as -> ->.
    eapply (good_set_step o s); [auto | | exact Hs]. intros id e2 E2. cbn in E2. left. destruct (String.eqb_spec id eid) as [Hd|Hd].
    - subst id. rewrite (dget_dset_same _ String.eqb_spec) in E2. injection E2 as <-. eauto.
    - rewrite (dget_dset_other _ String.eqb_spec) in E2 by congruence. exists e2. split; [exact E2 | apply tame_ent_refl].
  Qed.
  Lemma convert_tames eid id ty : tames (on_entity eid (convert_variable_type to_numeric to_datetime id ty false)).
  Proof. apply on_entity_tames. intros k e p r H. apply convert_type_only in H as (vs & ->). eexists. split; [reflexivity|]. repeat split; auto. Qed.
  Lemma reset_tames : tames reset_meta.
  Proof. intros o s s' r Hs H. unfold reset_meta, smod in H. injection H as <- _. exact Hs. Qed.
  Lemma ensure_tames a b c : tames (ensure_type to_numeric to_datetime a b c).
  Proof.
    intros o. unfold ensure_type. apply keeps_bind; [apply keeps_get|]. intros s. apply keeps_bind; [apply keeps_lift|]. intros e. apply keeps_bind; [apply keeps_lift|]. intros v.
    destruct (vtype_eqb _ _); [apply keeps_ret | apply convert_tames].
  Qed.
  Lemma relate_tames r : tames (relate to_numeric to_datetime r).
  Proof.
    intros o. unfold M_Entities.relate. apply keeps_bind; [intros s s' x H E; apply make_relationship_state in E as ->; exact H|]. intros _. unfold add_relationship.
    apply keeps_bind; [apply keeps_get|]. intros s0. destruct (existsb _ _); [apply keeps_ret|].
    apply keeps_bind; [apply keeps_lift|]. intros ce. apply keeps_bind; [apply keeps_guard|]. intros _. apply keeps_bind; [apply keeps_lift|]. intros pe.
    apply keeps_bind; [apply ensure_tames|]. intros _. apply keeps_bind; [apply ensure_tames|]. intros _.
    (* the columns of the empty child are taken from the state that is then changed *)
    intros s s' x Hs H. unfold sbind at 1 in H. unfold sget at 1 in H.
    apply sbind_any in H as [(ce' & s1 & E & H)|(e & E & _)]; [|apply slift_state in E as ->; exact Hs]. apply slift_Ok in E as [Ec ->].
    apply sbind_any in H as [(cd & s1 & E & H)|(e & E & _)]; [|apply slift_state in E as ->; exact Hs]. apply slift_Ok in E as [_ ->].
    apply sbind_any in H as [(pe' & s1 & E & H)|(e & E & _)]; [|apply slift_state in E as ->; exact Hs]. apply slift_Ok in E as [_ ->].
    apply sbind_any in H as [(pd & s1 & E & H)|(e & E & _)]; [|apply slift_state in E as ->; exact Hs]. apply slift_Ok in E as [_ ->]. cbv zeta in H.
    apply sbind_any in H as [(u & s1 & E & H)|(e & E & _)].
    - assert (good_set o s1) as Hs1.
      { destruct (t_rows (n_tab ce')) as [|r0 l0] eqn:Er; [|unfold sret in E; injection E as <- _; exact Hs].
        destruct (dtype_eqb cd DObj && numeric_dtype pd); [|unfold sret in E; injection E as <- _; exact Hs].
        unfold on_entity in E. rewrite Ec in E. unfold emod in E. cbn in E. injection E as <- _. apply sent_In in Ec.
        eapply (good_set_step o s); [auto | | exact Hs]. intros id e2 E2. cbn in E2. left. destruct (String.eqb_spec id (r_ce r)) as [Hd|Hd].
        - subst id. rewrite (dget_dset_same _ String.eqb_spec) in E2. injection E2 as <-. exists ce'. split; [exact Ec|]. split; [reflexivity|]. split; [reflexivity|]. right. cbn. split; [reflexivity|].
          intros c Hc. apply t_dtype_In in Hc. apply (t_dtype_In (mkTab (dset String.eqb (r_cv r) DInt (t_cols (n_tab ce'))) [])).
          destruct Hc as (d & Hc). unfold t_dtype in *. cbn [t_cols]. destruct (String.eqb_spec c (r_cv r)) as [->|Hn].
          + rewrite (dget_dset_same _ String.eqb_spec). eauto.
          + rewrite (dget_dset_other _ String.eqb_spec) by congruence. destruct (dget String.eqb c (t_cols (n_tab ce'))); [eauto | discriminate].
        - rewrite (dget_dset_other _ String.eqb_spec) in E2 by congruence. exists e2. split; [exact E2 | apply tame_ent_refl]. }
      clear E. apply sbind_any in H as [(u2 & s2 & E & H)|(e & E & _)]; apply sguard_state in E as ->; [|exact Hs1].
      unfold sbind, smod, reset_meta in H. injection H as <- _. exact Hs1.
    - destruct (match t_rows (n_tab ce') with [] => _ | _ => _ end); [|unfold sret in E; discriminate]. unfold on_entity in E. rewrite Ec in E. unfold emod in E. cbn in E. discriminate.
  Qed.
  Lemma dget_map_ents (f : string * ent -> ent) l id :
    dget String.eqb id (map (fun ie => (fst ie, f ie)) l) = match dget String.eqb id l with Some e => Some (f (id, e)) | None => None end.
  Proof.
    unfold dget. induction l as [|[i e] l IH]; [reflexivity|]. cbn. destruct (String.eqb_spec id i) as [->|]; [reflexivity | exact IH].
  Qed.
  Lemma last_tames u : tames (add_last_time_indexes u).
  Proof.
    intros o s s' r Hs H. unfold M_Entities.add_last_time_indexes, sbind, sget, smod, reset_meta in H. injection H as <- _.
    eapply (good_set_step o s); [auto | | exact Hs]. intros id e' E. cbn [s_ents with_meta with_ents] in E. left.
    set (ids := match u with [] => map fst (s_ents s) | _ => touched (s_rels s) u end) in E.
    rewrite (map_ext _ (fun ie => (fst ie, if mem_str (fst ie) ids then with_lti (Some (last_times s (fst ie))) (snd ie) else snd ie))) in E by (intros [i e]; cbn; destruct (mem_str i ids); reflexivity).
    rewrite dget_map_ents in E. destruct (dget String.eqb id (s_ents s)) as [e|] eqn:Ee; [|discriminate]. injection E as <-. exists e. split; [reflexivity|]. cbn. destruct (mem_str id ids); repeat split; auto.
  Qed.
  Lemma interesting_tames eid vals : tames (add_interesting_values eid vals).
  Proof.
    intros o. unfold add_interesting_values. apply keeps_bind; [|intros _; apply reset_tames]. apply on_entity_tames. intros k e p r H. unfold emod in H. cbn in H. injection H as <- _.
    eexists. split; [reflexivity|]. repeat split; auto.
  Qed.

  Lemma update_good o eid t srt rc s s' : (o = true -> srt = false) -> update_data eid t srt rc s = (s', Ok tt) -> good_set o s -> good_set o s'.
  Proof.
    intros Ho H Hs. unfold M_Entities.update_data in H. apply sbind_Ok in H as (u & s1 & E & H).
    assert (good_set o s1) as Hs1.
    { unfold on_entity in E. destruct (sent eid s) as [e|x] eqn:Ee; [|discriminate].
      match type of E with match ?m with _ => _ end = _ => destruct m as [[k e1] r1] eqn:Em end. injection E as <- ->.
      unfold sbind at 1 in Em. unfold eget at 1 in Em. cbn [fst snd] in Em.
      apply sbind_Ok in Em as (y1 & p & E1 & Em). apply sguard_Ok in E1 as [_ ->]. apply sbind_Ok in Em as (y2 & p & E1 & Em). apply sguard_Ok in E1 as [_ ->].
      apply sbind_Ok in Em as (t' & p & E1 & Em). apply slift_Ok in E1 as [_ ->]. apply sbind_Ok in Em as (y3 & p & E1 & Em). unfold emod in E1. cbn in E1. injection E1 as <- _.
      destruct u. change (init (n_index e) (n_time e) (n_sec e) srt (s_kind s, with_tab t' e) = (k, e1, Ok tt)) in Em.
      apply (init_good o) in Em as [Hg Hk]; [|exact Ho | auto].
      intros id e2 E2. cbn in E2. cbn [s_kind with_kind]. destruct (String.eqb_spec id eid) as [Hd|Hd].
      - subst id. rewrite (dget_dset_same _ String.eqb_spec) in E2. injection E2 as <-. exact Hg.
      - rewrite (dget_dset_other _ String.eqb_spec) in E2 by congruence. apply (good_mono _ _ _ _ Hk). exact (Hs id e2 E2). }
    clear E. unfold sbind at 1 in H. unfold sget at 1 in H. apply sbind_Ok in H as (e & s2 & E & H). apply slift_Ok in E as [_ ->].
    apply sbind_Ok in H as (u2 & s2 & E & H). assert (good_set o s2) as Hs2.
    { destruct rc; [|unfold sret in E; injection E as <- _; exact Hs1]. destruct (n_lti e); [eapply last_tames; eassumption | unfold sret in E; injection E as <- _; exact Hs1]. }
    eapply reset_tames; eassumption.
  Qed.
  Lemma siter_Ok_keeps {A} (P : eset -> Prop) (f : A -> ST eset unit) l s s' :
    (forall a s s', In a l -> f a s = (s', Ok tt) -> P s -> P s') -> siter f l s = (s', Ok tt) -> P s -> P s'.
  Proof.
    revert s. induction l as [|a l IH]; intros s Hf H Hs; cbn [siter] in H; [unfold sret in H; injection H as <-; exact Hs|].
    apply sbind_Ok in H as ([] & s1 & E & H). eapply (IH s1); [intros b x y Hb; apply Hf; right; exact Hb | exact H |]. eapply Hf; [left; reflexivity | exact E | exact Hs].
  Qed.

  Lemma delete_tab ids k e p r : delete_variables ids (k, e) = (p, r) ->
    exists vs, p = (k, e) \/ p = (k, with_vars vs (with_tab (t_drop ids (n_tab e)) e)).
  Proof.
    unfold delete_variables. destruct ids as [|i ids]; [unfold sret; intros H; injection H as <- _; exists []; auto|]. intros H. unfold sbind at 1 in H. unfold eget at 1 in H. cbn [fst snd] in H.
    apply sbind_any in H as [(u & q & E & H)|(x & E & _)]; apply sguard_state in E as ->; [|exists []; auto].
    apply sbind_any in H as [(u2 & q & E & H)|(x & E & _)]; [|unfold emod in E; discriminate]. unfold emod in E. cbn [fst snd] in E. injection E as <- _.
    set (e1 := with_tab (t_drop (i :: ids) (n_tab e)) e) in *.
    assert (keeps (fun q => exists vs, q = (k, with_vars vs e1)) (siter (fun id => e <~ eget ;; _ <~ slift (get_var id (n_vars e)) ;; emod (with_vars (remove_first id (n_vars e)))) (i :: ids))) as K.
    { apply keeps_iter. intros a _ q q' r0 (vs & ->) Hq. unfold sbind, eget, slift, emod in Hq. cbn in Hq. destruct (get_var a vs); injection Hq as <- _; eexists; reflexivity. }
    destruct (K (k, e1) p r) as (vs & ->); [exists (n_vars e1); rewrite with_vars_id; reflexivity | exact H|]. exists vs. right. reflexivity.
  Qed.

  Lemma cell_filter (f : string -> bool) c (r : row) : f c = true -> cell c (filter (fun cv => f (fst cv)) r) = cell c r.
  Proof.
    intros Hf. unfold cell, dget. induction r as [|[a v] r IH]; [reflexivity|]. cbn [filter fst find]. destruct (f a) eqn:Ea; cbn [find fst]; destruct (String.eqb_spec c a) as [->|]; try congruence; auto.
  Qed.

  Lemma dget_filter_key {A} (f : string -> bool) c (l : list (string * A)) : f c = true -> dget String.eqb c (filter (fun cd => f (fst cd)) l) = dget String.eqb c l.
  Proof.
    intros Hf. unfold dget. induction l as [|[a v] l IH]; [reflexivity|]. cbn [filter fst find]. destruct (f a) eqn:Ea; cbn [find fst]; destruct (String.eqb_spec c a) as [->|]; try congruence; auto.
  Qed.

  Lemma delete_good ids k e p r : (~ In (n_index e) ids) -> (forall ti, n_time e = Some ti -> ~ In ti ids) -> delete_variables ids (k, e) = (p, r) ->
    exists e', p = (k, e') /\ (good_entity false k e -> good_entity false k e').
  Proof.
    intros Hi Ht H. apply delete_tab in H as (vs & [-> | ->]); [eauto|]. eexists. split; [reflexivity|]. intros ((A1 & A2) & B & _).
    assert (forall c, ~ In c ids -> negb (mem_str c ids) = true) as Hm by (intros c Hc; apply negb_true_iff, mem_str_nIn; exact Hc).
    assert (forall c, ~ In c ids -> t_dtype (t_drop ids (n_tab e)) c = t_dtype (n_tab e) c) as Hd.
    { intros c Hc. unfold t_dtype, t_drop. cbn [t_cols]. rewrite (dget_filter_key (fun x => negb (mem_str x ids))) by (apply Hm; exact Hc). reflexivity. }
    split; [split; cbn [with_vars with_tab n_index n_tab]|split; [|discriminate]].
    - apply t_dtype_In. rewrite Hd by exact Hi. apply t_dtype_In. exact A1.
    - unfold t_column, t_drop. cbn [t_rows]. rewrite map_map. rewrite (map_ext _ (cell (n_index e))); [exact A2|]. intros r0. apply (cell_filter (fun c => negb (mem_str c ids))). apply Hm. exact Hi.
    - cbn [with_vars with_tab n_time]. intros ti Hti. destruct (B ti Hti) as (kd & Hk & Hc). exists kd. split; [exact Hk|]. intros d Hr Hdt. cbn [with_vars with_tab n_tab] in *. rewrite (Hd ti (Ht ti Hti)) in Hdt.
      apply Hc; [|exact Hdt]. intros E0. apply Hr. unfold t_drop. cbn. rewrite E0. reflexivity.
  Qed.

  Lemma create_other id t index given mk time sec srt s s' r id' : id' <> id -> entity_from_dataframe id t index given mk time sec srt s = (s', r) ->
    dget String.eqb id' (s_ents s') = dget String.eqb id' (s_ents s).
  Proof.
    intros Hne H. unfold M_Entities.entity_from_dataframe in H.
    apply sbind_any in H as [(u & s1 & E & H)|(e & E & _)]; apply sguard_state in E as ->; [|reflexivity].
    apply sbind_any in H as [(u1 & s1 & E & H)|(e & E & _)]; apply sguard_state in E as ->; [|reflexivity].
    apply sbind_any in H as [(e & s1 & E & H)|(e & E & _)]; destruct (new_entity _ _ _ _ _ _ _ _ _ _ _ _ _) as [k x] eqn:En in E; injection E as <- ->; [|reflexivity].
    unfold sbind, smod, reset_meta in H. injection H as <- _. cbn. rewrite (dget_dset_other _ String.eqb_spec) by congruence. reflexivity.
  Qed.

  Lemma check_time a base copy l types : normalize_check a base copy = (l, Ok types) -> forall ti, n_time base = Some ti -> ~ In ti (a_add a).
  Proof.
    intros H ti Ht. unfold normalize_check in H. unfold sbind at 1 in H. unfold get_copy at 1 in H. rewrite Ht in H.
    apply sbind_Ok in H as (u & q & _ & H). do 3 (apply sbind_Ok in H as (?u & ?q & _ & H)). apply sbind_Ok in H as (u4 & q4 & E & H). apply sguard_Ok in E as [E _].
    apply negb_true_iff in E. apply mem_str_nIn in E. exact E.
  Qed.

  (** *** The calls considered: updates and concatenation succeed; with [order], no caller declares rows sorted and nothing is
      normalised; normalize_entity makes a new entity and does not move the base entity's index. *)
  Definition allowed (order : bool) (s : eset) (c : call) (r : res unit) : Prop :=
    match c with
    | Create _ _ _ _ _ _ _ srt => order = true -> srt = false
    | Update _ _ srt _ => r = Ok tt /\ (order = true -> srt = false)
    | Concat _ => r = Ok tt
    | Normalize a _ => order = false /\ a_new a <> a_base a /\ forall e, dget String.eqb (a_base a) (s_ents s) = Some e -> ~ In (n_index e) (a_add a)
    | _ => True
    end.

  Lemma exec_good o s c s' r : good_set o s -> exec c s = (s', r) -> allowed o s c r -> good_set o s'.
  Proof.
    intros Hs H Ha. destruct c; cbn [S_Calls.exec allowed] in *.
    - eapply create_good; eassumption.
    - eapply relate_tames; eassumption.
    - destruct Ha as (-> & Hne & Hi). destruct (normalize_entity _ _ _ _ a copy s) as [[s1 l] x] eqn:E. injection H as <- <-.
      unfold M_Entities.normalize_entity in E. destruct (sent (a_base a) s) as [base|] eqn:Eb; [|injection E as <- _ _; exact Hs]. apply sent_In in Eb.
      destruct (normalize_prepare a base copy) as [copy' [p|]] eqn:Ep; [|injection E as <- _ _; exact Hs].
      destruct (normalize_commit _ _ _ _ a p s) as [s2 r2] eqn:Ec. injection E as <- _ _. unfold normalize_commit in Ec.
      apply sbind_any in Ec as [(u & s3 & E & H)|(e & E & _)]; pose proof (create_good false _ _ _ _ _ _ _ _ _ _ _ ltac:(discriminate) E Hs) as Hs3; [|exact Hs3].
      apply create_other with (id' := a_base a) in E; [|congruence]. rewrite Eb in E.
      apply sbind_Ok in Ep as (types & q & Et & _). pose proof (check_time _ _ _ _ _ Et) as Ht.
      apply sbind_any in H as [(u1 & s4 & E4 & H)|(e & E4 & _)].
      + assert (good_set false s4) as Hs4.
        { unfold on_entity in E4. unfold sent in E4. rewrite E in E4. destruct (delete_variables _ _) as [p1 r1] eqn:Ed in E4. apply delete_good in Ed as (e' & -> & Hg); [|exact (Hi base Eb) | exact Ht].
          injection E4 as <- ->. intros id e2 E2. cbn in E2. cbn [s_kind with_kind]. destruct (String.eqb_spec id (a_base a)) as [Hd|Hd].
          - subst id. rewrite (dget_dset_same _ String.eqb_spec) in E2. injection E2 as <-. apply Hg. exact (Hs3 _ _ E).
          - rewrite (dget_dset_other _ String.eqb_spec) in E2 by congruence. exact (Hs3 id e2 E2). }
        refine ((_ : keeps (good_set false) _) s4 s2 r2 Hs4 H). destruct (String.eqb _ _); [|apply keeps_bind; [apply convert_tames|]; intros _; apply keeps_bind; [apply relate_tames | intros _; apply reset_tames]].
        apply keeps_bind; [apply keeps_ret|]. intros _. apply keeps_bind; [apply relate_tames | intros _; apply reset_tames].
      + unfold on_entity in E4. unfold sent in E4. rewrite E in E4. destruct (delete_variables _ _) as [p1 r1] eqn:Ed in E4. apply delete_good in Ed as (e' & -> & Hg); [|exact (Hi base Eb) | exact Ht].
        injection E4 as <- ->. intros id e2 E2. cbn in E2. cbn [s_kind with_kind]. destruct (String.eqb_spec id (a_base a)) as [Hd|Hd].
        * subst id. rewrite (dget_dset_same _ String.eqb_spec) in E2. injection E2 as <-. apply Hg. exact (Hs3 _ _ E).
        * rewrite (dget_dset_other _ String.eqb_spec) in E2 by congruence. exact (Hs3 id e2 E2).
    - destruct Ha as [-> Ho]. eapply update_good; eassumption.
    - eapply interesting_tames; eassumption.
    - eapply last_tames; eassumption.
    - subst r. unfold M_Entities.concat in H. apply sbind_Ok in H as (u & s1 & E & H). apply sguard_Ok in E as [_ ->]. apply sbind_Ok in H as ([] & s1 & E & H).
      eapply last_tames; [|exact H]. eapply siter_Ok_keeps; [|exact E | exact Hs]. intros ie x y _ Hu Hx. apply sbind_Ok in Hu as (oo & z & Ez & Hu). apply slift_Ok in Ez as [_ ->]. eapply update_good; [|exact Hu | exact Hx]. auto.
    - apply sbind_any in H as [(m & s1 & E & H)|(e & E & _)].
      + unfold sret in H. injection H as <- _. unfold M_Entities.metadata in E. unfold sbind at 1 in E. unfold sget at 1 in E. destruct (s_meta s); [apply slift_state in E as ->; exact Hs|].
        apply sbind_Ok in E as (m' & s2 & E & H). apply slift_state in E as ->. unfold sbind, smod, sret in H. injection H as <- _. exact Hs.
      + unfold M_Entities.metadata in E. unfold sbind at 1 in E. unfold sget at 1 in E. destruct (s_meta s); [apply slift_state in E as ->; exact Hs|].
        apply sbind_any in E as [(m' & s2 & E & H)|(x & E & _)]; apply slift_state in E as ->; [|exact Hs]. unfold sbind, smod, sret in H. discriminate.
  Qed.

  (** Every entity of every reachable entity set has its index as a column of distinct values, and the columns of all time
      indexes are of the one kind of the entity set. *)
  Theorem C45_index_and_kind_partial name cs s : history (allowed false) (empty_set name) cs s ->
    forall id e, dget String.eqb id (s_ents s) = Some e ->
      In (n_index e) (t_names (n_tab e)) /\ NoDup (t_column (n_tab e) (n_index e)) /\
      (forall ti, n_time e = Some ti -> exists kd, s_kind s = Some kd /\ column_of_kind e ti kd).
  Proof.
    intros H id e E. apply (history_keeps _ _ _ _ _ _ (good_set false) (allowed false) (fun s c s' r Hs He Ha => exec_good false s c s' r Hs He Ha)) in H; [|intros i x Hx; discriminate].
    destruct (H id e E) as ((A1 & A2) & B & _). auto.
  Qed.

  (** Without normalize_entity, and when nobody declares rows sorted, rows are in the order of time and index. *)
  Theorem C45_order_partial name cs s : history (allowed true) (empty_set name) cs s ->
    forall id e ti, dget String.eqb id (s_ents s) = Some e -> n_time e = Some ti -> in_order ti (n_index e) (t_rows (n_tab e)).
  Proof.
    intros H id e ti E Ht. apply (history_keeps _ _ _ _ _ _ (good_set true) (allowed true) (fun s c s' r Hs He Ha => exec_good true s c s' r Hs He Ha)) in H; [|intros i x Hx; discriminate].
    destruct (H id e E) as (_ & _ & C). apply C; auto.
  Qed.
End C45.

(** ** Concrete histories *)
Definition okd (v : val) : res (option tkind) := Ok None.
Definition infd (t : table) (c : string) : vtype := match t_dtype t c with Ok DDate => TDatetime | Ok DObj => TCategorical | _ => TNumeric end.
Definition evs (rows : list (Z * Z * Z * Z)) : table :=
  mkTab [("id", DInt); ("cid", DInt); ("t", DDate); ("x", DInt)]
        (map (fun q => let '(i, c, t, x) := q in [("id", VNum i); ("cid", VNum c); ("t", VNum t); ("x", VNum x)]) rows).
Definition mk_events (rows : list (Z * Z * Z * Z)) : call := Create "events" (evs rows) (Some "id") [] false (Some "t") [] false.
Notation exec0 := (exec nr dt okd infd tch lts).
Notation history0 := (history nr dt okd infd tch lts).
Notation all_ok0 := (all_ok nr dt okd infd tch lts).
Definition after (cs : list call) : eset := fold_left (fun s c => fst (exec0 c s)) cs (empty_set "es").
Definition rows1 : list (Z * Z * Z * Z) := [(4, 20, 9, 1); (2, 10, 5, 2); (3, 20, 5, 3); (1, 20, 7, 4)]%Z.
Definition n_args (add : list string) : norm_args := mkNorm "events" "customers" "cid" add MtiNone None None None.
Definition calls_n : list call := [mk_events rows1; Metadata; Normalize (n_args ["x"]) []; LastTimes []; Update "events" (mkTab [("id", DInt); ("cid", DInt); ("t", DDate)] (map (fun q => [("id", VNum (fst q)); ("cid", VNum 20); ("t", VNum (snd q))]) [(8, 3); (7, 3)]%Z)) false true].

Example C45_nonvacuous :
  history0 (allowed false) (empty_set "es") calls_n (after calls_n) /\
  history0 (allowed true) (empty_set "es") [mk_events rows1] (after [mk_events rows1]) /\
  map fst (s_ents (after calls_n)) = ["events"; "customers"] /\
  option_map (fun e => t_column (n_tab e) "id") (dget String.eqb "events" (s_ents (after [mk_events rows1]))) = Some [VNum 2; VNum 3; VNum 1; VNum 4] /\
  option_map (fun e => t_column (n_tab e) "id") (dget String.eqb "events" (s_ents (after calls_n))) = Some [VNum 7; VNum 8] /\
  option_map (fun e => t_column (n_tab e) "cid") (dget String.eqb "customers" (s_ents (after calls_n))) = Some [VNum 10; VNum 20] /\
  s_kind (after calls_n) = Some KDate.
Proof.
  split; [|split; [|repeat split; vm_compute; reflexivity]].
  - apply history_fold. cbn [all_ok calls_n]. split; [discriminate|]. split; [exact I|]. split; [|split; [exact I|]; split; [|exact I]].
    + cbn [allowed]. split; [reflexivity|]. split; [discriminate|]. intros e H. vm_compute in H. injection H as <-. cbn. intros [H|[]]. discriminate.
    + split; [vm_compute; reflexivity | discriminate].
  - apply history_fold. split; [intros _; reflexivity | exact I].
Qed.

(** A failing update_data keeps the rejected data: the index then has repeated values. *)
Theorem C45_failed_update_refuted :
  exists s c s', history0 (allowed true) (empty_set "es") [mk_events rows1] s /\ exec0 c s = (s', Err AssertionError) /\
    exists e, dget String.eqb "events" (s_ents s') = Some e /\ ~ NoDup (t_column (n_tab e) (n_index e)).
Proof.
  exists (after [mk_events rows1]), (Update "events" (evs [(1, 1, 1, 1); (1, 2, 2, 2)]%Z) false false).
  exists (fst (exec0 (Update "events" (evs [(1, 1, 1, 1); (1, 2, 2, 2)]%Z) false false) (after [mk_events rows1]))).
  split; [apply C45_nonvacuous|]. split; [vm_compute; reflexivity|].
  destruct (dget _ _ _) as [e|] eqn:E; [|vm_compute in E; discriminate]. exists e. split; [reflexivity|]. vm_compute in E. injection E as <-. vm_compute.
  intros H. inversion H as [|? ? Hn _]. apply Hn. left. reflexivity.
Qed.

(** A rejected entity_from_dataframe can set the time type: afterwards entities of the other kind are refused although the
    entity set is empty. *)
Theorem C45_rejected_creation_refuted :
  exists c s', exec0 c (empty_set "es") = (s', Err KeyError) /\ s_ents s' = [] /\ s_kind s' = Some KNum /\
    snd (exec0 (mk_events rows1) (empty_set "es")) = Ok tt /\ snd (exec0 (mk_events rows1) s') = Err TypeError.
Proof.
  set (c := Create "bad" (evs rows1) (Some "id") [] false (Some "x") [("absent", [])] false). exists c, (fst (exec0 c (empty_set "es"))).
  repeat split; vm_compute; reflexivity.
Qed.

(** normalize_entity may move the index of the base entity into the new one: the base entity is left without its index. *)
Theorem C45_moved_index_refuted :
  exists s c s', history0 (allowed true) (empty_set "es") [mk_events rows1] s /\ exec0 c s = (s', Ok tt) /\
    exists e, dget String.eqb "events" (s_ents s') = Some e /\ n_index e = "id" /\ ~ In "id" (t_names (n_tab e)).
Proof.
  exists (after [mk_events rows1]), (Normalize (n_args ["id"]) []), (fst (exec0 (Normalize (n_args ["id"]) []) (after [mk_events rows1]))).
  split; [apply C45_nonvacuous|]. split; [vm_compute; reflexivity|].
  destruct (dget _ _ _) as [e|] eqn:E; [|vm_compute in E; discriminate]. exists e. split; [reflexivity|]. vm_compute in E. injection E as <-. split; [reflexivity|].
  cbn. intuition discriminate.
Qed.

(** The rows of an entity made by normalize_entity are not in the order of its own index at equal times. *)
Definition rows2 : list (Z * Z * Z * Z) := [(1, 20, 5, 1); (2, 10, 5, 2)]%Z.
Theorem C45_normalized_order_refuted :
  exists s, history0 (allowed false) (empty_set "es") [mk_events rows2; Normalize (n_args []) []] s /\
    exists e, dget String.eqb "customers" (s_ents s) = Some e /\ n_index e = "cid" /\ n_time e = Some "first_events_time" /\ ~ in_order "first_events_time" "cid" (t_rows (n_tab e)).
Proof.
  exists (after [mk_events rows2; Normalize (n_args []) []]). split.
  - apply history_fold. cbn [all_ok]. split; [discriminate|]. split; [|exact I]. cbn [allowed]. split; [reflexivity|]. split; [discriminate|]. intros e _ [].
  - destruct (dget _ _ _) as [e|] eqn:E; [|vm_compute in E; discriminate]. exists e. split; [reflexivity|]. vm_compute in E. injection E as <-. split; [reflexivity|]. split; [reflexivity|].
    intros H. inversion H as [|? ? _ Hf]. inversion Hf as [|? ? Hx _]. vm_compute in Hx. destruct Hx as [[Hx _]|[_ Hx]]; [apply Hx; reflexivity | discriminate].
Qed.

(** An empty frame with a declared datetime column gets a numeric time index in a datetime entity set. *)
Theorem C45_empty_frame_refuted :
  exists c s, exec0 c (empty_set "es") = (s, Ok tt) /\ s_kind s = Some KDate /\
    exists e v, dget String.eqb "e" (s_ents s) = Some e /\ n_time e = Some "t" /\ get_var "t" (n_vars e) = Ok v /\ v_type v = TNumericTimeIndex.
Proof.
  set (c := Create "e" (mkTab [("id", DInt); ("t", DObj)] []) (Some "id") [("t", TDatetime)] false (Some "t") [] false).
  exists c, (fst (exec0 c (empty_set "es"))). split; [vm_compute; reflexivity|]. split; [vm_compute; reflexivity|].
  destruct (dget _ _ _) as [e|] eqn:E; [|vm_compute in E; discriminate]. exists e, (mkVar "t" TNumericTimeIndex [] None). vm_compute in E. injection E as <-. repeat split; vm_compute; reflexivity.
Qed.

Print Assumptions C45_index_and_kind_partial.
Print Assumptions C45_order_partial.
Print Assumptions C45_failed_update_refuted.
Print Assumptions C45_rejected_creation_refuted.
Print Assumptions C45_moved_index_refuted.
Print Assumptions C45_normalized_order_refuted.
Print Assumptions C45_empty_frame_refuted.
