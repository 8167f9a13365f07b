(** Lemmas for C78. *)
From Coq Require Import Lia Permutation.
From Verif Require Import Base BaseFacts M_Table M_Schema M_Entities L_Entities M_Construct S_Construct.
Open Scope string_scope.
Import ListNotations.

(** ** time types *)
Definition join (k q : option tkind) : option (option tkind) :=
  match q with
  | None => Some k
  | Some q => match k with None => Some (Some q) | Some k => if tkind_eqb q k then Some (Some k) else None end
  end.
Lemma tkind_eqb_refl k : tkind_eqb k k = true.
Proof. destruct k; reflexivity. Qed.
Lemma join_comm k q1 q2 : match join k q1 with Some k1 => join k1 q2 | None => None end = match join k q2 with Some k2 => join k2 q1 | None => None end.
Proof. destruct k as [[]|], q1 as [[]|], q2 as [[]|]; reflexivity. Qed.

Section Ops.
  Variables to_numeric to_datetime : list val -> res (dtype * list val).
  Variable obj_kind : val -> res (option tkind).
  Variable infer : table -> string -> vtype.
  Notation new_entity := (new_entity to_numeric to_datetime obj_kind infer).
  Notation entity_from_dataframe := (entity_from_dataframe to_numeric to_datetime obj_kind infer).

  (** an entity is made independently of the time type of the set, except that its own must fit *)
  Definition makes (m : option tkind -> option tkind * res ent) (r : res (option tkind * ent)) : Prop :=
    forall k, match r with
              | Err _ => exists k' x, m k = (k', Err x)
              | Ok (q, e) => match join k q with Some k' => m k = (k', Ok e) | None => exists k' x, m k = (k', Err x) end
              end.

  Lemma set_index_pure i e : exists r, forall k, set_index to_numeric to_datetime i true (k, e) = ((k, fst r), snd r).
  Proof.
    unfold set_index, convert_variable_type, eget, emod, sguard, sbind, slift, sret. cbn [fst snd].
    destruct (t_dtype (n_tab e) i); [|exists (e, Err e0); intros; reflexivity].
    destruct (negb true || nodup_vals (t_column (n_tab e) i)); [|exists (e, Err AssertionError); intros; reflexivity].
    destruct (get_var i (n_vars e)) as [v|x]; [|exists (e, Err x); intros; reflexivity].
    exists (with_index i (with_vars (replace_first i (mkVar (v_id v) TIndex [] None) (n_vars e)) e), Ok tt). intros k. reflexivity.
  Qed.

  Lemma set_time_pure ti srt e : exists r : res (option tkind * ent), forall k,
    match r with
    | Err _ => exists s' x, set_time_index to_numeric to_datetime obj_kind ti srt (k, e) = (s', Err x)
    | Ok (q, e') => q <> None /\ match join k q with Some k' => set_time_index to_numeric to_datetime obj_kind ti srt (k, e) = ((k', e'), Ok tt) | None => exists s' x, set_time_index to_numeric to_datetime obj_kind ti srt (k, e) = (s', Err x) end
    end.
  Proof.
    unfold set_time_index, eget, sbind, slift, known_kind, claim_kind, sret, sfail. cbn [fst snd].
    destruct (column_kind obj_kind e ti) as [[q|]|x]; [|exists (Err TypeError); intros; eauto|exists (Err x); intros; eauto].
    destruct (t_dtype (n_tab e) ti) as [d|x] eqn:Ed.
    2:{ exists (Err x). intros [k|]; cbn [fst snd]; [destruct (tkind_eqb q k)|]; try rewrite Ed; eauto. }
    unfold convert_variable_type, eget, emod, sbind, slift, sret. cbn [fst snd].
    set (e1 := if srt then e else with_tab (mkTab (t_cols (n_tab e)) (isort (row_leb ti (n_index e)) (t_rows (n_tab e)))) e).
    assert (n_vars e1 = n_vars e) as En by (unfold e1; destruct srt; reflexivity).
    destruct (get_var ti (n_vars e)) as [v|x] eqn:Ev.
    - exists (Ok (Some q, with_time (Some ti) (with_vars (replace_first ti (mkVar (v_id v)
          (if dtype_eqb d DDate || (match t_rows (n_tab e) with [] => false | _ => tkind_eqb q KDate end) then TDatetimeTimeIndex else TNumericTimeIndex) [] None) (n_vars e1)) e1))).
      intros k. split; [discriminate|]. cbn [join].
      destruct k as [k|]; cbn [fst snd]; [destruct (tkind_eqb q k) eqn:Ek; [|eauto]|]; unfold e1; destruct srt; cbn [fst snd n_vars with_tab]; try rewrite Ev; reflexivity.
    - exists (Err x). intros k.
      destruct k as [k|]; cbn [fst snd]; [destruct (tkind_eqb q k) eqn:Ek; [|eauto]|]; unfold e1; destruct srt; cbn [fst snd n_vars with_tab]; try rewrite Ev; eauto.
  Qed.

  Definition pre (id : string) (t : table) (index : option string) (given : list (string * vtype)) (mk : bool) (time : option string) : res (string * ent) :=
    if nodup_str (t_names t) then
      if match time with Some ti => mem_str ti (t_names t) | None => true end then
        do cit <- create_index index mk t;
        let '(created, i, t1) := cit in
        do vt <- create_variables to_numeric to_datetime infer t1 given i;
        do t2 <- t_select (snd vt) (map v_id (fst vt));
        Ok (i, mkEnt id t2 (fst vt) i None [] None created)
      else Err KeyError
    else Err AssertionError.
  Definition fin (i : string) (time : option string) (srt : bool) : EST unit :=
    set_index to_numeric to_datetime i true ;;;
    (match time with Some ti => set_time_index to_numeric to_datetime obj_kind ti srt | None => sret tt end) ;;;
    set_secondary_time_index obj_kind [].
  Lemma new_entity_run id t index given mk time srt k : new_entity id t index given mk time [] srt k =
    match pre id t index given mk time with
    | Err x => (k, Err x)
    | Ok (i, e0) => match fin i time srt (k, e0) with ((k', e), Ok _) => (k', Ok e) | ((k', _), Err x) => (k', Err x) end
    end.
  Proof.
    unfold M_Entities.new_entity, pre. unfold sbind at 1, sguard at 1. destruct (nodup_str (t_names t)); [|reflexivity].
    unfold sbind at 1, sguard at 1. destruct (match time with Some ti => mem_str ti (t_names t) | None => true end); [|reflexivity].
    unfold sbind at 1, slift at 1. destruct (create_index index mk t) as [[[created i] t1]|x]; [|reflexivity]. cbn [bind].
    unfold sbind at 1, slift at 1. destruct (create_variables to_numeric to_datetime infer t1 given i) as [vt|x]; [|reflexivity]. cbn [bind].
    unfold sbind at 1, slift at 1. destruct (t_select (snd vt) (map v_id (fst vt))) as [t2|x]; [|reflexivity]. reflexivity.
  Qed.
  Lemma fin_run i time srt k e : fin i time srt (k, e) =
    match set_index to_numeric to_datetime i true (k, e) with
    | (s, Err x) => (s, Err x)
    | (s, Ok _) => match (match time with Some ti => set_time_index to_numeric to_datetime obj_kind ti srt | None => sret tt end) s with
                   | (s, Err x) => (s, Err x)
                   | (s, Ok _) => ((fst s, with_sec [] (snd s)), Ok tt)
                   end
    end.
  Proof.
    unfold fin, sbind. destruct (set_index to_numeric to_datetime i true (k, e)) as [s [u|x]]; [|reflexivity].
    destruct time as [ti|]; [|reflexivity]. destruct (set_time_index to_numeric to_datetime obj_kind ti srt s) as [s' [u'|x]]; reflexivity.
  Qed.

  Lemma new_entity_makes id t index given mk time srt : exists r, makes (new_entity id t index given mk time [] srt) r.
  Proof.
    unfold makes. destruct (pre id t index given mk time) as [[i e0]|x] eqn:Ep; [|exists (Err x); intros k; rewrite new_entity_run, Ep; eauto].
    destruct (set_index_pure i e0) as ([e1 r1] & H1). cbn [fst snd] in H1.
    destruct r1 as [[]|x]; [|exists (Err x); intros k; rewrite new_entity_run, Ep, fin_run, H1; eauto].
    destruct time as [ti|].
    - destruct (set_time_pure ti srt e1) as ([[q e2]|x] & H2).
      + exists (Ok (q, with_sec [] e2)). intros k. rewrite new_entity_run, Ep, fin_run, H1. destruct (H2 k) as [_ H2k]. destruct (join k q) as [k'|].
        * rewrite H2k. reflexivity.
        * destruct H2k as ([s1 s2] & x & ->). eauto.
      + exists (Err x). intros k. rewrite new_entity_run, Ep, fin_run, H1. destruct (H2 k) as ([s1 s2] & y & ->). eauto.
    - exists (Ok (None, with_sec [] e1)). intros k. rewrite new_entity_run, Ep, fin_run, H1. reflexivity.
  Qed.

  (** what an entry contributes *)
  Definition piece (h : frames) (i : entry) : res (option tkind * ent) :=
    match dget String.eqb (i_frame i) h with
    | None => Err KeyError
    | Some t =>
      match entity_from_dataframe (i_id i) t (i_index i) (i_types i) (i_make i) (i_time i) [] false (empty_set "") with
      | (s, Ok _) => match dget String.eqb (i_id i) (s_ents s) with Some e => Ok (s_kind s, e) | None => Err KeyError end
      | (_, Err x) => Err x
      end
    end.

  Lemma entity_makes id t index given mk time srt : exists r : res (option tkind * ent), forall s,
    match r with
    | Err _ => exists s' x, entity_from_dataframe id t index given mk time [] srt s = (s', Err x)
    | Ok (q, e) => match join (s_kind s) q with
                   | Some k' => entity_from_dataframe id t index given mk time [] srt s = (mkSet (s_id s) (dset String.eqb id e (s_ents s)) (s_rels s) k' None, Ok tt)
                   | None => exists s' x, entity_from_dataframe id t index given mk time [] srt s = (s', Err x)
                   end
    end.
  Proof.
    destruct (new_entity_makes id t index given mk time srt) as (r & Hr). unfold makes in Hr. unfold M_Entities.entity_from_dataframe.
    destruct (match time, index with Some a, Some b => negb (String.eqb a b) | _, _ => true end); [|exists (Err ValueError); intros; unfold sbind, sguard; eauto].
    destruct (match time with Some _ => true | None => forallb (fun ct : string * vtype => negb (vtype_eqb (snd ct) TDatetimeTimeIndex)) given end); [|exists (Err ValueError); intros; unfold sbind, sguard; eauto].
    exists r. intros s. specialize (Hr (s_kind s)). unfold sbind, sguard. destruct r as [[q e]|x].
    - destruct (join (s_kind s) q) as [k'|]; [rewrite Hr; reflexivity | destruct Hr as (k' & y & ->); eauto].
    - destruct Hr as (k' & y & ->). eauto.
  Qed.

  Lemma add_entry_piece h i s :
    match piece h i with
    | Err _ => exists s' x, add_entry to_numeric to_datetime obj_kind infer i (h, s) = (s', Err x)
    | Ok (q, e) => match join (s_kind s) q with
                   | Some k' => exists t, add_entry to_numeric to_datetime obj_kind infer i (h, s) =
                       ((dset String.eqb (i_frame i) t h, mkSet (s_id s) (dset String.eqb (i_id i) e (s_ents s)) (s_rels s) k' None), Ok tt)
                   | None => exists s' x, add_entry to_numeric to_datetime obj_kind infer i (h, s) = (s', Err x)
                   end
    end.
  Proof.
    unfold piece, add_entry. cbn [fst snd]. destruct (dget String.eqb (i_frame i) h) as [t|]; [|eauto].
    destruct (entity_makes (i_id i) t (i_index i) (i_types i) (i_make i) (i_time i) false) as (r & Hr). pose proof (Hr (empty_set "")) as H0. specialize (Hr s).
    cbn [s_kind empty_set s_ents s_id s_rels] in H0. destruct r as [[q e]|x].
    - assert (join None q = Some q) as Ej by (destruct q; reflexivity). rewrite Ej in H0. rewrite H0. cbn [s_ents s_kind dset dget]. rewrite String.eqb_refl.
      destruct (join (s_kind s) q) as [k'|]; [rewrite Hr; eauto | destruct Hr as (s' & y & ->); eauto].
    - destruct H0 as (s0 & y & ->). destruct Hr as (s' & z & ->). eauto.
  Qed.

  (** all entries *)
  Fixpoint gather (h : frames) (l : list entry) (k : option tkind) (ents : list (string * ent)) : option (option tkind * list (string * ent)) :=
    match l with
    | [] => Some (k, ents)
    | i :: l => match piece h i with
                | Ok (q, e) => match join k q with Some k' => gather h l k' (dset String.eqb (i_id i) e ents) | None => None end
                | Err _ => None
                end
    end.
  Lemma piece_frames h h' i : dget String.eqb (i_frame i) h = dget String.eqb (i_frame i) h' -> piece h i = piece h' i.
  Proof. unfold piece. intros ->. reflexivity. Qed.

  Lemma siter_gather h0 n rs l : forall (h : frames) k ents, own_frames l -> (forall i, In i l -> dget String.eqb (i_frame i) h = dget String.eqb (i_frame i) h0) ->
    match gather h0 l k ents with
    | Some (k', ents') => exists h', siter (add_entry to_numeric to_datetime obj_kind infer) l (h, mkSet n ents rs k None) = ((h', mkSet n ents' rs k' None), Ok tt)
    | None => exists s' x, siter (add_entry to_numeric to_datetime obj_kind infer) l (h, mkSet n ents rs k None) = (s', Err x)
    end.
  Proof.
    induction l as [|i l IH]; intros h k ents Hd Hh; cbn [gather siter]; [unfold sret; eauto|].
    inversion Hd as [|? ? Hni Hd']; subst. pose proof (add_entry_piece h i (mkSet n ents rs k None)) as Ha. rewrite (piece_frames h h0) in Ha by (apply Hh; left; reflexivity).
    cbn [s_kind s_id s_ents s_rels] in Ha. destruct (piece h0 i) as [[q e]|x]; [destruct (join k q) as [k'|]|].
    - destruct Ha as (t & Ha). assert (forall j, In j l -> dget String.eqb (i_frame j) (dset String.eqb (i_frame i) t h) = dget String.eqb (i_frame j) h0) as Hh'.
      { intros j Hj. rewrite (dget_dset_other _ String.eqb_spec); [apply Hh; right; exact Hj|]. intros E. apply Hni. rewrite <- E. apply in_map. exact Hj. }
      specialize (IH _ k' (dset String.eqb (i_id i) e ents) Hd' Hh').
      destruct (gather h0 l k' (dset String.eqb (i_id i) e ents)) as [[k1 en1]|].
      + destruct IH as (h' & IH). exists h'. unfold sbind. rewrite Ha. exact IH.
      + destruct IH as (s' & y & IH). exists s', y. unfold sbind. rewrite Ha. exact IH.
    - destruct Ha as (s' & y & Ha). unfold sbind. rewrite Ha. eauto.
    - destruct Ha as (s' & y & Ha). unfold sbind. rewrite Ha. eauto.
  Qed.

  (** ** the order of the entries *)
  Definition deq (a b : list (string * ent)) : Prop := forall id, dget String.eqb id a = dget String.eqb id b.
  Lemma deq_dset a b id e : deq a b -> deq (dset String.eqb id e a) (dset String.eqb id e b).
  Proof.
    intros H x. destruct (String.eqb_spec x id) as [->|Hn]; [rewrite !(dget_dset_same _ String.eqb_spec); reflexivity|].
    rewrite !(dget_dset_other _ String.eqb_spec) by congruence. apply H.
  Qed.
  Lemma deq_swap a b i j e f : i <> j -> deq a b -> deq (dset String.eqb i e (dset String.eqb j f a)) (dset String.eqb j f (dset String.eqb i e b)).
  Proof.
    intros Hn H x. destruct (String.eqb_spec x i) as [->|Hi].
    - rewrite (dget_dset_same _ String.eqb_spec). rewrite (dget_dset_other _ String.eqb_spec) by congruence. rewrite (dget_dset_same _ String.eqb_spec). reflexivity.
    - rewrite (dget_dset_other _ String.eqb_spec) by congruence. destruct (String.eqb_spec x j) as [->|Hj]; [rewrite !(dget_dset_same _ String.eqb_spec); reflexivity|].
      rewrite !(dget_dset_other _ String.eqb_spec) by congruence. apply H.
  Qed.
  Definition gathered (x y : option (option tkind * list (string * ent))) : Prop :=
    match x, y with Some (k, a), Some (k', b) => k = k' /\ deq a b | None, None => True | _, _ => False end.
  Lemma gather_deq h l : forall k a b, deq a b -> gathered (gather h l k a) (gather h l k b).
  Proof.
    induction l as [|i l IH]; intros k a b H; cbn [gather]; [split; [reflexivity | exact H]|].
    destruct (piece h i) as [[q e]|]; [|exact I]. destruct (join k q); [|exact I]. apply IH. apply deq_dset. exact H.
  Qed.
  Lemma gathered_trans x y z : gathered x y -> gathered y z -> gathered x z.
  Proof.
    destruct x as [[k a]|], y as [[k' b]|], z as [[k'' c]|]; cbn; try tauto. intros [-> H] [-> H']. split; [reflexivity|]. intros id. rewrite H. apply H'.
  Qed.
  Lemma gather_perm h l l' : Permutation l l' -> dictionary l -> forall k a, gathered (gather h l k a) (gather h l' k a).
  Proof.
    induction 1 as [|i l l' Hp IH|i j l|l l' l'' Hp IH Hp' IH']; intros Hd k a.
    - split; [reflexivity | intros ?; reflexivity].
    - cbn [gather]. inversion Hd; subst. destruct (piece h i) as [[q e]|]; [|exact I]. destruct (join k q); [|exact I]. apply IH. assumption.
    - cbn [gather]. inversion Hd as [|? ? Hni Hd']; subst. assert (i_id i <> i_id j) as Hn by (intros E; apply Hni; left; exact E).
      pose proof (fun q1 q2 => join_comm k q1 q2) as Hj.
      destruct (piece h i) as [[q e]|], (piece h j) as [[q' e']|].
      + specialize (Hj q q'). destruct (join k q) as [k1|], (join k q') as [k2|].
        * rewrite Hj. destruct (join k2 q); [|exact I]. apply gather_deq. apply deq_swap; [exact Hn | intros ?; reflexivity].
        * rewrite Hj. exact I.
        * rewrite <- Hj. exact I.
        * exact I.
      + destruct (join k q); exact I.
      + destruct (join k q'); exact I.
      + exact I.
    - eapply gathered_trans; [apply IH; exact Hd|]. apply IH'. unfold dictionary. eapply Permutation_NoDup; [apply Permutation_map; exact Hp | exact Hd].
  Qed.
End Ops.
