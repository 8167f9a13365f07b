(** C96: logging as set up on import. *)
From Coq Require Import String Ascii List Bool Lia Arith.
From Verif Require Import Base BaseFacts S_VTypes M_Logging S_Logging.
Import ListNotations.
Local Open Scope string_scope.

Lemma upper_small : forall a, to_upper (small a) = to_upper a.
Proof. intros a. destruct a as [[] [] [] [] [] [] [] []]; reflexivity. Qed.
Lemma small_upper : forall a, small (to_upper a) = small a.
Proof. intros a. destruct a as [[] [] [] [] [] [] [] []]; reflexivity. Qed.
Lemma supper_smalls : forall s, supper (smalls s) = supper s.
Proof. intros s. unfold supper, smalls. rewrite list_ascii_of_string_of_list_ascii, map_map. f_equal. apply map_ext. exact upper_small. Qed.
Lemma smalls_supper : forall s, smalls (supper s) = smalls s.
Proof. intros s. unfold supper, smalls. rewrite list_ascii_of_string_of_list_ascii, map_map. f_equal. apply map_ext. exact small_upper. Qed.

Lemma level_means : forall s v, level_of s = Ok v <-> means s v.
Proof.
  intros s v. unfold level_of, means. split.
  - destruct (dget String.eqb (supper s) level_names) as [v'|] eqn:E; [|discriminate]. intros [= <-].
    apply (dget_In String.eqb String.eqb_spec) in E. rewrite <- smalls_supper. cbn [In level_names] in E.
    repeat (destruct E as [E | E]; [injection E as <- <-; cbn; tauto|]). destruct E.
  - intros H. rewrite <- supper_smalls. cbn [In] in H.
    repeat (destruct H as [H | H]; [injection H as <- <-; reflexivity|]). destruct H.
Qed.

(** the levels asked for *)
Lemma asked_perm : forall env, NoDup (map fst (asked_levels env)) /\
  (forall n s, In (n, s) (asked_levels env) <-> exists var, In (var, n) documented /\ s = setting env var).
Proof.
  intros env. unfold asked_levels, env_vars, documented, setting. cbn [fold_left fst snd].
  destruct (dget String.eqb "FEATURETOOLS_LOG_LEVEL" env) as [a|] eqn:Ea; destruct (dget String.eqb "FEATURETOOLS_ES_LOG_LEVEL" env) as [b|] eqn:Eb;
  destruct (dget String.eqb "FEATURETOOLS_BACKEND_LOG_LEVEL" env) as [c|] eqn:Ec; cbn; (split;
    [repeat constructor; cbn; intros H; repeat destruct H as [H | H]; try discriminate H; exact H|]);
  intros n s; (split;
    [intros H; repeat (destruct H as [H | H]; [injection H as <- <-; eexists; split; [first [left; reflexivity | right; left; reflexivity | right; right; left; reflexivity]|];
       rewrite ?Ea, ?Eb, ?Ec; reflexivity|]); destruct H
    |intros (var & H & ->); repeat (destruct H as [H | H]; [injection H as <- <-; rewrite ?Ea, ?Eb, ?Ec; tauto|]); destruct H]).
Qed.

Definition after_walk (hs : list nat) : list nat := remove_walk (List.length hs) 0 hs.

Lemma set_up_all : forall out err l st st', NoDup (map fst l) -> foldM (set_up_one out err) l st = Ok st' ->
  (forall n s, In (n, s) l -> exists v h, level_of s = Ok v /\ In h [out; err] /\
     get_logger n st' = mkLogger v (add_handler h (after_walk (l_handlers (get_logger n st)))) false) /\
  (forall n, ~ In n (map fst l) -> get_logger n st' = get_logger n st).
Proof.
  intros out err l. induction l as [|[n s] l IH]; intros st st' Hnd H.
  - injection H as <-. split; [intros n s []|reflexivity].
  - cbn [foldM] in H. unfold set_up_one at 1 in H. cbn [fst snd] in H. destruct (level_of s) as [v|e] eqn:Ev; [|discriminate H]. cbn [bind] in H.
    cbn [map fst] in Hnd. inversion Hnd as [|? ? Hn Hnd']; subst. destruct (IH _ _ Hnd' H) as [H1 H2]. clear IH H.
    assert (Hother : forall m l0, m <> n -> get_logger m (dset String.eqb n l0 st) = get_logger m st).
    { intros m l0 Hm. unfold get_logger. rewrite (dget_dset_other String.eqb String.eqb_spec) by exact Hm. reflexivity. }
    split.
    + intros m s' [Hin | Hin].
      * injection Hin as <- <-. exists v. eexists. split; [exact Ev|]. split; [|rewrite (H2 n Hn); unfold get_logger at 1; rewrite (dget_dset_same String.eqb String.eqb_spec); reflexivity].
        destruct (mem_str s _); cbn; tauto.
      * destruct (H1 m s' Hin) as (v' & h & Hv & Hh & Hl). exists v', h. split; [exact Hv|]. split; [exact Hh|].
        rewrite Hother in Hl; [exact Hl|]. intros ->. apply Hn. apply (in_map fst) in Hin. exact Hin.
    + intros m Hm. cbn [map fst In] in Hm. rewrite H2 by tauto. apply Hother. intros ->. tauto.
Qed.

Lemma set_up_result : forall out err l st,
  match foldM (set_up_one out err) l st with
  | Ok _ => forall n s, In (n, s) l -> exists v, level_of s = Ok v
  | Err e => e = AttributeError /\ exists n s, In (n, s) l /\ level_of s = Err AttributeError
  end.
Proof.
  intros out err l. induction l as [|[n s] l IH]; intros st; cbn [foldM]; [intros n s []|].
  unfold set_up_one at 1. cbn [fst snd]. destruct (level_of s) as [v|e] eqn:Ev; cbn [bind].
  - match goal with |- context [foldM _ l ?s0] => specialize (IH s0); destruct (foldM (set_up_one out err) l s0) as [st'|e] end.
    + intros m s' [Hin | Hin]; [injection Hin as <- <-; exists v; exact Ev | exact (IH m s' Hin)].
    + destruct IH as (-> & m & s' & Hin & He). split; [reflexivity|]. exists m, s'. split; [right; exact Hin | exact He].
  - assert (e = AttributeError) as -> by (unfold level_of in Ev; destruct (dget _ _ _); congruence).
    split; [reflexivity|]. exists n, s. split; [left; reflexivity | exact Ev].
Qed.

(** C96: each logger has the level its variable names, or INFO, and passes nothing on to loggers outside *)
Theorem C96_levels : forall env out err st st', initialize_logging env out err st = Ok st' ->
  forall var n, In (var, n) documented -> means (setting env var) (l_level (get_logger n st')) /\ l_propagate (get_logger n st') = false.
Proof.
  intros env out err st st' H var n Hd. destruct (asked_perm env) as [Hnd Hin]. destruct (set_up_all _ _ _ _ _ Hnd H) as [H1 _].
  destruct (H1 n (setting env var)) as (v & h & Hv & _ & ->); [apply Hin; exists var; auto|]. split; [apply level_means; exact Hv | reflexivity].
Qed.

(** C96: the import succeeds exactly when every variable that is set names a level; otherwise it fails with AttributeError *)
Theorem C96_valid : forall env out err st,
  ((exists st', initialize_logging env out err st = Ok st') <-> (forall var n, In (var, n) documented -> exists v, means (setting env var) v)) /\
  (forall e, initialize_logging env out err st = Err e -> e = AttributeError).
Proof.
  intros env out err st. destruct (asked_perm env) as [_ Hin]. unfold initialize_logging.
  pose proof (set_up_result out err (asked_levels env) st) as H. destruct (foldM (set_up_one out err) (asked_levels env) st) as [st'|e].
  - split; [|discriminate]. split; [|eauto]. intros _ var n Hd. destruct (H n (setting env var)) as [v Hv]; [apply Hin; eauto|].
    exists v. apply level_means. exact Hv.
  - destruct H as (-> & n & s & Hs & He). split; [|intros e [= <-]; reflexivity]. split; [intros [st' Hst]; discriminate Hst|].
    intros Hall. apply Hin in Hs. destruct Hs as (var & Hd & ->). destruct (Hall var n Hd) as [v Hv]. apply level_means in Hv. rewrite He in Hv. discriminate Hv.
Qed.

(** C96: a message at or above the level is written exactly once, another not at all, when the loggers had at most one handler before *)
Theorem C96_messages_partial : forall env out err st st' root v vm ve, initialize_logging env out err st = Ok st' ->
  means (setting env "FEATURETOOLS_LOG_LEVEL") vm -> means (setting env "FEATURETOOLS_ES_LOG_LEVEL") ve -> vm <> 0 -> ve <> 0 ->
  List.length (l_handlers (get_logger "featuretools" st)) <= 1 -> List.length (l_handlers (get_logger "featuretools.entityset" st)) <= 1 ->
  (vm <= v -> exists h, In h [out; err] /\ emitted st' root main_chain v = [h]) /\ (v < vm -> emitted st' root main_chain v = []) /\
  (ve <= v -> exists h, In h [out; err] /\ emitted st' root es_chain v = [h]) /\ (v < ve -> emitted st' root es_chain v = []).
Proof.
  intros env out err st st' root v vm ve H Hm He Hm0 He0 Lm Le. destruct (asked_perm env) as [Hnd Hin]. destruct (set_up_all _ _ _ _ _ Hnd H) as [H1 _].
  assert (Hw : forall hs h, List.length hs <= 1 -> add_handler h (after_walk hs) = [h]).
  { intros hs h Hl. destruct hs as [|x [|y hs]]; [reflexivity | cbn; rewrite Nat.eqb_refl; reflexivity | cbn in Hl; lia]. }
  destruct (H1 "featuretools" (setting env "FEATURETOOLS_LOG_LEVEL")) as (v1 & h1 & Hv1 & Hh1 & Hl1); [apply Hin; eexists; split; [left; reflexivity | reflexivity]|].
  destruct (H1 "featuretools.entityset" (setting env "FEATURETOOLS_ES_LOG_LEVEL")) as (v2 & h2 & Hv2 & Hh2 & Hl2); [apply Hin; eexists; split; [right; left; reflexivity | reflexivity]|].
  apply level_means in Hm, He. rewrite Hm in Hv1. rewrite He in Hv2. injection Hv1 as <-. injection Hv2 as <-. rewrite Hw in Hl1, Hl2 by assumption.
  unfold emitted, main_chain, es_chain. cbn [effective_level reach]. rewrite Hl1, Hl2. cbn [l_level l_handlers l_propagate].
  apply Nat.eqb_neq in Hm0, He0. rewrite Hm0, He0. repeat split.
  - intros Hle. apply Nat.leb_le in Hle. rewrite Hle. exists h1. auto.
  - intros Hlt. apply Nat.leb_gt in Hlt. rewrite Hlt. reflexivity.
  - intros Hle. apply Nat.leb_le in Hle. rewrite Hle. exists h2. auto.
  - intros Hlt. apply Nat.leb_gt in Hlt. rewrite Hlt. reflexivity.
Qed.

(** C96: with two handlers before, one of them is left and the message is written twice *)
Theorem C96_handlers_refuted : exists env st st', initialize_logging env 1 2 st = Ok st' /\ emitted st' [] main_chain 20 = [8; 1].
Proof.
  exists [], [("featuretools", mkLogger 0 [7; 8] true)]. eexists. split; reflexivity.
Qed.

(** C96: messages of the computation are treated like those of featuretools; the variable for the backend has no influence on them *)
Theorem C96_backend : forall env out err st st' root v, initialize_logging env out err st = Ok st' ->
  get_logger "featuretools.computational_backend" st = new_logger ->
  emitted st' root backend_chain v = emitted st' root main_chain v.
Proof.
  intros env out err st st' root v H Hn. destruct (asked_perm env) as [Hnd Hin]. destruct (set_up_all _ _ _ _ _ Hnd H) as [_ H2].
  assert (Hb : get_logger "featuretools.computational_backend" st' = new_logger).
  { rewrite H2; [exact Hn|]. intros Hc. apply in_map_iff in Hc. destruct Hc as ([n s] & Hf & Hc). cbn [fst] in Hf. subst n.
    apply Hin in Hc. destruct Hc as (var & Hd & _). cbn in Hd. repeat (destruct Hd as [Hd | Hd]; [discriminate Hd|]). destruct Hd. }
  unfold emitted, backend_chain, main_chain. cbn [effective_level reach]. rewrite Hb. reflexivity.
Qed.

Theorem C96_backend_refuted : exists env st', dget String.eqb "FEATURETOOLS_BACKEND_LOG_LEVEL" env = Some "critical" /\
  initialize_logging env 1 2 [] = Ok st' /\ emitted st' [] backend_chain 20 = [1].
Proof. exists [("FEATURETOOLS_BACKEND_LOG_LEVEL", "critical")]. eexists. repeat split. Qed.

Example C96_nonvacuous : exists st', initialize_logging [("FEATURETOOLS_ES_LOG_LEVEL", "Error"); ("HOME", "/root")] 1 2 [("featuretools", mkLogger 10 [7] true)] = Ok st' /\
  emitted st' [5] main_chain 20 = [1] /\ emitted st' [5] es_chain 30 = [] /\ emitted st' [5] es_chain 40 = [1] /\ means "Error" 40 /\ means "info" 20 /\
  initialize_logging [("FEATURETOOLS_LOG_LEVEL", "loud")] 1 2 [] = Err AttributeError.
Proof. eexists. repeat split; cbn; tauto. Qed.

Print Assumptions C96_levels.
Print Assumptions C96_valid.
Print Assumptions C96_messages_partial.
Print Assumptions C96_handlers_refuted.
Print Assumptions C96_backend.
Print Assumptions C96_backend_refuted.
