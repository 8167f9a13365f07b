(** C76: primitives made from functions. *)
From Verif Require Import Base BaseFacts M_Make S_Make.
Local Open Scope string_scope.
Local Open Scope list_scope.

Lemma dget_update {V} (kw : list (string * V)) : forall d n, NoDup (map fst kw) ->
  dget String.eqb n (dict_update V d kw) = match dget String.eqb n kw with Some v => Some v | None => dget String.eqb n d end.
Proof.
  unfold dict_update. induction kw as [|[k v] kw IH]; intros d n Hn; [reflexivity|]. cbn [fold_left map fst snd] in *. inversion Hn as [|a b H1 H2]; subst. rewrite (IH _ _ H2). cbn [dget].
  destruct (String.eqb_spec n k) as [->|Hk].
  - destruct (dget String.eqb k kw) as [x|] eqn:E; [exfalso; apply H1; apply (dget_In String.eqb String.eqb_spec) in E; exact (in_map fst _ _ E)|]. apply (dget_dset_same String.eqb String.eqb_spec).
  - destruct (dget String.eqb n kw); [reflexivity|]. apply (dget_dset_other String.eqb String.eqb_spec). exact Hk.
Qed.
Lemma update_keys {V} (kw : list (string * V)) : forall d n, In n (map fst (dict_update V d kw)) -> In n (map fst d) \/ In n (map fst kw).
Proof.
  unfold dict_update. induction kw as [|[k v] kw IH]; intros d n H; [left; exact H|]. cbn [fold_left map fst snd] in *. apply IH in H as [H|H]; [|right; right; exact H].
  destruct (dget String.eqb n d) as [x|] eqn:E; [left; apply (dget_In String.eqb String.eqb_spec) in E; exact (in_map fst _ _ E)|].
  destruct (String.eqb_spec n k) as [->|Hk]; [right; left; reflexivity|].
  exfalso. apply (dget_None String.eqb String.eqb_spec) in E. assert (dget String.eqb n (dset String.eqb k v d) = None) as E'; [|apply (dget_None String.eqb String.eqb_spec) in E'; contradiction].
  rewrite (dget_dset_other String.eqb String.eqb_spec) by exact Hk. apply (dget_None String.eqb String.eqb_spec). exact E.
Qed.

Section Made.
  Variable V : Type.
  Variable empty_column nan : V.
  Notation func := (func V).
  Notation made := (made V).
  Notation value_for := (value_for V).
  Definition default_of (n : string) (ps : list (string * option V)) : option V := match dget String.eqb n ps with Some d => d | None => None end.

  Lemma inspect_gen (uct : bool) (ps : list (string * option V)) : forall (acc tk : bool * list (string * V)), NoDup (map fst ps) -> (forall n, In n (map fst ps) -> ~ In n (map fst (snd acc))) ->
    foldM (fun (acc : bool * list (string * V)) (arg : string * option V) =>
      do time <- (if String.eqb (fst arg) "time" then if uct then Ok true else Err ValueError else Ok (fst acc));
      Ok (time, match snd arg with Some d => dset String.eqb (fst arg) d (snd acc) | None => snd acc end)) ps acc = Ok tk ->
    fst tk = (fst acc || mem_str "time" (map fst ps))%bool /\ (forall n, dget String.eqb n (snd tk) = match default_of n ps with Some v => Some v | None => dget String.eqb n (snd acc) end) /\
    (uct = false -> ~ In "time" (map fst ps)).
  Proof.
    induction ps as [|[n0 d0] ps IH]; intros acc tk Hn Hd E.
    - cbn in E. injection E as <-. cbn. rewrite orb_false_r. repeat split; auto.
    - cbn [foldM] in E. apply bind_Ok in E as (acc' & E1 & E). apply bind_Ok in E1 as (t & Et & E1). injection E1 as <-. inversion Hn as [|a b H1 H2]; subst.
      apply IH in E as (Ea & Eb & Ec); [|exact H2|].
      + cbn [fst snd] in *. split; [|split].
        * rewrite Ea. unfold mem_str. cbn [map existsb fst]. destruct (String.eqb_spec n0 "time") as [->|Ht].
          -- destruct uct; [injection Et as <-|discriminate Et]. rewrite String.eqb_refl. cbn [orb]. rewrite orb_true_r. reflexivity.
          -- injection Et as <-. destruct (String.eqb_spec "time" n0); [congruence | reflexivity].
        * intros n. rewrite Eb. unfold default_of. cbn [dget fst]. destruct (String.eqb_spec n n0) as [->|Hk].
          -- destruct (dget String.eqb n0 ps) as [x|] eqn:Ex; [exfalso; apply H1; apply (dget_In String.eqb String.eqb_spec) in Ex; exact (in_map fst _ _ Ex)|].
             destruct d0 as [v|]; [apply (dget_dset_same String.eqb String.eqb_spec) | reflexivity].
          -- destruct (match dget String.eqb n ps with Some d => d | None => None end); [reflexivity|]. destruct d0 as [v|]; [apply (dget_dset_other String.eqb String.eqb_spec); exact Hk | reflexivity].
        * intros Hu. subst uct. intros [Hx|Hx]; [cbn [fst] in Hx; subst n0; rewrite String.eqb_refl in Et; discriminate Et | exact (Ec eq_refl Hx)].
      + cbn [snd fst]. intros n Hi Hj. destruct d0 as [v|]; [|exact (Hd n (or_intror Hi) Hj)].
        destruct (dget String.eqb n (dset String.eqb n0 v (snd acc))) as [x|] eqn:Ex; [|apply (dget_None String.eqb String.eqb_spec) in Ex; contradiction].
        rewrite (dget_dset_other String.eqb String.eqb_spec) in Ex by (intros ->; exact (H1 Hi)). apply (dget_In String.eqb String.eqb_spec) in Ex. exact (Hd n (or_intror Hi) (in_map fst _ _ Ex)).
  Qed.
  Lemma inspect_ok f uct t ks : NoDup (map fst (u_params V f)) -> inspect_function_args V f uct = Ok (t, ks) ->
    t = mem_str "time" (map fst (u_params V f)) /\ (forall n, dget String.eqb n ks = default_of n (u_params V f)).
  Proof.
    intros Hn E. apply (inspect_gen uct) in E as (Ea & Eb & _); [|exact Hn|intros n _ []]. cbn [fst snd orb] in Ea, Eb. split; [exact Ea|]. intros n. rewrite Eb. destruct (default_of n (u_params V f)); reflexivity.
  Qed.

  Lemma bind_rest kw ps : (forall q, In q ps -> snd q <> None) -> exists vs, bind_args V ps [] kw = Ok vs /\
    Forall2 (fun q v => match dget String.eqb (fst q) kw with Some x => v = x | None => snd q = Some v end) ps vs.
  Proof.
    induction ps as [|[n d] ps IH]; intros Hd; [exists []; split; [reflexivity | constructor]|]. cbn [bind_args].
    destruct IH as (vs & -> & F); [intros q Hq; apply Hd; right; exact Hq|]. specialize (Hd (n, d) (or_introl eq_refl)). cbn [snd] in Hd. destruct d as [d|]; [|congruence].
    destruct (dget String.eqb n kw) as [x|] eqn:E; cbn [bind]; eexists; (split; [reflexivity|]); constructor; cbn [fst snd]; try rewrite E; try reflexivity; exact F.
  Qed.
  Lemma bind_data kw cols : forall ps rest, List.length ps = List.length cols -> (forall q, In q ps -> dget String.eqb (fst q) kw = None) ->
    bind_args V (ps ++ rest) cols kw = do vs <- bind_args V rest [] kw; Ok (cols ++ vs).
  Proof.
    induction cols as [|c cols IH]; intros [|[n d] ps] rest Hl Hn; try discriminate Hl.
    - cbn [app]. destruct (bind_args V rest [] kw); reflexivity.
    - cbn [app bind_args]. pose proof (Hn (n, d) (or_introl eq_refl)) as E. cbn [fst] in E. rewrite E. rewrite IH; [|injection Hl as Hl; exact Hl | intros q Hq; apply Hn; right; exact Hq].
      destruct (bind_args V rest [] kw); reflexivity.
  Qed.

  (** the columns go to the first parameters; each other parameter gets the time, what was set, or its default *)
  Theorem C76_computes f inputs name uct default settings columns time_last k :
    well_formed V f inputs -> (make_trans V nan f name uct = Ok k \/ make_agg V empty_column nan f inputs name uct default = Ok k) ->
    NoDup (map fst settings) -> (forall n, In n (map fst settings) -> In n (map fst (skipn inputs (u_params V f)))) -> List.length columns = inputs ->
    exists p vs, instantiate V k [] settings = Ok p /\ Forall2 (value_for settings time_last) (skipn inputs (u_params V f)) vs /\
      calculate V p columns time_last = u_run V f (columns ++ vs).
  Proof.
    intros (Hn & Hl & Hdata & Hrest) Hk Hs Hset Hc.
    assert (exists t ks, inspect_function_args V f uct = Ok (t, ks) /\ k_func V k = f /\ k_kwargs V k = ks /\ k_time V k = t) as (t & ks & E & Ef & Eks & Et).
    { unfold make_trans, make_agg in Hk. destruct Hk as [H|H]; apply bind_Ok in H as ([t ks] & E & H); exists t, ks; injection H as <-; auto. }
    apply inspect_ok in E as (E1 & E2); [|exact Hn].
    set (ps := u_params V f) in *. pose proof (firstn_skipn inputs ps) as Eps. set (data := firstn inputs ps) in *. set (rest := skipn inputs ps) in *.
    assert (forall q, In q ps -> dget String.eqb (fst q) ps = Some (snd q)) as Hget by (intros [n d] Hq; apply (dget_NoDup_In String.eqb String.eqb_spec); assumption).
    assert (forall q, In q data -> dget String.eqb (fst q) ks = None) as Hdk.
    { intros q Hq. rewrite E2. unfold default_of. rewrite Hget by (rewrite <- Eps; apply in_or_app; left; exact Hq). apply Hdata. exact Hq. }
    assert (forall q, In q data -> ~ In (fst q) (map fst rest)) as Hdisj.
    { intros q Hq Hi. rewrite <- Eps, map_app in Hn. apply in_map with (f := fst) in Hq. revert Hq Hi Hn. generalize (fst q). generalize (map fst data) (map fst rest). clear.
      intros a b x Ha Hb Hn. induction a as [|y a IH]; [destruct Ha|]. inversion Hn as [|u v H1 H2]; subst. destruct Ha as [-> | Ha]; [apply H1, in_or_app; right; exact Hb | exact (IH Ha H2)]. }
    assert (mem_str "time" (map fst ps) = mem_str "time" (map fst rest)) as Etime.
    { rewrite <- Eps, map_app. unfold mem_str. rewrite existsb_app. destruct (existsb (String.eqb "time") (map fst data)) eqn:Ex; [|reflexivity]. exfalso.
      apply existsb_exists in Ex as (x & Hx & Ex). apply String.eqb_eq in Ex. subst x. apply in_map_iff in Hx as (q & Eq & Hq). apply (proj2 (Hdata q Hq) Eq). }
    (* the keyword arguments of the call *)
    set (K0 := if t then [("time", time_last)] else []).
    assert (NoDup (map fst K0)) as HK0 by (unfold K0; destruct t; repeat constructor; intros []).
    assert (forall n, In n (map fst K0) -> In n (map fst rest)) as HK0r.
    { unfold K0. destruct t; cbn; [|intros n []]. intros n [<- | []]. symmetry in E1. rewrite Etime in E1. apply mem_str_In in E1. exact E1. }
    assert (exists p, instantiate V k [] settings = Ok p /\ calculate V p columns time_last = py_call V f columns (dict_update V (dict_update V ks settings) K0)) as (p & Ep & Ecalc).
    { unfold instantiate, calculate. rewrite Eks. destruct ks as [|ks0 ks'] eqn:Ek.
      - assert (rest = []) as Er.
        { destruct rest as [|q rest'] eqn:Er; [reflexivity|]. exfalso. specialize (E2 (fst q)). cbn [dget] in E2. unfold default_of in E2.
          rewrite Hget in E2 by (rewrite <- Eps; apply in_or_app; right; left; reflexivity). exact (Hrest q (or_introl eq_refl) (eq_sym E2)). }
        destruct settings as [|s0 settings']; [|exfalso; specialize (Hset (fst s0) (or_introl eq_refl)); rewrite Er in Hset; exact Hset].
        eexists. split; [reflexivity|]. cbn [i_class]. rewrite Eks, Et, Ef. change (dict_update V [] []) with (@nil (string * V)). unfold K0. destruct t; reflexivity.
      - exists (mkInst V k (dict_update V (ks0 :: ks') settings)). split; [reflexivity|]. cbn [i_class i_kwargs]. rewrite Eks, Et, Ef. reflexivity. }
    set (K := dict_update V (dict_update V ks settings) K0) in *.
    assert (forall n, dget String.eqb n K = match dget String.eqb n K0 with Some v => Some v | None => match dget String.eqb n settings with Some v => Some v | None => dget String.eqb n ks end end) as HK.
    { intros n. unfold K. rewrite (dget_update K0 _ n HK0), (dget_update settings _ n Hs). reflexivity. }
    assert (forall q, In q data -> dget String.eqb (fst q) K = None) as HKd.
    { intros q Hq. rewrite HK. assert (dget String.eqb (fst q) K0 = None) as ->; [apply (dget_None String.eqb String.eqb_spec); intros Hi; exact (Hdisj q Hq (HK0r _ Hi))|].
      assert (dget String.eqb (fst q) settings = None) as ->; [apply (dget_None String.eqb String.eqb_spec); intros Hi; exact (Hdisj q Hq (Hset _ Hi))|]. exact (Hdk q Hq). }
    destruct (bind_rest K rest Hrest) as (vs & Ev & F).
    exists p, vs. split; [exact Ep|]. split.
    - assert (forall q, In q rest -> In q ps) as Hin by (intros q Hq; rewrite <- Eps; apply in_or_app; right; exact Hq).
      assert (forall q, In q rest -> mem_str "time" (map fst rest) = true \/ fst q <> "time") as Htm.
      { intros q Hq. destruct (String.eqb_spec (fst q) "time") as [Eq|Hne]; [left; apply mem_str_In; rewrite <- Eq; apply in_map; exact Hq | right; exact Hne]. }
      clear Ev. revert Hin Htm. generalize (mem_str "time" (map fst rest)) at 1 as tt. intros tt0 Hin Htm.
      assert (forall q v, In q rest -> match dget String.eqb (fst q) K with Some x => v = x | None => snd q = Some v end -> value_for settings time_last q v) as Hone.
      { intros q v Hq H. rewrite HK in H. unfold S_Make.value_for. destruct (String.eqb_spec (fst q) "time") as [Eq|Hne].
        - assert (t = true) as Htt by (rewrite E1, Etime; apply mem_str_In; rewrite <- Eq; apply in_map; exact Hq). unfold K0 in H. rewrite Htt, Eq in H. cbn in H. exact H.
        - assert (dget String.eqb (fst q) K0 = None) as EK.
          { unfold K0. destruct t; [|reflexivity]. cbn [dget]. destruct (String.eqb_spec (fst q) "time"); [contradiction | reflexivity]. }
          rewrite EK in H. destruct (dget String.eqb (fst q) settings) as [x|] eqn:Es.
          + subst v. left. apply (dget_In String.eqb String.eqb_spec). exact Es.
          + right. split; [apply (dget_None String.eqb String.eqb_spec); exact Es|]. rewrite E2 in H. unfold default_of in H. rewrite (Hget q (Hin q Hq)) in H. destruct (snd q) as [d|]; [rewrite H; reflexivity | exact H]. }
      clear - F Hone. induction F as [|q v ps1 vs1 H _ IH]; constructor; [apply Hone; [left; reflexivity | exact H] | apply IH; intros q' v' Hq'; apply Hone; right; exact Hq'].
    - rewrite Ecalc. unfold py_call. fold ps.
      assert (forallb (fun a : string * V => mem_str (fst a) (map fst ps)) K = true) as ->.
      { apply forallb_forall. intros a Ha. apply mem_str_In. apply (in_map fst) in Ha. unfold K in Ha. apply update_keys in Ha as [Ha|Ha]; [apply update_keys in Ha as [Ha|Ha]|].
        - destruct (dget String.eqb (fst a) ks) as [x|] eqn:Ex; [|apply (dget_None String.eqb String.eqb_spec) in Ex; contradiction].
          rewrite E2 in Ex. unfold default_of in Ex. destruct (dget String.eqb (fst a) ps) as [y|] eqn:Ey; [|discriminate Ex]. apply (dget_In String.eqb String.eqb_spec) in Ey. exact (in_map fst _ _ Ey).
        - rewrite <- Eps, map_app. apply in_or_app. right. exact (Hset _ Ha).
        - rewrite <- Eps, map_app. apply in_or_app. right. exact (HK0r _ Ha). }
      rewrite <- Eps. rewrite (bind_data K columns data rest); [|rewrite Hl, Hc; reflexivity | exact HKd]. rewrite Ev. reflexivity.
  Qed.

  (** a parameter called time needs uses_calc_time, nothing else is refused *)
  Theorem C76_refused f name uct : NoDup (map fst (u_params V f)) ->
    (In "time" (map fst (u_params V f)) /\ uct = false <-> make_trans V nan f name uct = Err ValueError) /\ (~ (In "time" (map fst (u_params V f)) /\ uct = false) <-> exists k, make_trans V nan f name uct = Ok k) /\
    forall inputs default, make_agg V empty_column nan f inputs name uct default = Err ValueError <-> make_trans V nan f name uct = Err ValueError.
  Proof.
    intros Hn.
    assert (In "time" (map fst (u_params V f)) /\ uct = false /\ inspect_function_args V f uct = Err ValueError \/ ~ (In "time" (map fst (u_params V f)) /\ uct = false) /\ exists tk, inspect_function_args V f uct = Ok tk) as H.
    { unfold inspect_function_args. generalize (false, @nil (string * V)) as acc. induction (u_params V f) as [|[n d] ps IH]; intros acc; [right; split; [intros [[] _] | exists acc; reflexivity]|].
      inversion Hn as [|a b _ H2]; subst. cbn [foldM map fst]. destruct (String.eqb_spec n "time") as [->|Hne].
      - destruct uct; [|left; repeat split; left; reflexivity]. cbn [bind]. destruct (IH H2 (true, match d with Some d => dset String.eqb "time" d (snd acc) | None => snd acc end)) as [(_ & Hx & _)|(_ & Hx)]; [discriminate Hx|].
        right. split; [intros [_ Hy]; discriminate Hy | exact Hx].
      - cbn [bind]. destruct (IH H2 (fst acc, match d with Some d => dset String.eqb n d (snd acc) | None => snd acc end)) as [(Ha & Hb & Hx)|(Ha & Hx)].
        + left. repeat split; [right; exact Ha | exact Hb | exact Hx].
        + right. split; [|exact Hx]. intros [[Hy|Hy] Hz]; [congruence | exact (Ha (conj Hy Hz))]. }
    unfold make_trans, make_agg. destruct H as [(H1 & H2 & ->)|(H1 & tk & ->)]; cbn [bind].
    - repeat split; auto. + intros H. exfalso. apply H. split; assumption. + intros [k Hk]. discriminate Hk.
    - repeat split; try discriminate. + intros H. contradiction. + intros _. eexists. reflexivity. + intros _. exact H1.
  Qed.
  (** the default value of an aggregation: the one given, else what the function returns for empty columns and default settings, if it returns *)
  Theorem C76_default_value f inputs name uct default k : make_agg V empty_column nan f inputs name uct default = Ok k ->
    match default with
    | Some v => k_default V k = v
    | None => forall p t, well_formed V f inputs -> ~ In "time" (map fst (u_params V f)) -> instantiate V k [] [] = Ok p ->
                match calculate V p (repeat empty_column inputs) t with Ok v => k_default V k = v | Err _ => k_default V k = nan end
    end.
  Proof.
    intros E. pose proof E as Ek. unfold make_agg in E. apply bind_Ok in E as (tk & Ei & E). injection E as <-. cbn [k_default]. destruct default as [v|]; [reflexivity|].
    intros p t Hw Hnt Ep. destruct (C76_computes f inputs name uct None [] (repeat empty_column inputs) t _ Hw (or_intror Ek)) as (p' & vs & Ep' & F & Ec); [constructor | intros n [] | apply repeat_length|].
    rewrite Ep in Ep'. injection Ep' as <-. rewrite Ec. clear Ec Ep Ek Ei. destruct Hw as (Hn & Hl & Hdata & Hrest).
    unfold py_call. cbn [forallb].
    pose proof (bind_data [] (repeat empty_column inputs) (firstn inputs (u_params V f)) (skipn inputs (u_params V f))) as Hb. rewrite firstn_skipn in Hb.
    rewrite Hb; [|rewrite repeat_length; exact Hl | reflexivity]. clear Hb.
    destruct (bind_rest [] _ Hrest) as (vs' & -> & F'). cbn [bind].
    assert (vs = vs') as ->; [|destruct (u_run V f (repeat empty_column inputs ++ vs')); reflexivity].
    assert (forall q, In q (skipn inputs (u_params V f)) -> fst q <> "time") as Ht.
    { intros q Hq Eq. apply Hnt. rewrite <- Eq. apply in_map. rewrite <- (firstn_skipn inputs). apply in_or_app. right. exact Hq. }
    clear - F F' Ht. revert vs' F'. induction F as [|q v ps1 vs1 H _ IH]; intros vs' F'; inversion F' as [|q' v' ps2 vs2 H1 H2]; subst; [reflexivity|].
    f_equal; [|apply IH; [intros q' Hq'; apply Ht; right; exact Hq' | exact H2]]. unfold S_Make.value_for in H. destruct (String.eqb_spec (fst q) "time") as [Eq|_]; [exfalso; exact (Ht q (or_introl eq_refl) Eq)|].
    cbn [dget] in H1. destruct H as [[]|[_ H]]. congruence.
  Qed.
  (** saving and loading gives back the default settings: only a primitive without settings survives *)
  Theorem C76_saved_partial k p : instantiate V k [] [] = Ok p -> save_and_load V p = Ok p.
  Proof.
    unfold save_and_load, saved_arguments. intros E. assert (i_class V p = k) as ->; [|exact E]. unfold instantiate in E. destruct (k_kwargs V k); [injection E as <-; reflexivity|]. destruct (k_agg V k); injection E as <-; reflexivity.
  Qed.
  (** what was set is never what is loaded *)
  Theorem C76_settings_lost k settings p p' : instantiate V k [] settings = Ok p -> save_and_load V p = Ok p' -> instantiate V k [] [] = Ok p'.
  Proof.
    unfold save_and_load, saved_arguments. intros E E'. assert (i_class V p = k) as H; [|rewrite H in E'; exact E']. unfold instantiate in E. destruct (k_kwargs V k); [destruct settings; [injection E as <-; reflexivity | discriminate E]|].
    destruct (k_agg V k); injection E as <-; reflexivity.
  Qed.
  (** an input that has a default in the function: no calculation succeeds *)
  Theorem C76_input_default f name uct k p n d columns t : make_trans V nan f name uct = Ok k -> instantiate V k [] [] = Ok p -> NoDup (map fst (u_params V f)) ->
    In (n, Some d) (firstn (List.length columns) (u_params V f)) -> calculate V p columns t = Err TypeError.
  Proof.
    intros E Ep Hn Hi. unfold make_trans in E. apply bind_Ok in E as ([tm ks] & Ei & E). injection E as <-. apply inspect_ok in Ei as (E1 & E2); [|exact Hn].
    cbn [fst snd] in *. assert (In (n, Some d) (u_params V f)) as Hin by (rewrite <- (firstn_skipn (List.length columns)); apply in_or_app; left; exact Hi).
    assert (dget String.eqb n ks = Some d) as Hd by (rewrite E2; unfold default_of; rewrite (dget_NoDup_In String.eqb String.eqb_spec _ _ _ Hn Hin); reflexivity).
    unfold instantiate in Ep. cbn [k_kwargs k_agg] in Ep. unfold calculate. destruct ks as [|ks0 ks]; [discriminate Hd|]. injection Ep as <-. cbn [i_class i_kwargs k_kwargs k_func k_time].
    change (dict_update V (ks0 :: ks) []) with (ks0 :: ks). set (K := dict_update V (ks0 :: ks) (if tm then [("time", t)] else [])).
    assert (exists x, dget String.eqb n K = Some x) as (x & Ex).
    { unfold K. rewrite dget_update; [|destruct tm; repeat constructor; intros []]. destruct (dget String.eqb n (if tm then [("time", t)] else [])) as [y|]; [exists y; reflexivity | exists d; exact Hd]. }
    unfold py_call. destruct (forallb (fun a : string * V => mem_str (fst a) (map fst (u_params V f))) K); [|reflexivity].
    assert (bind_args V (u_params V f) columns K = Err TypeError) as ->; [|reflexivity]. clear - Hi Ex. revert Hi. generalize (u_params V f) as ps. induction columns as [|c columns IH]; intros ps Hi; [destruct Hi|].
    destruct ps as [|[m e] ps]; [destruct Hi|]. cbn [List.length firstn In] in Hi. cbn [bind_args]. destruct Hi as [Hi|Hi].
    - injection Hi as -> ->. rewrite Ex. reflexivity.
    - destruct (dget String.eqb m K); [reflexivity|]. rewrite (IH ps Hi). reflexivity.
  Qed.

  (** *** The primitive has the name that was given, or else the name of the function; a transform gives NaN where there is nothing. *)
  Theorem C76_named (f : func) inputs name uct default k :
    (make_trans V nan f name uct = Ok k -> k_default V k = nan) /\
    (make_trans V nan f name uct = Ok k \/ make_agg V empty_column nan f inputs name uct default = Ok k ->
     (name = None \/ name = Some "" -> k_name V k = u_name V f) /\ forall n, name = Some n -> n <> "" -> k_name V k = n).
  Proof.
    assert (make_trans V nan f name uct = Ok k \/ make_agg V empty_column nan f inputs name uct default = Ok k -> k_name V k = class_name V f name) as Hn.
    { unfold make_trans, make_agg. destruct (inspect_function_args V f uct) as [tk|x]; cbn [bind]; intros [H|H]; try discriminate; injection H as <-; reflexivity. }
    split.
    - unfold make_trans. destruct (inspect_function_args V f uct) as [tk|x]; cbn [bind]; [|discriminate]. intros H. injection H as <-. reflexivity.
    - intros H. rewrite (Hn H). unfold class_name. split; [intros [-> | ->]; reflexivity|]. intros n -> Hne. destruct (String.eqb_spec n ""); [contradiction | reflexivity].
  Qed.
End Made.

(** ** Scaling a column: def scale(x, by=1, time=None) *)
Definition zf : func Z := mkFunc Z "scale" [("x", None); ("by", Some 1%Z); ("time", Some 0%Z)] (fun vs => match vs with [x; b; t] => Ok (x * b + t)%Z | _ => Err TypeError end).
Definition zg : func Z := mkFunc Z "scale" [("x", None); ("by", Some 1%Z)] (fun vs => match vs with [x; b] => Ok (x + b)%Z | _ => Err TypeError end).
Definition zh : func Z := mkFunc Z "plus" [("x", None); ("y", Some 1%Z)] (fun vs => match vs with [x; b] => Ok (x + b)%Z | _ => Err TypeError end).
Example C76_nonvacuous : well_formed Z zf 1 /\ (exists k p, make_trans Z (-1)%Z zf None true = Ok k /\ instantiate Z k [] [("by", 3%Z)] = Ok p /\ calculate Z p [10%Z] 7%Z = Ok 37%Z) /\
  well_formed Z zg 1 /\ ~ In "time" (map fst (u_params Z zg)) /\ exists k p, make_agg Z 0%Z (-1)%Z zg 1 None false None = Ok k /\ instantiate Z k [] [] = Ok p /\ k_default Z k = 1%Z.
Proof.
  assert (forall l : list string, match l with [a; b; c] => a <> b /\ a <> c /\ b <> c | [a; b] => a <> b | _ => False end -> NoDup l) as Hnd.
  { intros [|a [|b [|c [|]]]] H; try contradiction; repeat constructor; cbn; intuition congruence. }
  repeat split.
  - apply Hnd. cbn. repeat split; discriminate.
  - destruct H as [<- | []]. reflexivity.
  - destruct H as [<- | []]. discriminate.
  - intros q [<- | [<- | []]]; discriminate.
  - eexists _, _. repeat split; reflexivity.
  - apply Hnd. cbn. discriminate.
  - destruct H as [<- | []]. reflexivity.
  - destruct H as [<- | []]. discriminate.
  - intros q [<- | []]; discriminate.
  - cbn. intuition discriminate.
  - eexists _, _. repeat split; reflexivity.
Qed.
(** what a primitive computes can change when it is saved and loaded *)
Theorem C76_saved_refuted : exists k p p', make_trans Z (-1)%Z zf None true = Ok k /\ instantiate Z k [] [("by", 3%Z)] = Ok p /\ save_and_load Z p = Ok p' /\
  calculate Z p [10%Z] 0%Z = Ok 30%Z /\ calculate Z p' [10%Z] 0%Z = Ok 10%Z.
Proof. eexists _, _, _. repeat split; reflexivity. Qed.
(** the inferred default value is that of the default settings, whatever was set *)
Theorem C76_default_value_refuted : exists k p, make_agg Z 0%Z (-1)%Z zg 1 None false None = Ok k /\ instantiate Z k [] [("by", 5%Z)] = Ok p /\ calculate Z p [0%Z] 0%Z = Ok 5%Z /\ k_default Z (i_class Z p) = 1%Z.
Proof. eexists _, _. repeat split; reflexivity. Qed.
(** a transform primitive takes positional arguments and does not look at them; unknown settings are found out only by the calculation *)
Theorem C76_arguments_refuted : exists k p q, make_trans Z (-1)%Z zg None false = Ok k /\ instantiate Z k [5%Z] [] = Ok p /\ instantiate Z k [] [] = Ok p /\
  instantiate Z k [] [("factor", 5%Z)] = Ok q /\ calculate Z q [10%Z] 0%Z = Err TypeError.
Proof. eexists _, _, _. repeat split; reflexivity. Qed.
(** uses_calc_time for a function without a parameter called time is dropped without a word *)
Theorem C76_time_refuted : exists k, make_trans Z (-1)%Z zg None true = Ok k /\ k_time Z k = false.
Proof. eexists. split; reflexivity. Qed.
Example C76_input_default_case : exists k p, make_trans Z (-1)%Z zh None false = Ok k /\ instantiate Z k [] [] = Ok p /\ In ("y", Some 1%Z) (firstn 2 (u_params Z zh)) /\ calculate Z p [1%Z; 2%Z] 0%Z = Err TypeError.
Proof. eexists _, _. split; [reflexivity|]. split; [reflexivity|]. split; [right; left; reflexivity | reflexivity]. Qed.

Print Assumptions C76_computes.
Print Assumptions C76_refused.
Print Assumptions C76_default_value.
Print Assumptions C76_saved_partial.
Print Assumptions C76_settings_lost.
Print Assumptions C76_input_default.
Print Assumptions C76_saved_refuted.
Print Assumptions C76_default_value_refuted.
Print Assumptions C76_arguments_refuted.
Print Assumptions C76_time_refuted.
Print Assumptions C76_named.
