(** C75: how the primitives are given to dfs. *)
From Coq Require Import Permutation Sorted.
From Verif Require Import Base BaseFacts M_Schema M_Feature M_Types M_Match M_DFS M_Names M_Setup S_Setup L_Names L_Repro P_Match P_Names P_DFSMatrix.
Local Open Scope string_scope.

Lemma isort_keyed {A} (key : A -> string) l :
  map snd (isort (fun a b : string * A => str_leb (fst a) (fst b)) (map (fun a => (key a, a)) l)) = isort (fun a b => str_leb (key a) (key b)) l.
Proof.
  rewrite <- (map_id (isort _ l)).
  assert (forall l2, isort (fun a b : string * A => str_leb (fst a) (fst b)) (map (fun a => (key a, a)) l2) = map (fun a => (key a, a)) (isort (fun a b => str_leb (key a) (key b)) l2)) as H.
  { induction l2 as [|a l2 IH]; [reflexivity|]. cbn [map isort]. rewrite IH. clear IH. generalize (isort (fun a b => str_leb (key a) (key b)) l2) as s.
    induction s as [|b s IHs]; [reflexivity|]. cbn [map insert fst]. destruct (str_leb (key a) (key b)); [reflexivity|]. cbn [map]. f_equal. exact IHs. }
  rewrite H, map_map. reflexivity.
Qed.

Section Setup.
  Variables (entities : list string) (rels : list relationship) (attr : prim -> pattr) (lower : string -> string) (new : nat -> res prim).
  Variables (known_aggs known_trans : list (string * nat)) (compatible : prim -> bool) (compatible_class : nat -> bool) (default_aggs default_trans : list nat) (count_class : nat).
  Variables (params : prim -> list param) (attribute : prim -> string -> option aval) (subtype : nat -> nat -> bool) (aeq : aval -> aval -> bool).
  Notation setup := (setup entities rels attr lower new known_aggs known_trans compatible compatible_class default_aggs default_trans count_class params attribute subtype aeq).
  Notation text := (text attr params attribute subtype aeq).
  Notation stands := (stands lower new).
  Notation complete := (complete params attribute).
  Hypothesis aggs_nodup : NoDup (map fst known_aggs).
  Hypothesis trans_nodup : NoDup (map fst known_trans).

  Lemma arguments_ok p : complete p -> exists args, get_arguments params attribute subtype aeq p = Ok args /\
    map (fun a : string * aval => fst a ++ "=" ++ v_text (snd a)) args =
    map (fun m => m_name m ++ "=" ++ match attribute p (m_name m) with Some v => v_text v | None => "" end) (filter (fun m => m_standard m && negb (untouched attribute subtype aeq p m)) (params p)).
  Proof.
    unfold complete, get_arguments. intros Hc.
    assert (forall ms acc, (forall m, In m ms -> m_standard m = true -> attribute p (m_name m) <> None) ->
      exists args, foldM (fun acc m =>
      if negb (m_standard m) then Ok acc else
      match attribute p (m_name m) with
      | None => Err AssertionError
      | Some v => Ok (match m_default m with
                      | Some d => if subtype (v_type v) (v_type d) && aeq d v then acc else (acc ++ [(m_name m, v)])%list
                      | None => (acc ++ [(m_name m, v)])%list
                      end)
      end) ms acc = Ok (acc ++ args)%list /\
      map (fun a : string * aval => fst a ++ "=" ++ v_text (snd a)) args =
      map (fun m => m_name m ++ "=" ++ match attribute p (m_name m) with Some v => v_text v | None => "" end) (filter (fun m => m_standard m && negb (untouched attribute subtype aeq p m)) ms)) as H.
    { induction ms as [|m ms IH]; intros acc Hm; [exists []; rewrite app_nil_r; split; reflexivity|].
      cbn [foldM filter]. destruct (m_standard m) eqn:Es; cbn [negb andb bind].
      - specialize (Hm m (or_introl eq_refl) Es) as Hv. unfold untouched at 1. destruct (attribute p (m_name m)) as [v|] eqn:Ev; [clear Hv | congruence]. cbn [bind].
        destruct (m_default m) as [d|]; [destruct (subtype (v_type v) (v_type d) && aeq d v) eqn:Eu|]; cbn [negb].
        + apply IH. intros m' H'. apply Hm. right. exact H'.
        + destruct (IH (acc ++ [(m_name m, v)])%list) as (args & -> & E); [intros m' H'; apply Hm; right; exact H'|].
          exists ((m_name m, v) :: args). rewrite <- app_assoc. cbn [app]. split; [reflexivity|]. cbn [map fst snd]. rewrite Ev, E. reflexivity.
        + destruct (IH (acc ++ [(m_name m, v)])%list) as (args & -> & E); [intros m' H'; apply Hm; right; exact H'|].
          exists ((m_name m, v) :: args). rewrite <- app_assoc. cbn [app]. split; [reflexivity|]. cbn [map fst snd]. rewrite Ev, E. reflexivity.
      - apply IH. intros m' H'. apply Hm. right. exact H'. }
    destruct (H (params p) [] Hc) as (args & -> & E). exists args. split; [reflexivity | exact E].
  Qed.
  Lemma arguments_complete p args : get_arguments params attribute subtype aeq p = Ok args -> complete p.
  Proof.
    unfold complete, get_arguments. match goal with |- foldM ?F _ _ = _ -> _ => set (G := F) end. intros H.
    assert (forall ms acc, foldM G ms acc = Ok args -> forall m, In m ms -> m_standard m = true -> attribute p (m_name m) <> None) as Hk; [|exact (Hk _ _ H)].
    induction ms as [|m ms IH]; cbn [foldM]; intros acc E m' Hm Es Ev; [destruct Hm|].
    apply bind_Ok in E as (acc' & E1 & E). destruct Hm as [-> | Hm].
    - unfold G in E1. rewrite Es, Ev in E1. discriminate E1.
    - exact (IH _ E m' Hm Es Ev).
  Qed.
  Lemma args_string_commas l : args_string l = String.concat "" (map (fun s => ", " ++ s) l).
  Proof.
    destruct l as [|a l]; [reflexivity|]. unfold args_string. revert a. induction l as [|b l IH]; intros a; [reflexivity|].
    change (String.concat ", " (a :: b :: l)) with (a ++ ", " ++ String.concat ", " (b :: l)). rewrite IH. cbn [map]. change (String.concat "" ((", " ++ a) :: (", " ++ b) :: map (fun s => ", " ++ s) l)) with
      ((", " ++ a) ++ "" ++ String.concat "" ((", " ++ b) :: map (fun s => ", " ++ s) l)). reflexivity.
  Qed.
  Lemma key_text p : complete p -> prim_key attr params attribute subtype aeq p = Ok (text p).
  Proof.
    intros Hc. destruct (arguments_ok p Hc) as (args & E & Em). unfold prim_key. rewrite E. cbn [bind]. rewrite Em, args_string_commas, map_map. reflexivity.
  Qed.
  Notation sorted l := (isort (fun a b => str_leb (text a) (text b)) l).
  Lemma sort_prims_Ok l l' : sort_prims attr params attribute subtype aeq l = Ok l' -> l' = sorted l.
  Proof.
    unfold sort_prims. destruct (Nat.leb_spec (List.length l) 1) as [Hl|Hl].
    - intros E. injection E as <-. destruct l as [|a [|b l]]; [reflexivity | reflexivity | cbn in Hl; lia].
    - intros E. apply bind_Ok in E as (ks & E & H). injection H as <-. rewrite <- (isort_keyed text l). assert (ks = map (fun a => (text a, a)) l) as ->; [|reflexivity].
      clear Hl. revert ks E. induction l as [|p l IH]; cbn [mapM map]; intros ks E; [injection E as <-; reflexivity|].
      apply bind_Ok in E as (b & E1 & E). apply bind_Ok in E as (bs & E2 & E). injection E as <-. apply bind_Ok in E1 as (k & E1 & E3). injection E3 as <-.
      pose proof E1 as Ek. unfold prim_key in E1. apply bind_Ok in E1 as (args & Ea & _). apply arguments_complete in Ea. rewrite (key_text p Ea) in Ek. injection Ek as <-. f_equal. exact (IH _ E2).
  Qed.
  Lemma sort_prims_total l : (forall p, In p l -> complete p) -> sort_prims attr params attribute subtype aeq l = Ok (sorted l).
  Proof.
    intros H. destruct (sort_prims attr params attribute subtype aeq l) as [l'|e] eqn:E; [f_equal; exact (sort_prims_Ok _ _ E)|]. exfalso.
    unfold sort_prims in E. destruct (Nat.leb (List.length l) 1); [discriminate E|].
    assert (exists ks, mapM (fun p => do k <- prim_key attr params attribute subtype aeq p; Ok (k, p)) l = Ok ks) as (ks & E'); [|rewrite E' in E; discriminate E].
    clear E. induction l as [|p l IH]; [exists []; reflexivity|]. cbn [mapM]. rewrite (key_text p (H p (or_introl eq_refl))). cbn [bind].
    destruct IH as (ks & ->); [intros q Hq; apply H; right; exact Hq|]. eexists. reflexivity.
  Qed.

  Lemma handle_stands known g p : NoDup (map fst known) -> handle lower new known g = Ok p <-> stands known g p.
  Proof.
    intros Hn. split.
    - destruct g as [s|k|q]; cbn [handle]; intros E; [|constructor; exact E|injection E as ->; constructor].
      destruct (dget String.eqb (lower s) known) as [k|] eqn:Ek; [|discriminate E]. econstructor; [|exact E]. exact (dget_In String.eqb String.eqb_spec _ _ _ Ek).
    - intros H. destruct H as [q|k q E|s k q Hi E]; cbn [handle]; [reflexivity | exact E|]. rewrite (dget_NoDup_In String.eqb String.eqb_spec _ _ _ Hn Hi). exact E.
  Qed.

  Lemma prims_of_Ok one known l l' : NoDup (map fst known) -> (forall g p, one g = Ok p -> handle lower new known g = Ok p) -> prims_of attr params attribute subtype aeq one l = Ok l' ->
    exists ps, mapM one l = Ok ps /\ Forall2 (stands known) l ps /\ l' = sorted ps.
  Proof.
    unfold prims_of. intros Hn Ho E. apply bind_Ok in E as (ps & E1 & E). exists ps. split; [exact E1|]. split; [|exact (sort_prims_Ok _ _ E)].
    apply mapM_Ok_Forall2 in E1. clear E. induction E1 as [|g p l0 ps0 H1 _ IH]; constructor; [|exact IH]. apply (handle_stands known g p Hn). exact (Ho _ _ H1).
  Qed.
  Lemma agg_handle g p : agg_primitive attr lower new known_aggs g = Ok p <-> handle lower new known_aggs g = Ok p /\ a_isagg (attr p) = true.
  Proof.
    unfold agg_primitive. destruct (handle lower new known_aggs g) as [q|e]; cbn [bind]; [|split; [discriminate | intros [H _]; discriminate H]].
    destruct (a_isagg (attr q)) eqn:E; split; try discriminate; [intros H; injection H as <-; split; [reflexivity | exact E] | intros [H _]; exact H | intros [H H']; injection H as <-; congruence].
  Qed.
  Lemma trans_handle g p : trans_primitive attr lower new known_trans g = Ok p <-> handle lower new known_trans g = Ok p /\ a_isagg (attr p) = false.
  Proof.
    unfold trans_primitive. destruct (handle lower new known_trans g) as [q|e]; cbn [bind]; [|split; [discriminate | intros [H _]; discriminate H]].
    destruct (a_isagg (attr q)) eqn:E; split; try discriminate; [intros [H H']; injection H as <-; congruence | intros H; injection H as <-; split; [reflexivity | exact E] | intros [H _]; exact H].
  Qed.
  Lemma stands_fun known g p q : NoDup (map fst known) -> stands known g p -> stands known g q -> p = q.
  Proof. intros Hn H1 H2. apply (handle_stands known _ _ Hn) in H1, H2. congruence. Qed.

  (** the elements listed, [None] being the defaults *)
  Definition listed_aggs (L : call) : list given := match l_aggs L with Some l => l | None => map GClass (filter compatible_class default_aggs) end.
  Definition listed_trans (L : call) : list given := match l_trans L with Some l => l | None => map GClass (filter compatible_class default_trans) end.
  Definition listed_wheres (L : call) : list given := match l_wheres L with Some l => l | None => [GClass count_class] end.
  Definition listed_groups (L : call) : list given := match l_groups L with Some l => l | None => [] end.

  (** what is accepted: the target exists and is not ignored, every element stands for a primitive of the right kind (not checked for where primitives)
      that runs on this kind of entity set; the search gets exactly these primitives, in the order of their texts *)
  Theorem C75_accepted L A : setup L = Ok A ->
    In (l_target L) entities /\ ~ In (l_target L) (l_ignore_e L) /\ g_target A = l_target L /\
    (exists ps, Forall2 (stands known_aggs) (listed_aggs L) ps /\ Permutation ps (g_aggs A)) /\
    (exists ps, Forall2 (stands known_trans) (listed_trans L) ps /\ Permutation ps (g_trans A)) /\
    (exists ps, Forall2 (stands known_aggs) (listed_wheres L) ps /\ Permutation ps (g_wheres A)) /\
    (exists ps, Forall2 (stands known_trans) (listed_groups L) ps /\ Permutation ps (g_groups A)) /\
    Permutation (l_seeds L) (g_seeds A) /\
    (forall l, In l [g_aggs A; g_trans A; g_wheres A; g_groups A] -> StronglySorted (fun p q => str_leb (text p) (text q) = true) l /\ forall p, In p l -> compatible p = true) /\
    (forall p, In p (g_aggs A) -> a_isagg (attr p) = true) /\ (forall p, In p (g_trans A) \/ In p (g_groups A) -> a_isagg (attr p) = false).
  Proof.
    unfold M_Setup.setup. destruct (mem_str (l_target L) entities) eqn:Et; cbn [negb]; [|discriminate]. destruct (mem_str (l_target L) (l_ignore_e L)) eqn:Ei; [discriminate|].
    intros E. apply bind_Ok in E as (aggs & E1 & E). apply bind_Ok in E as (trans & E2 & E). apply bind_Ok in E as (wheres & E3 & E). apply bind_Ok in E as (groups & E4 & E).
    destruct (forallb compatible (trans ++ aggs ++ wheres ++ groups)%list) eqn:Ec; cbn [negb] in E; [|discriminate E]. injection E as <-. cbn [g_target g_aggs g_trans g_wheres g_groups g_seeds].
    change (given_or (classes compatible_class default_aggs) (l_aggs L)) with (listed_aggs L) in E1. change (given_or (classes compatible_class default_trans) (l_trans L)) with (listed_trans L) in E2.
    change (given_or [GClass count_class] (l_wheres L)) with (listed_wheres L) in E3. change (given_or [] (l_groups L)) with (listed_groups L) in E4.
    apply (prims_of_Ok _ known_aggs) in E1 as (ps1 & M1 & F1 & ->); [|exact aggs_nodup|intros g p H; apply agg_handle in H; apply H].
    apply (prims_of_Ok _ known_trans) in E2 as (ps2 & M2 & F2 & ->); [|exact trans_nodup|intros g p H; apply trans_handle in H; apply H].
    apply (prims_of_Ok _ known_aggs) in E3 as (ps3 & M3 & F3 & ->); [|exact aggs_nodup|intros g p H; exact H].
    apply (prims_of_Ok _ known_trans) in E4 as (ps4 & M4 & F4 & ->); [|exact trans_nodup|intros g p H; apply trans_handle in H; apply H].
    assert (forall l, Permutation l (sorted l)) as Hp by (intros l; apply Permutation_sym, isort_perm).
    split; [apply mem_str_In; exact Et|]. split; [intros H; apply mem_str_In in H; congruence|]. split; [reflexivity|].
    split; [exists ps1; split; [exact F1 | apply Hp]|]. split; [exists ps2; split; [exact F2 | apply Hp]|]. split; [exists ps3; split; [exact F3 | apply Hp]|]. split; [exists ps4; split; [exact F4 | apply Hp]|].
    split; [apply Permutation_sym, isort_perm|]. rewrite forallb_forall in Ec.
    assert (forall l, StronglySorted (fun p q => str_leb (text p) (text q) = true) (sorted l)) as Hs.
    { intros l. apply isort_sorted; first [intros x y z; apply str_leb_trans | intros x y; apply str_leb_total]. }
    assert (forall (one : given -> res prim) (known : prim -> bool) l ps, (forall g p, one g = Ok p -> known p = true) -> mapM one l = Ok ps -> forall p, In p ps -> known p = true) as Hk.
    { intros one known l ps H M. apply mapM_Ok_Forall2 in M. induction M as [|g p l0 ps0 H1 _ IH]; intros q Hq; [destruct Hq|]. destruct Hq as [<- | Hq]; [exact (H _ _ H1) | exact (IH _ Hq)]. }
    split; [|split].
    - intros l Hl. split.
      + cbn in Hl. destruct Hl as [<- | [<- | [<- | [<- | []]]]]; apply Hs.
      + intros p Hpl. apply Ec. rewrite !in_app_iff. cbn in Hl. destruct Hl as [<- | [<- | [<- | [<- | []]]]]; auto.
    - intros p H. apply (Permutation_in _ (Permutation_sym (Hp ps1))) in H. revert p H. apply (Hk _ (fun p => a_isagg (attr p)) _ _ (fun g p H => proj2 (proj1 (agg_handle g p) H)) M1).
    - intros p H. enough (negb (a_isagg (attr p)) = true) as Hx by (destruct (a_isagg (attr p)); [discriminate Hx | reflexivity]).
      assert (forall g p, trans_primitive attr lower new known_trans g = Ok p -> negb (a_isagg (attr p)) = true) as Ht by (intros g q Hq; apply trans_handle in Hq as [_ ->]; reflexivity).
      destruct H as [H|H]; [apply (Permutation_in _ (Permutation_sym (Hp ps2))) in H; revert p H; exact (Hk _ (fun p => negb (a_isagg (attr p))) _ _ Ht M2) |
        apply (Permutation_in _ (Permutation_sym (Hp ps4))) in H; revert p H; exact (Hk _ (fun p => negb (a_isagg (attr p))) _ _ Ht M4)].
  Qed.

  Lemma prims_of_total one known l ps : NoDup (map fst known) -> Forall2 (stands known) l ps -> (forall g p, handle lower new known g = Ok p -> In p ps -> one g = Ok p) -> (forall p, In p ps -> complete p) ->
    prims_of attr params attribute subtype aeq one l = Ok (sorted ps).
  Proof.
    intros Hn HF Ho Hc. unfold prims_of. assert (mapM one l = Ok ps) as ->; [|cbn [bind]; exact (sort_prims_total ps Hc)]. clear Hc.
    induction HF as [|g p l ps H _ IH]; [reflexivity|]. cbn [mapM]. apply (handle_stands known g p Hn) in H. rewrite (Ho g p H (or_introl eq_refl)). cbn [bind].
    rewrite IH; [reflexivity|]. intros g' p' H' Hi. apply Ho; [exact H' | right; exact Hi].
  Qed.
  (** ... and such a request is never refused *)
  Theorem C75_answered L ps1 ps2 ps3 ps4 : In (l_target L) entities -> ~ In (l_target L) (l_ignore_e L) ->
    Forall2 (stands known_aggs) (listed_aggs L) ps1 -> Forall2 (stands known_trans) (listed_trans L) ps2 -> Forall2 (stands known_aggs) (listed_wheres L) ps3 -> Forall2 (stands known_trans) (listed_groups L) ps4 ->
    (forall p, In p (ps1 ++ ps2 ++ ps3 ++ ps4)%list -> complete p /\ compatible p = true) ->
    (forall p, In p ps1 -> a_isagg (attr p) = true) -> (forall p, In p (ps2 ++ ps4)%list -> a_isagg (attr p) = false) ->
    exists A, setup L = Ok A.
  Proof.
    intros Ht Hi F1 F2 F3 F4 Hc Ha Hb. unfold M_Setup.setup. apply mem_str_In in Ht. rewrite Ht. cbn [negb].
    destruct (mem_str (l_target L) (l_ignore_e L)) eqn:Ei; [apply mem_str_In in Ei; contradiction|].
    change (given_or (classes compatible_class default_aggs) (l_aggs L)) with (listed_aggs L). change (given_or (classes compatible_class default_trans) (l_trans L)) with (listed_trans L).
    change (given_or [GClass count_class] (l_wheres L)) with (listed_wheres L). change (given_or [] (l_groups L)) with (listed_groups L).
    rewrite (prims_of_total _ known_aggs _ ps1 aggs_nodup F1); [|intros g p H Hp; apply agg_handle; auto | intros p Hp; apply Hc; rewrite !in_app_iff; auto].
    rewrite (prims_of_total _ known_trans _ ps2 trans_nodup F2); [|intros g p H Hp; apply trans_handle; split; [exact H | apply Hb; rewrite in_app_iff; auto] | intros p Hp; apply Hc; rewrite !in_app_iff; auto].
    rewrite (prims_of_total _ known_aggs _ ps3 aggs_nodup F3); [|intros g p H Hp; exact H | intros p Hp; apply Hc; rewrite !in_app_iff; auto].
    rewrite (prims_of_total _ known_trans _ ps4 trans_nodup F4); [|intros g p H Hp; apply trans_handle; split; [exact H | apply Hb; rewrite in_app_iff; auto] | intros p Hp; apply Hc; rewrite !in_app_iff; auto].
    cbn [bind]. assert (forallb compatible (sorted ps2 ++ sorted ps1 ++ sorted ps3 ++ sorted ps4)%list = true) as ->; [|eexists; reflexivity].
    apply forallb_forall. intros p Hp. apply Hc. rewrite !in_app_iff in *. destruct Hp as [Hp | [Hp | [Hp|Hp]]]; apply (Permutation_in _ (isort_perm _ _)) in Hp; auto.
  Qed.

  Lemma sort_prims_perm l l' r : sort_prims attr params attribute subtype aeq l = Ok r -> Permutation l l' -> (forall p q, In p l -> In q l -> text p = text q -> p = q) ->
    sort_prims attr params attribute subtype aeq l' = Ok r.
  Proof.
    intros E Hp Hd. pose proof (sort_prims_Ok _ _ E) as ->. destruct (Nat.leb_spec (List.length l) 1) as [Hl|Hl].
    - destruct l as [|a [|b l]]; [apply Permutation_nil in Hp as ->; reflexivity | apply Permutation_length_1_inv in Hp as ->; reflexivity | cbn in Hl; lia].
    - rewrite (sort_prims_total l').
      + f_equal. symmetry. apply isort_same; [intros x y z; apply str_leb_trans | intros x y; apply str_leb_total | exact Hp|].
        intros a b Ha Hb H1 H2. apply Hd; [exact Ha | exact Hb | apply str_leb_antisym; assumption].
      + intros p H. apply (Permutation_in _ (Permutation_sym Hp)) in H. unfold sort_prims in E. destruct (Nat.leb_spec (List.length l) 1); [lia|]. apply bind_Ok in E as (ks & E & _).
        clear - E H. revert ks E. induction l as [|q l IH]; intros ks E; [destruct H|]. cbn [mapM] in E. apply bind_Ok in E as (b & E1 & E). apply bind_Ok in E as (bs & E2 & _).
        destruct H as [-> | H]; [|exact (IH H _ E2)]. apply bind_Ok in E1 as (k & E1 & _). unfold prim_key in E1. apply bind_Ok in E1 as (args & Ea & _). exact (arguments_complete _ _ Ea).
  Qed.
  Lemma prims_same one known (good : prim -> bool) l l' r : NoDup (map fst known) -> (forall g p, one g = Ok p <-> handle lower new known g = Ok p /\ good p = true) ->
    prims_of attr params attribute subtype aeq one l = Ok r -> same_primitives lower new known l l' -> told_apart attr lower new params attribute subtype aeq known l ->
    prims_of attr params attribute subtype aeq one l' = Ok r.
  Proof.
    unfold prims_of. intros Hn Ho E (qs & qs' & F & F' & Hp) Hd. apply bind_Ok in E as (ps & E1 & E). apply mapM_Ok_Forall2 in E1.
    assert (ps = qs) as ->.
    { clear - E1 F Hn Ho. revert qs F. induction E1 as [|g p l ps H _ IH]; intros qs F; inversion F as [|g' q l0 qs0 H1 H2]; subst; [reflexivity|].
      f_equal; [|exact (IH _ H2)]. apply Ho in H as [H _]. apply (handle_stands known _ _ Hn) in H. exact (stands_fun known g _ _ Hn H H1). }
    assert (forall q, In q qs -> good q = true) as Hg.
    { clear - E1 Ho. induction E1 as [|g p l ps H _ IH]; intros q Hq; [destruct Hq|]. destruct Hq as [<- | Hq]; [apply Ho in H; apply H | exact (IH q Hq)]. }
    assert (mapM one l' = Ok qs') as ->.
    { assert (forall q, In q qs' -> good q = true) as Hg' by (intros q Hq; apply Hg; exact (Permutation_in _ (Permutation_sym Hp) Hq)).
      clear - F' Hg' Ho Hn. induction F' as [|g p l ps H _ IH]; [reflexivity|]. cbn [mapM]. apply (handle_stands known _ _ Hn) in H.
      rewrite (proj2 (Ho g p) (conj H (Hg' p (or_introl eq_refl)))). cbn [bind]. rewrite IH; [reflexivity|]. intros q Hq. apply Hg'. right. exact Hq. }
    cbn [bind]. apply (sort_prims_perm qs qs' r E Hp). intros p q H1 H2.
    assert (forall q, In q qs -> exists g, In g l /\ stands known g q) as Hs.
    { clear - F. induction F as [|g p l ps H _ IH]; intros q Hq; [destruct Hq|]. destruct Hq as [<- | Hq]; [exists g; split; [left; reflexivity | exact H]|].
      destruct (IH q Hq) as (g' & Hi & H'). exists g'. split; [right; exact Hi | exact H']. }
    destruct (Hs p H1) as (g1 & I1 & S1). destruct (Hs q H2) as (g2 & I2 & S2). exact (Hd g1 g2 p q I1 I2 S1 S2).
  Qed.

  (** the lists stand for the same primitives, the seed features are the same: in whatever order, by name, class or primitive, the search gets the same arguments *)
  Theorem C75_order_partial L L' A : setup L = Ok A ->
    l_target L' = l_target L -> l_depth L' = l_depth L -> l_maxf L' = l_maxf L -> l_paths L' = l_paths L -> l_ignore_e L' = l_ignore_e L -> l_ignore_v L' = l_ignore_v L -> l_options L' = l_options L ->
    l_drop_contains L' = l_drop_contains L -> l_drop_exact L' = l_drop_exact L -> l_limit L' = l_limit L ->
    same_primitives lower new known_aggs (listed_aggs L) (listed_aggs L') -> same_primitives lower new known_trans (listed_trans L) (listed_trans L') ->
    same_primitives lower new known_aggs (listed_wheres L) (listed_wheres L') -> same_primitives lower new known_trans (listed_groups L) (listed_groups L') -> Permutation (l_seeds L) (l_seeds L') ->
    told_apart attr lower new params attribute subtype aeq known_aggs (listed_aggs L) -> told_apart attr lower new params attribute subtype aeq known_trans (listed_trans L) ->
    told_apart attr lower new params attribute subtype aeq known_aggs (listed_wheres L) -> told_apart attr lower new params attribute subtype aeq known_trans (listed_groups L) ->
    (forall f g, In f (l_seeds L) -> In g (l_seeds L) -> funique rels f = funique rels g -> f = g) ->
    setup L' = Ok A.
  Proof.
    intros E Q1 Q2 Q3 Q4 Q5 Q6 Q7 Q8 Q9 Q10 S1 S2 S3 S4 Hseed D1 D2 D3 D4 Hu. revert E. unfold M_Setup.setup. rewrite Q1, Q2, Q3, Q4, Q5, Q6, Q7, Q8, Q9, Q10.
    destruct (negb (mem_str (l_target L) entities)); [discriminate|]. destruct (mem_str (l_target L) (l_ignore_e L)); [discriminate|].
    change (given_or (classes compatible_class default_aggs) (l_aggs L)) with (listed_aggs L). change (given_or (classes compatible_class default_trans) (l_trans L)) with (listed_trans L).
    change (given_or [GClass count_class] (l_wheres L)) with (listed_wheres L). change (given_or [] (l_groups L)) with (listed_groups L).
    change (given_or (classes compatible_class default_aggs) (l_aggs L')) with (listed_aggs L'). change (given_or (classes compatible_class default_trans) (l_trans L')) with (listed_trans L').
    change (given_or [GClass count_class] (l_wheres L')) with (listed_wheres L'). change (given_or [] (l_groups L')) with (listed_groups L').
    intros E. apply bind_Ok in E as (aggs & E1 & E). apply bind_Ok in E as (trans & E2 & E). apply bind_Ok in E as (wheres & E3 & E). apply bind_Ok in E as (groups & E4 & E).
    rewrite (prims_same _ known_aggs (fun p => a_isagg (attr p)) _ _ _ aggs_nodup agg_handle E1 S1 D1).
    assert (forall g p, trans_primitive attr lower new known_trans g = Ok p <-> handle lower new known_trans g = Ok p /\ negb (a_isagg (attr p)) = true) as Ht.
    { intros g p. rewrite trans_handle. destruct (a_isagg (attr p)); cbn; intuition congruence. }
    rewrite (prims_same _ known_trans (fun p => negb (a_isagg (attr p))) _ _ _ trans_nodup Ht E2 S2 D2).
    rewrite (prims_same (where_primitive lower new known_aggs) known_aggs (fun _ => true) _ _ _ aggs_nodup (fun g p => conj (fun H => conj H eq_refl) (fun H => proj1 H)) E3 S3 D3).
    rewrite (prims_same _ known_trans (fun p => negb (a_isagg (attr p))) _ _ _ trans_nodup Ht E4 S4 D4). cbn [bind].
    destruct (negb (forallb compatible (trans ++ aggs ++ wheres ++ groups)%list)); [discriminate E|]. rewrite <- E. f_equal. f_equal. symmetry.
    apply isort_same; [intros x y z; apply str_leb_trans | intros x y; apply str_leb_total | exact Hseed|].
    intros a b Ha Hb H1 H2. apply Hu; [exact Ha | exact Hb | apply str_leb_antisym; assumption].
  Qed.
End Setup.

(** ** Customers, sessions and events: the lists of C73, written in two ways *)
From Verif Require Import X_Demo M_Time.
Definition s_new (k : nat) : res prim := match k with 1 => Ok p_sum | 2 => Ok Count | 3 => Ok p_abs | _ => Err TypeError end.
Notation s_setup params := (setup ["cust"; "sess"; "event"] demo_rels m_attr M_Time.lower s_new [("sum", 1); ("count", 2)] [("absolute", 3)] (fun _ => true) (fun _ => true) [1; 2] [3] 2 params
  (fun _ n => if String.eqb n "n" then Some (mkAval 1 "5") else None) Nat.eqb (fun a b => String.eqb (v_text a) (v_text b))).
Definition s_call (aggs trans : option (list given)) : call := mkCall "cust" aggs trans None None 2 (-1) [] [] [] [] [] [] [] 1.
Example C75_nonvacuous :
  s_setup (fun _ => []) (s_call (Some [GName "Sum"; GName "COUNT"]) None) = Ok m_args /\
  s_setup (fun _ => []) (s_call (Some [GInst Count; GClass 1]) (Some [GName "absolute"])) = Ok m_args /\
  text m_attr (fun _ => [mkParam "n" true (Some (mkAval 1 "3")); mkParam "args" false None]) (fun _ n => if String.eqb n "n" then Some (mkAval 1 "5") else None) Nat.eqb (fun a b => String.eqb (v_text a) (v_text b)) Count = "count, n=5".
Proof.
  assert (NoDup (map fst [("sum", 1); ("count", 2)])) as Hn by (repeat constructor; cbn; intuition discriminate). assert (NoDup (map fst [("absolute", 3)])) as Hn' by (repeat constructor; cbn; intuition).
  assert (s_setup (fun _ => []) (s_call (Some [GName "Sum"; GName "COUNT"]) None) = Ok m_args) as E by reflexivity.
  split; [exact E|]. split; [|reflexivity].
  apply (C75_order_partial _ _ _ _ _ _ _ _ _ _ _ _ _ _ _ _ Hn Hn' _ (s_call (Some [GInst Count; GClass 1]) (Some [GName "absolute"])) m_args E); try reflexivity.
  - exists [p_sum; Count], [Count; p_sum]. split; [|split].
    + constructor; [apply (stands_name _ _ _ "Sum" 1); [cbn; auto | reflexivity] | constructor; [apply (stands_name _ _ _ "COUNT" 2); [cbn; auto | reflexivity] | constructor]].
    + constructor; [constructor | constructor; [constructor; reflexivity | constructor]].
    + apply perm_swap.
  - exists [p_abs], [p_abs]. split; [|split; [|apply Permutation_refl]].
    + constructor; [constructor; reflexivity | constructor].
    + constructor; [apply (stands_name _ _ _ "absolute" 3); [cbn; auto | reflexivity] | constructor].
  - exists [Count], [Count]. split; [constructor; [constructor; reflexivity | constructor]|]. split; [constructor; [constructor; reflexivity | constructor] | apply Permutation_refl].
  - exists [], []. split; [constructor|]. split; [constructor | constructor].
  - intros g h p q Hg Hh Hp Hq. apply (handle_stands _ _ _ _ _ Hn) in Hp, Hq. cbn in Hg, Hh. destruct Hg as [<- | [<- | []]]; destruct Hh as [<- | [<- | []]]; cbn in Hp, Hq; injection Hp as <-; injection Hq as <-; vm_compute; congruence.
  - intros g h p q Hg Hh Hp Hq. apply (handle_stands _ _ _ _ _ Hn') in Hp, Hq. cbn in Hg, Hh. destruct Hg as [<- | []]; destruct Hh as [<- | []]; cbn in Hp, Hq; congruence.
  - intros g h p q Hg Hh Hp Hq. apply (handle_stands _ _ _ _ _ Hn) in Hp, Hq. cbn in Hg, Hh. destruct Hg as [<- | []]; destruct Hh as [<- | []]; cbn in Hp, Hq; congruence.
  - intros g h p q [].
  - intros f g [].
Qed.

(** ** Two primitives written alike (made with make_trans_primitive, whose arguments are not part of the name): the order of the list decides what the feature computes *)
Definition p_scale (k : Z) : prim := mkPrim "Scale" 1 false false VNull false (call_name "SCALE" []) (fun _ _ _ _ _ => "") (fun _ cs => [map (fun v => VNum (k * num v)) (hd [] cs)]) (fun _ _ => []).
Definition s_attr (p : prim) : pattr := mkPa "scale" 5 5 false false None None None None None.
Definition s_dfs (l : list given) : res (list feat) :=
  do A <- setup ["t"] [] s_attr M_Time.lower s_new [] [] (fun _ => true) (fun _ => true) [] [] 2 (fun _ => []) (fun _ _ => None) Nat.eqb (fun _ _ => true)
    (mkCall "t" (Some []) (Some l) (Some []) None 1 (-1) [] [] [] [] [] [] [] 1);
  build_features ["t"] (fun _ => ["id"; "a"]) (fun _ v => if String.eqb v "id" then Some YIndex else Some YNumeric) (fun _ _ => []) (fun _ => Some "id") [] (fun _ => Some YNumeric) (fun _ => Some [[YNumeric]])
    s_attr Nat.eqb (fun _ => p_scale 0) (fun _ => Some 1) M_Time.lower (fun l => l) A None 4 6.
Theorem C75_order_refuted : exists fs gs, s_dfs [GInst (p_scale 2); GInst (p_scale 3)] = Ok fs /\ s_dfs [GInst (p_scale 3); GInst (p_scale 2)] = Ok gs /\
  map (fname []) fs = ["a"; "SCALE(a)"] /\ map (fname []) gs = ["a"; "SCALE(a)"] /\
  map (fun f => match fprim f with Some p => p_trans p None [[VNum 10]] | None => [] end) fs = [[]; [[VNum 20]]] /\
  map (fun f => match fprim f with Some p => p_trans p None [[VNum 10]] | None => [] end) gs = [[]; [[VNum 30]]].
Proof.
  destruct (s_dfs [GInst (p_scale 2); GInst (p_scale 3)]) as [fs|] eqn:E; [|vm_compute in E; discriminate E]. destruct (s_dfs [GInst (p_scale 3); GInst (p_scale 2)]) as [gs|] eqn:F; [|vm_compute in F; discriminate F].
  exists fs, gs. vm_compute in E, F. injection E as <-. injection F as <-. repeat split; vm_compute; reflexivity.
Qed.
(** ** where primitives are not checked: a transform primitive is taken without a complaint, as an aggregation primitive it is refused *)
Theorem C75_where_refuted : (exists A, s_setup (fun _ => []) (mkCall "cust" None None (Some [GInst p_abs]) None 2 (-1) [] [] [] [] [] [] [] 1) = Ok A /\ g_wheres A = [p_abs] /\ a_isagg (m_attr p_abs) = false) /\
  s_setup (fun _ => []) (s_call (Some [GInst p_abs]) None) = Err ValueError.
Proof. split; [eexists; split; [reflexivity | split; reflexivity] | reflexivity]. Qed.

Print Assumptions C75_accepted.
Print Assumptions C75_answered.
Print Assumptions C75_order_partial.
Print Assumptions C75_order_refuted.
Print Assumptions C75_where_refuted.
